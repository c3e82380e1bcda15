(** Proofs about elements of different dimensions. *)
From Coq Require Import List ZArith Lia Bool Arith.
From Verif Require Import Base.Go Base.Num Model.Clustering Model.Par Model.Euclid Model.Cosinus Model.Buffer Model.Kmeans Model.KmeansInit
  Model.Streaming Model.Status Model.Finish Model.CtrlLang Model.CtrlCode Model.CtrlSeq Model.System Model.HeapPar Model.Checked Spec.CheckedSpec Proofs.GoLemmas Spec.NearestSpec Proofs.HeapParProofs Proofs.SpaceMain.
Import ListNotations.

Lemma ofold_ext {A S} (f g : S -> A -> outcome S) (Inv : S -> Prop) l : forall s,
  (forall s x, Inv s -> In x l -> f s x = g s x /\ forall s', g s x = Ok s' -> Inv s') -> Inv s ->
  ofold f l s = ofold g l s /\ forall s', ofold g l s = Ok s' -> Inv s'.
Proof.
  induction l as [|x l IH]; intros s H I; cbn [ofold].
  - split; [reflexivity|]. intros s' Hs. injection Hs as <-. exact I.
  - destruct (H s x I (or_introl eq_refl)) as [-> H2]. destruct (g s x) as [s1|]; cbn [obind]; [|split; [reflexivity|discriminate]].
    apply IH; [|apply H2; reflexivity]. intros s2 y I2 Hy. apply H; [exact I2|right; exact Hy].
Qed.

Lemma ofold_inv {A S} (f : S -> A -> outcome S) (Inv : list A -> S -> Prop) l : forall done s s',
  (forall d s x s', Inv d s -> In x l -> f s x = Ok s' -> Inv (d ++ [x]) s') -> Inv done s -> ofold f l s = Ok s' -> Inv (done ++ l) s'.
Proof.
  induction l as [|x l IH]; intros done s s' H I Hs; cbn [ofold] in Hs.
  - injection Hs as <-. rewrite app_nil_r. exact I.
  - destruct (f s x) as [s1|] eqn:E; cbn [obind] in Hs; [|discriminate]. replace (done ++ x :: l) with ((done ++ [x]) ++ l) by (rewrite <- app_assoc; reflexivity).
    apply (IH _ s1); [|apply (H _ s); [exact I|left; reflexivity|exact E]|exact Hs].
    intros d s2 y s3 I2 Hy. apply H; [exact I2|right; exact Hy].
Qed.

Lemma sset_inv {A} (l : list A) i a r : sset l i a = Ok r -> exists n, i = Z.of_nat n /\ n < length l /\ r = upd l n a.
Proof.
  unfold sset. destruct (Z.ltb_spec i 0) as [|Hi]; [discriminate|]. destruct (Nat.ltb_spec (Z.to_nat i) (length l)) as [Hl|]; [|discriminate].
  intros Hr. injection Hr as <-. exists (Z.to_nat i). split; [lia|]. split; [exact Hl|reflexivity].
Qed.
Lemma sget_inv {A} (l : list A) i a : sget l i = Ok a -> exists n, i = Z.of_nat n /\ nth_error l n = Some a.
Proof.
  unfold sget. destruct (Z.ltb_spec i 0) as [|Hi]; [discriminate|]. destruct (nth_error l (Z.to_nat i)) as [b|] eqn:E; [|discriminate].
  intros Hr. injection Hr as <-. exists (Z.to_nat i). split; [lia|exact E].
Qed.
Lemma Forall_upd {A} (Q : A -> Prop) l : forall n a, Forall Q l -> Q a -> Forall Q (upd l n a).
Proof. induction l as [|b l IH]; intros [|n] a H Ha; cbn; inversion H; subst; constructor; auto. Qed.
Lemma Forall_nth {A} (Q : A -> Prop) l n a : Forall Q l -> nth_error l n = Some a -> Q a.
Proof. intros H Hn. apply (proj1 (Forall_forall Q l) H). apply nth_error_In with n. exact Hn. Qed.

(** ** Same operations *)
Section Agree.
Context {E F : Type} (N : Num F) (K : checked E F) (Sp : Space E F) (P : E -> Prop).
Hypothesis HA : agrees K Sp P.

Lemma knearest_loop_eq cs x : Forall P cs -> P x -> forall i l m, knearest_loop N K cs x i l m = Ok (nearest_loop N Sp cs x i l m).
Proof.
  intros Hc Hx. induction Hc as [|c cs Hp Hc IH]; intros i l m; cbn [knearest_loop nearest_loop]; [reflexivity|].
  rewrite (proj1 HA x c Hx Hp). cbn [obind]. destruct (_ || _); apply IH.
Qed.
Lemma kassign_eq c x : Forall P c -> P x -> kassign N K c x = assign N Sp c x.
Proof. intros Hc Hx. unfold kassign, assign, knearest, nearest. rewrite (knearest_loop_eq c x Hc Hx). reflexivity. Qed.

Definition some_in (o : option E) : Prop := match o with Some m => P m | None => True end.
Definition means_in (st : list (option E) * list Z) : Prop := Forall some_in (fst st).

Lemma kdba_add_eq l x st : means_in st -> P x -> kdba_add K l x st = dba_add Sp l x st /\ forall st', dba_add Sp l x st = Ok st' -> means_in st'.
Proof.
  intros HI Hx. destruct st as [means cards]. destruct HA as (_ & HC & HP). unfold kdba_add, dba_add, means_in in *. cbn [fst] in *.
  destruct (sget cards l) as [n|]; cbn [obind]; [|split; [reflexivity|discriminate]].
  destruct (n =? 0)%Z.
  - destruct (HP x Hx) as [-> Hx']. split; [reflexivity|]. intros st'.
    destruct (sset means l _) as [ms|] eqn:Em; cbn [obind]; [|discriminate]. destruct (sset cards l 1%Z) as [cs|]; cbn [obind]; [|discriminate].
    intros Hs. injection Hs as <-. cbn [fst]. apply sset_inv in Em as (k & _ & _ & ->). apply Forall_upd; [exact HI|exact Hx'].
  - destruct (sget means l) as [m|] eqn:Eg; cbn [obind]; [|split; [reflexivity|discriminate]].
    destruct m as [m|]; [|split; [reflexivity|discriminate]].
    assert (Hm : P m). { apply sget_inv in Eg as (k & _ & Hk). apply (Forall_nth some_in means k (Some m) HI Hk). }
    destruct (HC m n x 1%Z Hm Hx) as [-> Hr]. cbn [obind]. split; [reflexivity|]. intros st'.
    destruct (sset means l _) as [ms|] eqn:Em; cbn [obind]; [|discriminate]. destruct (sset cards l _) as [cs|]; cbn [obind]; [|discriminate].
    intros Hs. injection Hs as <-. cbn [fst]. apply sset_inv in Em as (k & _ & _ & ->). apply Forall_upd; [exact HI|exact Hr].
Qed.

Lemma kreduce_eq c xs : Forall P c -> Forall P xs ->
  kreduce_dba N K c xs = reduce_dba N Sp c xs /\ forall st, reduce_dba N Sp c xs = Ok st -> means_in st.
Proof.
  intros Hc Hx. unfold kreduce_dba, reduce_dba. apply ofold_ext.
  - intros st x HI Hi. assert (Px : P x) by (apply (proj1 (Forall_forall P xs) Hx); exact Hi). rewrite (kassign_eq c x Hc Px).
    destruct (assign N Sp c x) as [[[cl l] d]|]; cbn [obind]; [|split; [reflexivity|discriminate]]. apply kdba_add_eq; assumption.
  - unfold means_in. cbn [fst]. apply Forall_forall. intros o Ho. apply repeat_spec in Ho. subst o. exact I.
Qed.

Lemma kseq_eq c xs : Forall P c -> Forall P xs -> kseq_iterate N K c xs = seq_iterate N Sp c xs.
Proof. intros Hc Hx. unfold kseq_iterate, seq_iterate. rewrite (proj1 (kreduce_eq c xs Hc Hx)). reflexivity. Qed.

Lemma kcombine_eq a o : means_in a -> means_in o ->
  kdba_combine K a (Some o) = dba_combine Sp a o /\ forall st, dba_combine Sp a o = Ok st -> means_in st.
Proof.
  intros Ha Ho. unfold kdba_combine, dba_combine. apply ofold_ext; [|exact Ha].
  intros [dbas cards] i HI _. unfold means_in in *. cbn [fst] in *. destruct HA as (_ & HC & _).
  destruct (sget cards i) as [ci|]; cbn [obind]; [|split; [reflexivity|discriminate]].
  destruct (ci =? 0)%Z.
  - split; [reflexivity|]. intros st'. destruct (sget (fst o) i) as [od|] eqn:Eo; cbn [obind]; [|discriminate].
    destruct (sset dbas i od) as [ds|] eqn:Es; cbn [obind]; [|discriminate]. destruct (sget (snd o) i) as [oc|]; cbn [obind]; [|discriminate].
    destruct (sset cards i oc) as [cs|]; cbn [obind]; [|discriminate]. intros Hs. injection Hs as <-. cbn [fst].
    apply sset_inv in Es as (k & _ & _ & ->). apply sget_inv in Eo as (j & _ & Hj). apply Forall_upd; [exact HI|apply (Forall_nth some_in (fst o) j od Ho Hj)].
  - destruct (sget (snd o) i) as [oc|]; cbn [obind]; [|split; [reflexivity|discriminate]].
    destruct (0 <? oc)%Z; [|split; [reflexivity|intros st' Hs; injection Hs as <-; exact HI]].
    destruct (sget dbas i) as [ad|] eqn:Ea; cbn [obind]; [|split; [reflexivity|discriminate]].
    destruct (sget (fst o) i) as [od|] eqn:Eo; cbn [obind]; [|split; [reflexivity|discriminate]].
    destruct ad as [ad|]; [|split; [reflexivity|discriminate]]. destruct od as [od|]; [|split; [reflexivity|discriminate]].
    assert (Pa : P ad). { apply sget_inv in Ea as (k & _ & Hk). apply (Forall_nth some_in dbas k (Some ad) HI Hk). }
    assert (Po : P od). { apply sget_inv in Eo as (k & _ & Hk). apply (Forall_nth some_in (fst o) k (Some od) Ho Hk). }
    destruct (HC ad ci od oc Pa Po) as [-> Hr]. cbn [obind]. split; [reflexivity|]. intros st'.
    destruct (sset dbas i _) as [ms|] eqn:Em; cbn [obind]; [|discriminate]. destruct (sset cards i _) as [cs|]; cbn [obind]; [|discriminate].
    intros Hs. injection Hs as <-. cbn [fst]. apply sset_inv in Em as (k & _ & _ & ->). apply Forall_upd; [exact HI|exact Hr].
Qed.

Lemma kaggregate_loop parts : Forall means_in parts -> forall agg, (forall a, agg = Some a -> means_in a) ->
  ofold (fun agg part => match agg with None => Ok part | Some a => let* r := kdba_combine K a part in Ok (Some r) end) (map Some parts) agg
  = ofold (dba_aggregate_step Sp) parts agg.
Proof.
  induction parts as [|p parts IH]; intros HP agg HI; cbn [map ofold]; [reflexivity|]. inversion HP as [|p' ps' Hp Hps]; subst.
  destruct agg as [a|]; cbn [dba_aggregate_step].
  - destruct (kcombine_eq a p (HI a eq_refl) Hp) as [-> Hr]. destruct (dba_combine Sp a p) as [r|]; cbn [obind]; [|reflexivity].
    apply IH; [exact Hps|]. intros b Hb. injection Hb as <-. apply Hr. reflexivity.
  - cbn [obind]. apply IH; [exact Hps|]. intros b Hb. injection Hb as <-. exact Hp.
Qed.

Lemma kjoin_eq c parts : parts <> [] -> Forall means_in parts -> kpar_join K c (map Some parts)
  = let* a := dba_aggregate Sp parts in let* r := build_result c a in Ok (fst r).
Proof.
  intros _ HP. unfold kpar_join, kdba_aggregate, dba_aggregate.
  rewrite (kaggregate_loop parts HP None) by discriminate.
  destruct (ofold (dba_aggregate_step Sp) parts None) as [[a|]|]; reflexivity.
Qed.
End Agree.

(** ** The process *)
Section Process.
Context {E F : Type} (N : Num F) (K : checked E F).

Lemma psteps_trans c p1 p2 p3 : psteps K c p1 p2 -> psteps K c p2 p3 -> psteps K c p1 p3.
Proof. intros H. revert p3. induction H as [|a b d H1 H2 IH]; intros p3 H3; [exact H3|]. apply pss_cons with b; [exact H1|]. apply IH. exact H3. Qed.

(** A goroutine that panics or has panicked is still there. *)
Definition doomed (p : procs E) : Prop := p_dead p = true \/ In (GWork Panic) (p_gors p) \/ In GPanic (p_gors p).
Lemma in_upd {A} (l : list A) : forall i a x, In x (upd l i a) -> x = a \/ In x l.
Proof. induction l as [|b l IH]; intros [|i] a x H; cbn in *; [contradiction|contradiction|destruct H; auto|]. destruct H as [H|H]; [auto|]. destruct (IH i a x H); auto. Qed.
Lemma in_upd_old {A} (l : list A) : forall i a b x, nth_error l i = Some b -> In x l -> x <> b -> In x (upd l i a).
Proof.
  induction l as [|c l IH]; intros [|i] a b x Hn Hx D; cbn in *; try contradiction.
  - injection Hn as <-. destruct Hx as [->|Hx]; [contradiction D; reflexivity|right; exact Hx].
  - destruct Hx as [->|Hx]; [left; reflexivity|right; apply IH with b; assumption].
Qed.
Lemma in_upd_new {A} (l : list A) : forall i a b, nth_error l i = Some b -> In a (upd l i a).
Proof. induction l as [|c l IH]; intros [|i] a b Hn; cbn in *; try discriminate; [left; reflexivity|right; apply IH with b; exact Hn]. Qed.

Lemma pstep_doomed c p p' : doomed p -> pstep K c p p' -> doomed p'.
Proof.
  intros D H. destruct H as [gs i q m Hi|gs i m Hi|gs Hn|gs m Hp]; unfold doomed in *; cbn [p_dead p_gors] in *.
  - destruct D as [D|[D|D]]; [discriminate| |]; right; [left|right]; (apply in_upd_old with (GWork (Ok q)); [exact Hi|exact D|discriminate]).
  - right. right. apply in_upd_new with (GWork Panic). exact Hi.
  - destruct D as [D|D]; [discriminate|]. right. exact D.
  - left. reflexivity.
Qed.
Lemma psteps_doomed c p p' : doomed p -> psteps K c p p' -> doomed p'.
Proof. intros D H. induction H as [|a b d H1 H2 IH]; [exact D|]. apply IH. apply (pstep_doomed c a b D H1). Qed.

Lemma doomed_dies c p : doomed p -> exists p', psteps K c p p' /\ p_dead p' = true.
Proof.
  destruct p as [gs m d]. unfold doomed. cbn. intros [->|D]; [exists (mkProcess gs m true); split; [apply pss_nil|reflexivity]|].
  destruct d; [exists (mkProcess gs m true); split; [apply pss_nil|reflexivity]|]. destruct D as [D|D].
  - destruct (In_nth_error gs _ D) as [i Hi]. exists (mkProcess (upd gs i GPanic) m true). split; [|reflexivity].
    apply pss_cons with (mkProcess (upd gs i GPanic) m false); [apply ps_panic; exact Hi|]. apply pss_cons with (mkProcess (upd gs i GPanic) m true); [|apply pss_nil].
    apply ps_exit. apply in_upd_new with (GWork Panic). exact Hi.
  - exists (mkProcess gs m true). split; [|reflexivity]. apply pss_cons with (mkProcess gs m true); [apply ps_exit; exact D|apply pss_nil].
Qed.
Lemma doomed_stuck c p : doomed p -> stuck K c p -> p_dead p = true.
Proof.
  intros D S. destruct p as [gs m [|]]; [reflexivity|]. destruct (doomed_dies c (mkProcess gs m false) D) as (p' & H & Hd).
  inversion H as [|p1 p2 p3 H1 H2]; subst; [exact Hd|]. contradiction (S _ H1).
Qed.
Lemma doomed_fatal c p : doomed p -> fatal K c p.
Proof. intros D p' H. pose proof (psteps_doomed c p p' D H) as D'. split; [apply doomed_dies; exact D'|apply doomed_stuck; exact D']. Qed.

(** No goroutine panics: the parts are those of the goroutines. *)
Definition going (parts : list (list (option E) * list Z)) (c : list E) (p : procs E) : Prop :=
  Forall2 (fun q g => g = GWork (Ok q) \/ g = GDone q) parts (p_gors p) /\ p_dead p = false /\
  (p_main p = None \/ p_main p = Some (kpar_join K c (map Some parts))).

Lemma Forall2_upd_r {A B} (R : A -> B -> Prop) l r : Forall2 R l r -> forall i a b, nth_error l i = Some a -> R a b -> Forall2 R l (upd r i b).
Proof.
  induction 1 as [|x y l r H HF IH]; intros [|i] a b Hn HR; cbn in *; try discriminate; constructor; auto.
  - injection Hn as <-. exact HR.
  - apply IH with a; assumption.
Qed.
Lemma going_step parts c p p' : going parts c p -> pstep K c p p' -> going parts c p'.
Proof.
  intros (HF & HD & HM) H. destruct H as [gs i q m Hi|gs i m Hi|gs Hn|gs m Hp]; unfold going in *; cbn [p_gors p_dead p_main] in *.
  - destruct (forall2_nth _ _ _ HF i _ Hi) as (q' & Hq & [Hg|Hg]); [|discriminate]. injection Hg as ->.
    split; [|split; [reflexivity|exact HM]]. apply Forall2_upd_r with q'; [exact HF|exact Hq|right; reflexivity].
  - destruct (forall2_nth _ _ _ HF i _ Hi) as (q' & Hq & [Hg|Hg]); discriminate.
  - split; [exact HF|]. split; [reflexivity|]. right. f_equal. f_equal. clear HM HD. revert Hn. induction HF as [|q g ps gs Hg HF IH]; intros Hn; [reflexivity|].
    cbn [map]. f_equal; [|apply IH; intros r Hr; apply (Hn r); right; exact Hr].
    destruct Hg as [->| ->]; [contradiction (Hn (Ok q)); left; reflexivity|reflexivity].
  - exfalso. clear HM HD. induction HF as [|q g ps gs Hg HF IH]; [contradiction|]. destruct Hp as [->|Hp]; [destruct Hg; discriminate|apply IH; exact Hp].
Qed.
Lemma going_steps parts c p p' : going parts c p -> psteps K c p p' -> going parts c p'.
Proof. intros G H. induction H as [|a b d H1 H2 IH]; [exact G|]. apply IH. apply (going_step parts c a b G H1). Qed.
End Process.

Section Same.
Context {E F : Type} (N : Num F) (K : checked E F) (Sp : Space E F) (P : E -> Prop).
Hypothesis HA : agrees K Sp P.

Lemma omap_forall2 {A B} (f : A -> outcome B) l : forall ys, omap f l = Ok ys -> Forall2 (fun x y => f x = Ok y) l ys.
Proof.
  induction l as [|x l IH]; intros ys; cbn [omap]; [intros H; injection H as <-; constructor|].
  destruct (f x) as [y|] eqn:E1; cbn [obind]; [|discriminate]. destruct (omap f l) as [ys'|]; cbn [obind]; [|discriminate].
  intros H. injection H as <-. constructor; [exact E1|]. apply IH. reflexivity.
Qed.

Lemma same_par degree c data v : Forall P c -> Forall P data -> par_iterate N Sp degree c data = Ok v ->
  exists p, kpar_start N K degree c data = Ok p /\ forall p', psteps K c p p' ->
    p_dead p' = false /\ (p_main p' = None \/ p_main p' = Some (Ok v)).
Proof.
  intros Hc Hd Hv. unfold par_iterate, par_reduce_dba in Hv. unfold kpar_start.
  destruct (par_ranges (slen data) degree) as [ranges|] eqn:Er; cbn [obind] in *; [|discriminate].
  destruct (omap _ ranges) as [results|] eqn:Eo in Hv; cbn [obind] in Hv; [|discriminate].
  assert (Eo' : omap (fun rg => let* part := (let '(start, e, _) := rg in sslice data start e) in reduce_dba N Sp c part) ranges = Ok results).
  { rewrite <- Eo. clear. induction ranges as [|[[s e] k] rs IH]; cbn [omap]; [reflexivity|]. rewrite IH. reflexivity. }
  apply omap_split in Eo' as (parts & Ep & Eq). 
  pose proof Ep as Ep'. cbv beta in Ep'. rewrite Ep'. cbn [obind]. eexists. split; [reflexivity|].
  assert (Hparts : Forall (Forall P) parts).
  { assert (Hk : hpar_chunks data degree = Ok parts) by (unfold hpar_chunks; rewrite Er; exact Ep').
    apply chunks_concat in Hk. apply Forall_forall. intros q Hq. apply Forall_forall. intros x Hx.
    apply (proj1 (Forall_forall P data) Hd). rewrite <- Hk. apply in_concat. exists q. split; assumption. }
  apply omap_forall2 in Eq.
  assert (Hres : Forall2 (fun part r => kreduce_dba N K c part = Ok r /\ means_in P r) parts results).
  { clear Ep Ep' Eo Er Hv. revert Hparts. induction Eq as [|part r ps rs H1 H2 IH]; intros Hparts; [constructor|]. inversion Hparts as [|p1 ps1 Hp Hps]; subst.
    destruct (kreduce_eq N K Sp P HA c part Hc Hp) as [Q1 Q2]. constructor; [|apply IH; exact Hps].
    split; [rewrite Q1; exact H1|apply Q2; exact H1]. }
  assert (HM : Forall (means_in P) results).
  { clear - Hres. induction Hres as [|part r ps rs [H1 H2] H IH]; constructor; assumption. }
  assert (Hj : kpar_join K c (map Some results) = Ok v).
  { destruct results as [|r0 rs0] eqn:Ers.
    - cbn [dba_aggregate ofold obind] in Hv. unfold kpar_join, kdba_aggregate. cbn [map ofold obind].
      unfold dba_aggregate in Hv. cbn [ofold obind] in Hv.  exact Hv.
    - rewrite (kjoin_eq K Sp P HA c (r0 :: rs0)); [|discriminate|exact HM].
      destruct (dba_aggregate Sp (r0 :: rs0)) as [a|]; cbn [obind] in *; [|discriminate]. exact Hv. }
  intros p' Hp'. assert (G : going K results c (mkProcess (map (fun part => GWork (kreduce_dba N K c part)) parts) None false)).
  { split; [|split; [reflexivity|left; reflexivity]]. cbn [p_gors]. clear - Hres. induction Hres as [|part r ps rs [H1 _] H IH]; [constructor|].
    cbn [map]. constructor; [left; rewrite H1; reflexivity|exact IH]. }
  destruct (going_steps K results c _ p' G Hp') as (_ & D & M). split; [exact D|]. rewrite Hj in M. exact M.
Qed.
End Same.

(** ** Sizes *)
Section Sizes.
Context {E F : Type} (N : Num F) (K : checked E F) (sz : E -> nat).
Hypothesis HS : sized K sz.

Definition covers (k : nat) (xs : list E) (st : list (option E) * list Z) : Prop :=
  length (fst st) = k /\
  (forall i m, nth_error (fst st) i = Some (Some m) -> exists n, nth_error (snd st) i = Some n /\ (0 < n)%Z) /\
  (forall x, In x xs -> exists i m, nth_error (fst st) i = Some (Some m) /\ sz m <= sz x).

Lemma add_covers k l x xs st st' : covers k xs st -> kdba_add K l x st = Ok st' -> covers k (xs ++ [x]) st'.
Proof.
  destruct st as [means cards]. intros (L & HC & HX). unfold kdba_add. cbn [fst snd] in *.
  destruct (sget cards l) as [n|] eqn:Ec; cbn [obind]; [|discriminate]. destruct (sget_inv _ _ _ Ec) as (j & -> & Hj).
  assert (G : forall m ms n' cs, sset means (Z.of_nat j) (Some m) = Ok ms -> sset cards (Z.of_nat j) n' = Ok cs -> (0 < n')%Z -> sz m <= sz x ->
                (forall m0, nth_error means j = Some (Some m0) -> sz m = sz m0) -> covers k (xs ++ [x]) (ms, cs)).
  { intros m ms n' cs E1 E2 Pn Sx Sm. destruct (sset_inv _ _ _ _ E1) as (j1 & J1 & L1 & ->). destruct (sset_inv _ _ _ _ E2) as (j2 & J2 & L2 & ->).
    assert (j1 = j) by lia. assert (j2 = j) by lia. subst j1 j2. unfold covers. cbn [fst snd]. rewrite upd_length. split; [exact L|]. split.
    - intros i m1 Hi. rewrite (nth_upd_at cards j n' i L2). rewrite (nth_upd_at means j _ i L1) in Hi. destruct (Nat.eqb_spec j i) as [<-|D].
      + exists n'. split; [reflexivity|exact Pn].
      + apply HC with m1. exact Hi.
    - intros z Hz. apply in_app_or in Hz as [Hz|[<-|[]]].
      + destruct (HX z Hz) as (i & m1 & Hi & Hs). destruct (Nat.eq_dec i j) as [->|D].
        * exists j, m. rewrite (nth_upd_at means j _ j L1), Nat.eqb_refl. split; [reflexivity|]. rewrite (Sm m1 Hi). exact Hs.
        * exists i, m1. rewrite (nth_upd_at means j _ i L1). destruct (Nat.eqb_spec j i) as [<-|_]; [contradiction D; reflexivity|]. split; assumption.
      + exists j, m. rewrite (nth_upd_at means j _ j L1), Nat.eqb_refl. split; [reflexivity|exact Sx]. }
  destruct (Z.eqb_spec n 0) as [->|Hn].
  - destruct (sset means _ _) as [ms|] eqn:E1; cbn [obind]; [|discriminate]. destruct (sset cards _ _) as [cs|] eqn:E2; cbn [obind]; [|discriminate].
    intros H. injection H as <-. apply (G (kcopy K x) ms 1%Z cs E1 E2); [lia|rewrite (proj2 (proj2 HS)); lia|].
    intros m0 Hm0. destruct (HC j m0 Hm0) as (n0 & Hn0 & Pn0). rewrite Hj in Hn0. injection Hn0 as <-. lia.
  - destruct (sget means _) as [[m|]|] eqn:Em; cbn [obind]; [|discriminate|discriminate].
    destruct (sget_inv _ _ _ Em) as (j' & Hjj & Hm). assert (j' = j) by lia. subst j'.
    destruct (kcombine K m n x 1%Z) as [r|] eqn:Er; cbn [obind]; [|discriminate].
    destruct (sset means _ _) as [ms|] eqn:E1; cbn [obind]; [|discriminate]. destruct (sset cards _ _) as [cs|] eqn:E2; cbn [obind]; [|discriminate].
    intros H. injection H as <-. destruct (proj1 (proj2 HS) m n x 1%Z r Er) as [S1 S2].
    destruct (HC j m Hm) as (n0 & Hn0 & Pn0). rewrite Hj in Hn0. injection Hn0 as <-.
    apply (G r ms (n + 1)%Z cs E1 E2); [lia|lia|]. intros m0 Hm0. rewrite Hm in Hm0. injection Hm0 as <-. exact S2.
Qed.

Lemma empty_covers k : covers k [] (repeat None k, repeat 0%Z k).
Proof.
  unfold covers. cbn [fst snd]. split; [apply repeat_length|]. split; [|intros x []].
  intros i m H. apply nth_error_In in H. apply repeat_spec in H. discriminate.
Qed.

Lemma reduce_covers c xs st : kreduce_dba N K c xs = Ok st -> covers (length c) xs st.
Proof.
  intros H. apply (ofold_inv _ (fun d st => covers (length c) d st) xs [] _ st) in H; [exact H| |apply empty_covers].
  intros d s x s' Hs _. destruct (kassign N K c x) as [[[cl l] di]|]; cbn [obind]; [|discriminate]. apply add_covers. exact Hs.
Qed.

Lemma combine_covers k xs ys a o r : covers k xs a -> covers k ys o -> kdba_combine K a (Some o) = Ok r -> covers k (xs ++ ys) r.
Proof.
  intros Ha Ho H. unfold kdba_combine in H.
  set (J := fun (d : list Z) (st : list (option E) * list Z) => covers k xs st /\
    forall n mo, In (Z.of_nat n) d -> nth_error (fst o) n = Some (Some mo) -> exists m, nth_error (fst st) n = Some (Some m) /\ sz m <= sz mo).
  apply (ofold_inv _ J _ []) in H.
  - destruct H as ((L & HC & HX) & HJ). split; [exact L|]. split; [exact HC|]. intros z Hz. apply in_app_or in Hz as [Hz|Hz]; [apply HX; exact Hz|].
    destruct Ho as (Lo & _ & HO). destruct (HO z Hz) as (n & mo & Hn & Hs). destruct (HJ n mo) as (m & Hm & Hs').
    + cbn [app]. apply in_map. apply in_seq. assert (n < length (fst o)) by (apply nth_error_Some; congruence). destruct Ha as (La & _). lia.
    + exact Hn.
    + exists n, m. split; [exact Hm|lia].
  - intros d [dbas cards] i st' [HV HJ] _ Hf. destruct Ho as (Lo & HOC & HO).
    destruct (sget cards i) as [ci|] eqn:Ec; cbn [obind] in Hf; [|discriminate]. destruct (sget_inv _ _ _ Ec) as (j & -> & Hj).
    assert (G : forall ad' n' ds cs, sset dbas (Z.of_nat j) ad' = Ok ds -> sset cards (Z.of_nat j) n' = Ok cs ->
              (forall m, ad' = Some m -> (0 < n')%Z) ->
              (forall m0, nth_error dbas j = Some (Some m0) -> exists m, ad' = Some m /\ sz m = sz m0) ->
              (forall mo, nth_error (fst o) j = Some (Some mo) -> exists m, ad' = Some m /\ sz m <= sz mo) -> J (d ++ [Z.of_nat j]) (ds, cs)).
    { intros ad' n' ds cs E1 E2 Pn Sm So. destruct (sset_inv _ _ _ _ E1) as (j1 & J1 & L1 & ->). destruct (sset_inv _ _ _ _ E2) as (j2 & J2 & L2 & ->).
      assert (j1 = j) by lia. assert (j2 = j) by lia. subst j1 j2. destruct HV as (L & HC & HX). unfold J, covers in *. cbn [fst snd] in *. rewrite upd_length.
      split; [split; [exact L|split]|].
      - intros n m1 Hi. rewrite (nth_upd_at cards j n' n L2). rewrite (nth_upd_at dbas j _ n L1) in Hi. destruct (Nat.eqb_spec j n) as [<-|D].
        + injection Hi as ->. exists n'. split; [reflexivity|apply (Pn m1 eq_refl)].
        + apply HC with m1. exact Hi.
      - intros z Hz. destruct (HX z Hz) as (n & m1 & Hi & Hs). destruct (Nat.eq_dec n j) as [->|D].
        + destruct (Sm m1 Hi) as (m & -> & Es). exists j, m. rewrite (nth_upd_at dbas j _ j L1), Nat.eqb_refl. split; [reflexivity|lia].
        + exists n, m1. rewrite (nth_upd_at dbas j _ n L1). destruct (Nat.eqb_spec j n) as [<-|_]; [contradiction D; reflexivity|]. split; assumption.
      - intros n mo Hn Hmo. destruct (Nat.eq_dec n j) as [->|D].
        + destruct (So mo Hmo) as (m & -> & Es). exists m. rewrite (nth_upd_at dbas j _ j L1), Nat.eqb_refl. split; [reflexivity|exact Es].
        + apply in_app_or in Hn as [Hn|[Hn|[]]]; [|lia]. destruct (HJ n mo Hn Hmo) as (m & Hm & Es). exists m. rewrite (nth_upd_at dbas j _ n L1).
          destruct (Nat.eqb_spec j n) as [<-|_]; [contradiction D; reflexivity|]. split; assumption. }
    destruct (Z.eqb_spec ci 0) as [->|Hci].
    + destruct (sget (fst o) _) as [od|] eqn:Eo; cbn [obind] in Hf; [|discriminate]. destruct (sset dbas _ _) as [ds|] eqn:E1; cbn [obind] in Hf; [|discriminate].
      destruct (sget (snd o) _) as [oc|] eqn:Eoc; cbn [obind] in Hf; [|discriminate]. destruct (sset cards _ _) as [cs|] eqn:E2; cbn [obind] in Hf; [|discriminate].
      injection Hf as <-. destruct (sget_inv _ _ _ Eo) as (j1 & J1 & Ho1). assert (j1 = j) by lia. subst j1.
      destruct (sget_inv _ _ _ Eoc) as (j2 & J2 & Ho2). assert (j2 = j) by lia. subst j2.
      apply (G od oc ds cs E1 E2).
      * intros m ->. destruct (HOC j m Ho1) as (n0 & Hn0 & Pn0). rewrite Ho2 in Hn0. injection Hn0 as <-. exact Pn0.
      * intros m0 Hm0. destruct (proj1 (proj2 HV) j m0 Hm0) as (n0 & Hn0 & Pn0). cbn [snd] in Hn0. rewrite Hj in Hn0. injection Hn0 as <-. lia.
      * intros mo Hmo. rewrite Ho1 in Hmo. injection Hmo as ->. exists mo. split; [reflexivity|lia].
    + destruct (sget (snd o) _) as [oc|] eqn:Eoc; cbn [obind] in Hf; [|discriminate].
      destruct (sget_inv _ _ _ Eoc) as (j2 & J2 & Ho2). assert (j2 = j) by lia. subst j2.
      destruct (Z.ltb_spec 0 oc) as [Poc|Noc].
      * destruct (sget dbas _) as [[ad|]|] eqn:Ea; cbn [obind] in Hf; [| |discriminate].
        2:{ destruct (sget (fst o) _) as [[od|]|]; discriminate. }
        destruct (sget (fst o) _) as [[od|]|] eqn:Eo; cbn [obind] in Hf; [|discriminate|discriminate].
        destruct (sget_inv _ _ _ Eo) as (j1 & J1 & Ho1). assert (j1 = j) by lia. subst j1.
        destruct (sget_inv _ _ _ Ea) as (j3 & J3 & Ha3). assert (j3 = j) by lia. subst j3.
        destruct (kcombine K ad ci od oc) as [r0|] eqn:Er; cbn [obind] in Hf; [|discriminate].
        destruct (sset dbas _ _) as [ds|] eqn:E1; cbn [obind] in Hf; [|discriminate]. destruct (sset cards _ _) as [cs|] eqn:E2; cbn [obind] in Hf; [|discriminate].
        injection Hf as <-. destruct (proj1 (proj2 HS) ad ci od oc r0 Er) as [S1 S2].
        destruct (proj1 (proj2 HV) j ad Ha3) as (n0 & Hn0 & Pn0). cbn [snd] in Hn0. rewrite Hj in Hn0. injection Hn0 as <-.
        apply (G (Some r0) (ci + oc)%Z ds cs E1 E2).
        -- intros m _. lia.
        -- intros m0 Hm0. rewrite Ha3 in Hm0. injection Hm0 as <-. exists r0. split; [reflexivity|exact S2].
        -- intros mo Hmo. rewrite Ho1 in Hmo. injection Hmo as <-. exists r0. split; [reflexivity|lia].
      * injection Hf as <-. split; [exact HV|]. intros n mo Hn Hmo. apply in_app_or in Hn as [Hn|[Hn|[]]]; [apply HJ; assumption|].
        assert (n = j) by lia. subst n. destruct (HOC j mo Hmo) as (n0 & Hn0 & Pn0). rewrite Ho2 in Hn0. injection Hn0 as <-. lia.
  - split; [exact Ha|]. intros n mo [].
Qed.

Lemma aggregate_covers k parts : forall xss agg xs r, Forall2 (covers k) xss parts ->
  match agg with None => xs = [] | Some a => covers k xs a end ->
  ofold (fun agg part => match agg with None => Ok part | Some a => let* r := kdba_combine K a part in Ok (Some r) end) (map Some parts) agg = Ok r ->
  match r with None => xs ++ concat xss = [] | Some a => covers k (xs ++ concat xss) a end.
Proof.
  induction parts as [|p parts IH]; intros xss agg xs r HF HA H; inversion HF as [|ys p' yss ps' Hp Hps]; subst; cbn [map ofold] in H.
  - injection H as <-. cbn [concat]. rewrite app_nil_r. exact HA.
  - cbn [concat]. destruct agg as [a|].
    + destruct (kdba_combine K a (Some p)) as [r1|] eqn:Ec; cbn [obind] in H; [|discriminate].
      rewrite app_assoc. apply (IH yss (Some r1) (xs ++ ys) r Hps); [|exact H]. apply (combine_covers k xs ys a p r1 HA Hp Ec).
    + subst xs. cbn [obind] in H. rewrite app_assoc. apply (IH yss (Some p) ys r Hps); [exact Hp|exact H].
Qed.

(** What is published after the reduction. *)
Definition below (xs : list E) (r : list (option E)) : Prop := forall x, In x xs -> exists i m, nth_error r i = Some (Some m) /\ sz m <= sz x.

Lemma seq_build_below c xs k st r : covers k xs st -> seq_build_result c (fst st) = Ok r -> below xs r.
Proof.
  intros (_ & _ & HX) H. unfold seq_build_result in H.
  set (J := fun (_ : list Z) (r : list (option E)) => forall i m, nth_error (fst st) i = Some (Some m) -> nth_error r i = Some (Some m)). apply (ofold_inv _ J _ []) in H.
  - intros x Hx. destruct (HX x Hx) as (i & m & Hi & Hs). exists i, m. split; [apply H; exact Hi|exact Hs].
  - intros d s i s' Hs _ Hf. destruct (sget s i) as [[a|]|] eqn:Eg; cbn [obind] in Hf; [injection Hf as <-; exact Hs| |discriminate].
    destruct (sget c i) as [ci|]; cbn [obind] in Hf; [|discriminate]. destruct (sset_inv _ _ _ _ Hf) as (j & -> & Lj & ->).
    destruct (sget_inv _ _ _ Eg) as (j' & Hjj & Hj). assert (j' = j) by lia. subst j'. intros n m Hn. rewrite (nth_upd_at s j _ n Lj).
    destruct (Nat.eqb_spec j n) as [<-|D]; [|apply Hs; exact Hn]. rewrite (Hs j m Hn) in Hj. discriminate.
  - intros i m Hi. exact Hi.
Qed.

Lemma build_below (c : list E) xs st r : covers (length c) xs st -> build_result c st = Ok r -> below xs (fst r).
Proof.
  intros (L & HC & HX) H. unfold build_result in H. destruct (ofold _ _ _) as [res|] eqn:Ef in H; cbn [obind] in H; [|discriminate]. injection H as <-. cbn [fst].
  set (J := fun (d : list Z) (r : list (option E)) => forall n m, In (Z.of_nat n) d -> nth_error (fst st) n = Some (Some m) -> nth_error r n = Some (Some m)). apply (ofold_inv _ J _ []) in Ef.
  - intros x Hx. destruct (HX x Hx) as (i & m & Hi & Hs). exists i, m. split; [|exact Hs]. apply Ef; [|exact Hi].
    cbn [app]. apply in_map. apply in_seq. assert (i < length (fst st)) by (apply nth_error_Some; congruence). lia.
  - intros d s i s' Hs _ Hf. destruct (sget (snd st) i) as [ci|] eqn:Ec; cbn [obind] in Hf; [|discriminate]. destruct (sget_inv _ _ _ Ec) as (j & -> & Hj).
    destruct (Z.ltb_spec 0 ci) as [Pc|Nc].
    + destruct (sget (fst st) _) as [od|] eqn:Eo; cbn [obind] in Hf; [|discriminate]. destruct (sget_inv _ _ _ Eo) as (j1 & J1 & Ho). assert (j1 = j) by lia. subst j1.
      destruct (sset_inv _ _ _ _ Hf) as (j2 & J2 & Lj & ->). assert (j2 = j) by lia. subst j2. intros n m Hn Hm. rewrite (nth_upd_at s j _ n Lj).
      destruct (Nat.eqb_spec j n) as [<-|D]; [rewrite Ho in Hm; exact Hm|]. apply in_app_or in Hn as [Hn|[Hn|[]]]; [apply Hs; assumption|lia].
    + destruct (sget c _) as [od|] eqn:Eo; cbn [obind] in Hf; [|discriminate].
      destruct (sset_inv _ _ _ _ Hf) as (j2 & J2 & Lj & ->). assert (j2 = j) by lia. subst j2. intros n m Hn Hm. rewrite (nth_upd_at s j _ n Lj).
      destruct (Nat.eqb_spec j n) as [<-|D].
      * destruct (HC j m Hm) as (n0 & Hn0 & Pn0). rewrite Hj in Hn0. injection Hn0 as <-. lia.
      * apply in_app_or in Hn as [Hn|[Hn|[]]]; [apply Hs; assumption|lia].
  - intros n m [].
Qed.

(** A centroid smaller than an element. *)
Lemma nearest_panics cs y m : In m cs -> sz m < sz y -> forall i l d, knearest_loop N K cs y i l d = Panic.
Proof.
  intros Hm Hs. induction cs as [|c cs IH]; [contradiction|]. intros i l d. cbn [knearest_loop]. destruct (kdist K y c) as [di|] eqn:Ed; [|reflexivity].
  cbn [obind]. destruct Hm as [->|Hm].
  - pose proof (proj1 HS y m di Ed). lia.
  - destruct (_ || _); apply IH; exact Hm.
Qed.
Lemma reduce_panics c xs y m : In m c -> sz m < sz y -> In y xs -> kreduce_dba N K c xs = Panic.
Proof.
  intros Hm Hs Hy. destruct (kreduce_dba N K c xs) as [st|] eqn:Ek; [|reflexivity]. exfalso.
  set (J := fun (d : list E) (_ : list (option E) * list Z) => forall z, In z d -> exists r, kassign N K c z = Ok r). apply (ofold_inv _ J _ []) in Ek.
  - destruct (Ek y Hy) as [r Hr]. unfold kassign, knearest in Hr. rewrite (nearest_panics c y m Hm Hs) in Hr. discriminate.
  - intros d s x s' Hd _ Hf z Hz. apply in_app_or in Hz as [Hz|[<-|[]]]; [apply Hd; exact Hz|].
    destruct (kassign N K c x) as [r|]; [exists r; reflexivity|discriminate].
  - intros z [].
Qed.

Lemma below_in xs c1 x : below xs (map Some c1) -> In x xs -> exists m, In m c1 /\ sz m <= sz x.
Proof.
  intros HB Hx. destruct (HB x Hx) as (i & m & Hi & Hs). exists m. split; [|exact Hs]. apply nth_error_In in Hi.
  apply in_map_iff in Hi as (m' & Hm & Hi). injection Hm as ->. exact Hi.
Qed.

Lemma two_seq c data1 data2 c1 x y : In x data1 -> sz x < sz y -> In y data2 ->
  kseq_iterate N K c data1 = Ok (map Some c1) -> kseq_iterate N K c1 data2 = Panic.
Proof.
  intros Hx Hs Hy H. unfold kseq_iterate in *. destruct (kreduce_dba N K c data1) as [st|] eqn:Ek; cbn [obind] in H; [|discriminate].
  pose proof (seq_build_below c data1 _ st _ (reduce_covers c data1 st Ek) H) as HB.
  destruct (below_in data1 c1 x HB Hx) as (m & Hm & Hl). rewrite (reduce_panics c1 data2 y m Hm); [reflexivity|lia|exact Hy].
Qed.

(** The state of the goroutines and of the caller of Par. *)
Definition faithful_to (c : list E) (chunks : list (list E)) (p : procs E) : Prop :=
  Forall2 (fun ch g => g = GWork (kreduce_dba N K c ch) \/ (exists q, g = GDone q /\ kreduce_dba N K c ch = Ok q) \/ (g = GPanic /\ kreduce_dba N K c ch = Panic)) chunks (p_gors p) /\
  (forall r, p_main p = Some r -> (forall w, ~ In (GWork w) (p_gors p)) /\ r = kpar_join K c (map part_of (p_gors p))).
Lemma faithful_step c chunks p p' : faithful_to c chunks p -> pstep K c p p' -> faithful_to c chunks p'.
Proof.
  intros (HF & HM) H. destruct H as [gs i q m Hi|gs i m Hi|gs Hn|gs m Hp]; unfold faithful_to in *; cbn [p_gors p_main] in *.
  - split.
    + destruct (forall2_nth _ _ _ HF i _ Hi) as (ch & Hch & [Hg|[(q' & Hg & _)|[Hg _]]]); try discriminate.
      apply Forall2_upd_r with ch; [exact HF|exact Hch|]. right. left. exists q. split; [reflexivity|congruence].
    + intros r Hr. destruct (HM r Hr) as [HW _]. contradiction (HW (Ok q)). apply nth_error_In with i. exact Hi.
  - split.
    + destruct (forall2_nth _ _ _ HF i _ Hi) as (ch & Hch & [Hg|[(q' & Hg & _)|[Hg _]]]); try discriminate.
      apply Forall2_upd_r with ch; [exact HF|exact Hch|]. right. right. split; [reflexivity|congruence].
    + intros r Hr. destruct (HM r Hr) as [HW _]. contradiction (HW Panic). apply nth_error_In with i. exact Hi.
  - split; [exact HF|]. intros r Hr. injection Hr as <-. split; [exact Hn|reflexivity].
  - split; [exact HF|exact HM].
Qed.
Lemma faithful_steps c chunks p p' : faithful_to c chunks p -> psteps K c p p' -> faithful_to c chunks p'.
Proof. intros G H. induction H as [|a b d H1 H2 IH]; [exact G|]. apply IH. apply (faithful_step c chunks a b G H1). Qed.

Lemma start_chunks degree c data p : kpar_start N K degree c data = Ok p -> exists chunks, concat chunks = data /\
  p = mkProcess (map (fun part => GWork (kreduce_dba N K c part)) chunks) None false.
Proof.
  unfold kpar_start. destruct (par_ranges (slen data) degree) as [ranges|] eqn:Er; cbn [obind]; [|discriminate].
  destruct (omap _ ranges) as [chunks|] eqn:Eo; cbn [obind]; [|discriminate]. intros H. injection H as <-. exists chunks. split; [|reflexivity].
  apply (chunks_concat data degree). unfold hpar_chunks. rewrite Er. exact Eo.
Qed.
Lemma start_faithful c chunks : faithful_to c chunks (mkProcess (map (fun part => GWork (kreduce_dba N K c part)) chunks) None false).
Proof.
  split; cbn [p_gors p_main]; [|discriminate]. induction chunks as [|ch chs IH]; cbn [map]; constructor; [left; reflexivity|exact IH].
Qed.
Lemma chunk_dec c (chunks : list (list E)) : (exists ch, In ch chunks /\ kreduce_dba N K c ch = Panic) \/ (exists rs, Forall2 (fun ch r => kreduce_dba N K c ch = Ok r) chunks rs).
Proof.
  induction chunks as [|ch chs [(ch' & Hi & Hp)|[rs IH]]]; [right; exists []; constructor|left; exists ch'; split; [right; exact Hi|exact Hp]|].
  destruct (kreduce_dba N K c ch) as [r|] eqn:Ek; [right; exists (r :: rs); constructor; assumption|left; exists ch; split; [left; reflexivity|exact Ek]].
Qed.
Lemma chunk_fatal degree c data p : kpar_start N K degree c data = Ok p ->
  forall chunks ch, p = mkProcess (map (fun part => GWork (kreduce_dba N K c part)) chunks) None false -> In ch chunks -> kreduce_dba N K c ch = Panic -> fatal K c p.
Proof.
  intros _ chunks ch -> Hi Hp. apply doomed_fatal. right. left. cbn [p_gors]. apply in_map_iff. exists ch. split; [rewrite Hp; reflexivity|exact Hi].
Qed.

Lemma two_par degree c data1 data2 x y p1 : In x data1 -> sz x < sz y -> In y data2 -> kpar_start N K degree c data1 = Ok p1 ->
  fatal K c p1 \/
  (forall p1' c1, psteps K c p1 p1' -> p_main p1' = Some (Ok (map Some c1)) ->
     forall p2, kpar_start N K degree c1 data2 = Ok p2 -> fatal K c1 p2).
Proof.
  intros Hx Hs Hy Hp1. destruct (start_chunks degree c data1 p1 Hp1) as (chunks & Hc & E1). destruct (chunk_dec c chunks) as [(ch & Hi & Hp)|[rs HR]].
  - left. apply (chunk_fatal degree c data1 p1 Hp1 chunks ch E1 Hi Hp).
  - right. intros p1' c1 Hst Hm p2 Hp2. subst p1. destruct (faithful_steps c chunks _ p1' (start_faithful c chunks) Hst) as [HF HM].
    destruct (HM _ Hm) as [HW HJ]. 
    assert (Hparts : map part_of (p_gors p1') = map Some rs).
    { clear HM HJ Hc Hst Hp1. revert rs HR HW. induction HF as [|ch g chs gs Hg HF IH]; intros rs HR HW; inversion HR as [|ch' r chs' rs' Hr HR']; subst; [reflexivity|].
      cbn [map]. f_equal.
      - destruct Hg as [->|[(q & -> & Hq)|[-> Hq]]]; [contradiction (HW (kreduce_dba N K c ch)); left; reflexivity|cbn [part_of]; congruence|congruence].
      - apply IH; [exact HR'|]. intros w Hw. apply (HW w). right. exact Hw. }
    rewrite Hparts in HJ. unfold kpar_join, kdba_aggregate in HJ.
    destruct (ofold _ (map Some rs) None) as [a|] eqn:Ea in HJ; cbn [obind] in HJ; [|discriminate].
    apply (aggregate_covers (length c) rs chunks None []) in Ea; [|clear - HR HS; induction HR as [|ch r chs rs Hr HR IH]; constructor; [apply reduce_covers; exact Hr|exact IH]|reflexivity].
    cbn [app] in Ea. rewrite Hc in Ea. destruct a as [a|]; [|rewrite Ea in Hx; contradiction].
    destruct (build_result c a) as [r|] eqn:Eb; cbn [obind] in HJ; [|discriminate].
    pose proof (build_below c data1 a r Ea Eb) as HB. injection HJ as HJ. rewrite <- HJ in HB.
    destruct (below_in data1 c1 x HB Hx) as (m & Hmc & Hl).
    destruct (start_chunks degree c1 data2 p2 Hp2) as (chunks2 & Hc2 & E2). rewrite <- Hc2 in Hy. apply in_concat in Hy as (ch & Hch & Hy).
    apply (chunk_fatal degree c1 data2 p2 Hp2 chunks2 ch E2 Hch). apply (reduce_panics c1 ch y m Hmc); [lia|exact Hy].
Qed.
End Sizes.

(** ** The spaces of vectors *)
Lemma euclid_sized : forall F (N : Num F), sized (euclid_checked N) (@length F).
Proof.
  intros F N. split; [|split].
  - intros a b d H. destruct (vector_panics F N a b 0%Z 0%Z) as [H1 _]. destruct (Nat.le_gt_cases (length a) (length b)) as [L|L]; [exact L|].
    destruct (H1 L) as (H2 & _). cbn [euclid_checked kdist] in H. rewrite H2 in H. discriminate.
  - intros a n b m r H. destruct (vector_panics F N a b n m) as [H1 H2]. cbn [euclid_checked kcombine] in H.
    destruct (Nat.le_gt_cases (length a) (length b)) as [L|L].
    + split; [exact L|]. destruct (H2 L) as (_ & (r' & Hr & Hl & _) & _). rewrite Hr in H. injection H as <-. exact Hl.
    + destruct (H1 L) as (_ & H3 & _). rewrite H3 in H. discriminate.
  - reflexivity.
Qed.
Lemma cosinus_sized : forall F (N : Num F), sized (cosinus_checked N) (@length F).
Proof.
  intros F N. destruct (euclid_sized F N) as (_ & H2 & H3). split; [|split; [exact H2|exact H3]].
  intros a b d H. destruct (vector_panics F N a b 0%Z 0%Z) as [H1 _]. destruct (Nat.le_gt_cases (length a) (length b)) as [L|L]; [exact L|].
  destruct (H1 L) as (_ & _ & H4). cbn [cosinus_checked kdist] in H. rewrite H4 in H. discriminate.
Qed.
Lemma euclid_agrees : forall F (N : Num F) d, agrees (euclid_checked N) (euclid_space N) (of_dim d).
Proof.
  intros F N d. unfold of_dim. split; [|split].
  - intros a b Ha Hb. destruct (vector_panics F N a b 0%Z 0%Z) as [_ H]. destruct H as ((v & Hv & _) & _); [lia|].
    cbn [euclid_checked kdist euclid_space sdist]. rewrite Hv. reflexivity.
  - intros a n b m Ha Hb. destruct (vector_panics F N a b n m) as [_ H]. destruct H as (_ & (r & Hr & Hl & _) & _); [lia|].
    cbn [euclid_checked kcombine euclid_space scombine]. rewrite Hr. split; [reflexivity|congruence].
  - intros a Ha. split; [reflexivity|exact Ha].
Qed.
Lemma cosinus_agrees : forall F (N : Num F) d, agrees (cosinus_checked N) (cosinus_space N) (of_dim d).
Proof.
  intros F N d. destruct (euclid_agrees F N d) as (_ & H2 & H3). split; [|split; [exact H2|exact H3]]. unfold of_dim.
  intros a b Ha Hb. destruct (vector_panics F N a b 0%Z 0%Z) as [_ H]. destruct H as (_ & _ & (v & Hv)); [lia|].
  cbn [cosinus_checked kdist cosinus_space sdist]. rewrite Hv. reflexivity.
Qed.

(** ** The controller with the sequential strategy *)
Section Ctrl.
Context {E F D : Type} (N : Num F) (K : checked E F) (sz : E -> nat) (initializer : D -> list E -> option (option (list E) * option nat)) (cf : cconf).
Hypothesis HS : sized K sz.
Notation im := (kchecked_implem N K initializer).

Lemma apply_infinite pipe : forall (data : list E),
  ofold store pipe (mkBuffer [] data InfiniteSize) = Ok (mkBuffer [] (data ++ pipe) InfiniteSize).
Proof.
  induction pipe as [|x pipe IH]; intros data; cbn [ofold]; [rewrite app_nil_r; reflexivity|].
  unfold store at 1. cbn [bstrategy bdata bpipe strategy_push obind]. rewrite IH. rewrite <- app_assoc. reflexivity.
Qed.
Lemma all_some_map l : forall c : list E, all_some l = Some c -> l = map Some c.
Proof.
  induction l as [|[x|] l IH]; intros c H; cbn [all_some] in H; [injection H as <-; reflexivity| |discriminate].
  destruct (all_some l) as [c'|]; cbn [option_map] in H; [|discriminate]. injection H as <-. cbn [map]. f_equal. apply IH. reflexivity.
Qed.

Lemma kiterate_cases d (b : buffer E) c : bstrategy b = InfiniteSize ->
  (exists b', im_iterate im d b (Some c) = (b', IterPanic 0)) \/
  (exists c1, kseq_iterate N K c (bdata b) = Ok (map Some c1) /\
     im_iterate im d b (Some c) = (mkBuffer [] (bdata b ++ bpipe b) InfiniteSize, IterRes (Some c1) None None)).
Proof.
  intros HB. cbn [kchecked_implem im_iterate]. destruct (kseq_iterate N K c (bdata b)) as [l|] eqn:Ek; [|left; eexists; reflexivity].
  unfold buffer_apply. rewrite HB, (apply_infinite (bpipe b) (bdata b)). destruct (all_some l) as [c1|] eqn:Ea; [|left; eexists; reflexivity].
  right. exists c1. split; [|reflexivity]. f_equal. apply all_some_map. exact Ea.
Qed.

Lemma turn_eq (q : seq_st (list E)) (b : buffer E) d t n b' r : q_run q = AtSelect -> im_iterate im d b (m_centroids (q_model q)) = (b', r) ->
  sys_advance cf im (STurn d t n) (q, b) = (turn cf r t n q, b').
Proof. intros HA H. unfold sys_advance. rewrite HA, H. reflexivity. Qed.

Lemma mixed_ctrl (q : seq_st (list E)) (b : buffer E) c x y d1 t1 n1 d2 t2 n2 :
  st_value (q_status q) = Running -> q_run q = AtSelect -> m_centroids (q_model q) = Some c -> bstrategy b = InfiniteSize ->
  In x (bdata b) -> In y (bdata b) -> sz x < sz y ->
  let s1 := sys_advance cf im (STurn d1 t1 n1) (q, b) in
  let s2 := sys_advance cf im (STurn d2 t2 n2) s1 in
  q_status (fst s2) = mkStatus Finished (Some (ErrImpl 0)) \/ (q_status (fst s1) = new_status Ready /\ q_run (fst s1) = NoRun).
Proof.
  intros HR HA HC HB Hx Hy Hs. cbv zeta.
  destruct (kiterate_cases d1 b c HB) as [[b' E1]|(c1 & Hk & E1)].
  - rewrite (turn_eq q b d1 t1 n1 _ _ HA) by (rewrite HC; exact E1). left. unfold turn. rewrite HA. reflexivity.
  - rewrite (turn_eq q b d1 t1 n1 _ _ HA) by (rewrite HC; exact E1). unfold turn. rewrite HA. cbv beta iota.
    set (q0 := q_runner (q_event (q_upd q (model_save (q_model q) (Some c1) None t1)) (EvSaved (Some c1) None)) AtTest).
    assert (S0 : st_value (q_status q0) = Running) by exact HR.
    assert (C0 : m_centroids (q_model q0) = Some c1) by reflexivity.
    assert (W : settle cf n1 q0 = if is_finished (run_finishing cf) (q_fin q0) then end_run None n1 q0 else q_runner q0 AtSelect).
    { unfold settle. change (q_run q0) with AtTest. cbv beta iota. rewrite S0. cbn [status_eqb andb]. destruct (is_finished _ _); reflexivity. }
    rewrite W. destruct (is_finished (run_finishing cf) (q_fin q0)).
    + right. unfold end_run. rewrite S0. split; reflexivity.
    + left. rewrite (turn_eq (q_runner q0 AtSelect) _ d2 t2 n2 (mkBuffer [] (bdata b ++ bpipe b) InfiniteSize) (IterPanic 0)); [reflexivity|reflexivity|].
      change (m_centroids (q_model (q_runner q0 AtSelect))) with (m_centroids (q_model q0)). rewrite C0. cbn [kchecked_implem im_iterate bdata].
      rewrite (two_seq N K sz HS c (bdata b) (bdata b ++ bpipe b) c1 x y Hx Hs); [reflexivity|apply in_or_app; left; exact Hy|exact Hk].
Qed.
End Ctrl.

(** ** Streaming *)
Section StreamAgree.
Context {E F : Type} (N : Num F) (K : checked E F) (Sp : Space E F) (P : E -> Prop).
Hypothesis HA : agrees K Sp P.
Variables (bs oa : Z) (ratio : F).
Notation st := (streaming E F).
Definition all_in (s : st) : Prop := Forall P (s_clust s) /\ Forall P (s_queue s).

Lemma kprocess_eq (s s' : st) x t : all_in s -> P x -> process N Sp oa ratio s x t = Ok s' ->
  kprocess N K oa ratio s x t = (s', Ok tt) /\ all_in s'.
Proof.
  intros [HC HQ] Hx H. unfold process in H. unfold kprocess. rewrite (kassign_eq N K Sp P HA (s_clust s) x HC Hx).
  destruct (assign N Sp (s_clust s) x) as [[[cl l] d]|]; cbn [obind] in H; [|discriminate].
  destruct (relative_distance N (s_max s) d) as [mx rel]. cbn [s_count] in *.
  destruct ((oa <=? s_count s)%Z && nltb N ratio rel); [|destruct (nltb N t rel)].
  - cbn [obind] in H. injection H as <-. split; [reflexivity|]. split; cbn; [apply Forall_app; split; [exact HC|constructor; [exact Hx|constructor]]|exact HQ].
  - cbn [obind] in H. injection H as <-. split; [reflexivity|]. split; cbn; [apply Forall_app; split; [exact HC|constructor; [exact Hx|constructor]]|exact HQ].
  - unfold update_center in H. unfold kupdate_center. cbn [s_clust s_cards s_max s_queue s_count] in *.
    destruct (sget (s_clust s) l) as [c|] eqn:Ec; cbn [obind] in *; [|discriminate]. destruct (sget (s_cards s) l) as [n|]; cbn [obind] in *; [|discriminate].
    assert (Pc : P c). { destruct (sget_inv _ _ _ Ec) as (j & _ & Hj). apply (Forall_nth P (s_clust s) j c HC Hj). }
    destruct HA as (_ & H2 & _). destruct (H2 c n x 1%Z Pc Hx) as [-> Pr]. cbn [obind].
    destruct (sset (s_clust s) l _) as [cs|] eqn:Es; cbn [obind] in *; [|discriminate]. destruct (sset (s_cards s) l _) as [ns|]; cbn [obind] in *; [|discriminate].
    injection H as <-. split; [reflexivity|]. split; cbn; [|exact HQ]. destruct (sset_inv _ _ _ _ Es) as (j & _ & _ & ->). apply Forall_upd; [exact HC|exact Pr].
Qed.

Lemma kstep_eq (s s' : st) o r : all_in s -> (forall x, o = SPush x -> P x) -> sstep N Sp bs oa ratio s o = Ok (s', r) ->
  kstream_step N K oa ratio bs s o = (s', Ok r) /\ all_in s'.
Proof.
  intros HI Hp H. destruct o as [x| |t]; cbn [sstep kstream_step] in *.
  - destruct HI as [HC HQ]. unfold streaming_push in *. destruct (slen (s_queue s) <? bs)%Z; injection H as <- <-; (split; [reflexivity|]); split; cbn; auto.
    apply Forall_app. split; [exact HQ|]. constructor; [apply Hp; reflexivity|constructor].
  - destruct HI as [HC HQ]. unfold streaming_init in *. destruct (s_queue s) as [|x q] eqn:Eq; injection H as <- <-; (split; [reflexivity|]); split; cbn; auto.
    + rewrite Eq. constructor.
    + inversion HQ; subst. apply Forall_app. split; [exact HC|]. constructor; [assumption|constructor].
    + inversion HQ; subst. assumption.
  - unfold streaming_iterate in H. unfold kstreaming_iterate. destruct HI as [HC HQ]. destruct (s_queue s) as [|x q] eqn:Eq.
    + cbn [obind fst snd] in H. injection H as <- <-. split; [reflexivity|]. split; [exact HC|rewrite Eq; constructor].
    + inversion HQ as [|x' q' Hx Hq]; subst.
      destruct (process N Sp oa ratio _ x t) as [s1|] eqn:E1 in H; cbn [obind fst snd] in H; [|discriminate]. injection H as <- <-.
      destruct (kprocess_eq (mkStreaming (s_max s) (s_clust s) (s_cards s) q (s_count s)) s1 x t (conj HC Hq) Hx E1) as [-> HI']. split; [reflexivity|exact HI'].
Qed.

Lemma krun_eq (s s' : st) ops rs : all_in s -> stream_pushes P ops -> sexec N Sp bs oa ratio s ops rs s' ->
  kstream_run N K oa ratio bs s ops = (s', map Ok rs).
Proof.
  intros HI Hp H. induction H as [s|s o r s1 ops rs s2 H1 H2 IH]; [reflexivity|].
  destruct (kstep_eq s s1 o r HI) as [E1 HI1]; [intros x ->; apply Hp; left; reflexivity|exact H1|].
  cbn [kstream_run map]. rewrite E1, (IH HI1); [reflexivity|]. intros x Hx. apply Hp. right. exact Hx.
Qed.
End StreamAgree.

Section StreamSizes.
Context {E F : Type} (N : Num F) (K : checked E F) (sz : E -> nat).
Hypothesis HS : sized K sz.
Variables (bs oa : Z) (ratio : F).
Notation st := (streaming E F).

Lemma kprocess_failed (s s' : st) x t : kprocess N K oa ratio s x t = (s', Panic) ->
  s_clust s' = s_clust s /\ s_cards s' = s_cards s /\ s_count s' = s_count s /\ s_queue s' = s_queue s.
Proof.
  unfold kprocess. destruct (kassign N K (s_clust s) x) as [[[cl l] d]|]; [|intros H; injection H as <-; auto].
  destruct (relative_distance N (s_max s) d) as [mx rel]. cbn [s_count]. destruct (_ && _); [|destruct (nltb N t rel)]; try discriminate.
  destruct (kupdate_center _ _ _ _ _ _) as [s1|]; [discriminate|]. intros H. injection H as <-. auto.
Qed.
Lemma kiterate_failed (s s' : st) t : kstreaming_iterate N K oa ratio s t = (s', Panic) ->
  s_clust s' = s_clust s /\ s_cards s' = s_cards s /\ s_count s' = s_count s /\ exists x, s_queue s = x :: s_queue s'.
Proof.
  unfold kstreaming_iterate. destruct (s_queue s) as [|x q]; [discriminate|]. destruct (kprocess _ _ _ _ _ x t) as [s1 r] eqn:Ek. intros H. injection H as <- Hr.
  destruct r as [u|]; [discriminate|]. apply kprocess_failed in Ek as (H1 & H2 & H3 & H4). cbn in *. repeat split; auto. exists x. rewrite H4. reflexivity.
Qed.

(** Exactly when an element is refused, as far as sizes go. *)
Lemma kprocess_smaller (s : st) x t m : In m (s_clust s) -> sz m < sz x -> snd (kprocess N K oa ratio s x t) = Panic.
Proof.
  intros Hm Hs. unfold kprocess, kassign, knearest. rewrite (nearest_panics N K sz HS (s_clust s) x m Hm Hs). reflexivity.
Qed.

Lemma poison ops : forall (s : st) m, In m (s_clust s) -> Forall (fun x => sz m < sz x) (s_queue s) -> stream_pushes (fun x => sz m < sz x) ops ->
  let (s', rs) := kstream_run N K oa ratio bs s ops in
  Forall (fun r => ~ absorbed r) rs /\
  exists l, s_clust s' = s_clust s ++ l /\ s_cards s' = s_cards s ++ map (fun _ => 1%Z) l.
Proof.
  induction ops as [|o ops IH]; intros s m Hm HQ Hp; cbn [kstream_run].
  - split; [constructor|]. exists []. cbn [map]. rewrite !app_nil_r. split; reflexivity.
  - assert (Hp' : stream_pushes (fun x => sz m < sz x) ops) by (intros x Hx; apply Hp; right; exact Hx).
    destruct (kstream_step N K oa ratio bs s o) as [s1 r] eqn:E1.
    assert (Hstep : ~ absorbed r /\ Forall (fun x => sz m < sz x) (s_queue s1) /\ exists l, s_clust s1 = s_clust s ++ l /\ s_cards s1 = s_cards s ++ map (fun _ => 1%Z) l).
    { destruct o as [x| |t]; cbn [kstream_step] in E1.
      - unfold streaming_push in E1. destruct (slen (s_queue s) <? bs)%Z; injection E1 as <- <-; (split; [intros []|]); (split; [|exists []; cbn [map]; rewrite !app_nil_r; split; reflexivity]).
        + cbn. apply Forall_app. split; [exact HQ|]. constructor; [apply Hp; left; reflexivity|constructor].
        + exact HQ.
      - unfold streaming_init in E1. destruct (s_queue s) as [|x q] eqn:Eq; injection E1 as <- <-; (split; [intros []|]).
        + split; [rewrite Eq; constructor|]. exists []. cbn [map]. rewrite !app_nil_r. split; reflexivity.
        + inversion HQ; subst. split; [assumption|]. exists [x]. split; reflexivity.
      - unfold kstreaming_iterate in E1. destruct (s_queue s) as [|x q] eqn:Eq.
        + injection E1 as <- <-. split; [intros []|]. split; [rewrite Eq; constructor|]. exists []. cbn [map]. rewrite !app_nil_r. split; reflexivity.
        + inversion HQ as [|x' q' Hx Hq]; subst.
          destruct (kprocess N K oa ratio _ x t) as [s2 r2] eqn:E2 in E1.
          pose proof (kprocess_smaller (mkStreaming (s_max s) (s_clust s) (s_cards s) q (s_count s)) x t m Hm Hx) as Hk. rewrite E2 in Hk. cbn [snd] in Hk. subst r2.
          injection E1 as <- <-. apply kprocess_failed in E2 as (H1 & H2 & _ & H4). cbn in *. split; [intros []|]. split; [rewrite H4; exact Hq|].
          exists []. cbn [map]. rewrite !app_nil_r. split; assumption. }
    destruct Hstep as (HR & HQ1 & l1 & Hc1 & Hn1). specialize (IH s1 m). destruct (kstream_run N K oa ratio bs s1 ops) as [s' rs].
    destruct IH as (HF & l2 & Hc2 & Hn2); [rewrite Hc1; apply in_or_app; left; exact Hm|exact HQ1|exact Hp'|].
    split; [constructor; assumption|]. exists (l1 ++ l2). rewrite Hc2, Hc1, Hn2, Hn1, map_app, !app_assoc. split; reflexivity.
Qed.
End StreamSizes.

(** ** Witnesses in float64 *)
Notation k64 := (euclid_checked B64Num).
Definition shown_clust (o : outcome (list (option (list b64)))) : option (list (option (list SpecFloat.spec_float))) :=
  match o with Ok l => Some (map (option_map (map show64)) l) | Panic => None end.

Lemma fatal_witness : exists (c data : list (list b64)) p, Forall (of_dim 2) c /\
  kseq_iterate B64Num k64 c data = Panic /\ kpar_start B64Num k64 2 c data = Ok p /\ fatal k64 c p.
Proof.
  exists [v64 [0; 0]%Z], [v64 [1; 1]%Z; v64 [2; 2; 2]%Z].
  exists (mkProcess (map (fun part => GWork (kreduce_dba B64Num k64 [v64 [0; 0]%Z] part)) [[v64 [1; 1]%Z]; [v64 [2; 2; 2]%Z]]) None false).
  split; [constructor; [reflexivity|constructor]|]. split; [vm_compute; reflexivity|]. split; [reflexivity|].
  apply doomed_fatal. right. left. cbn [p_gors map]. right. left. vm_compute. reflexivity.
Qed.

Lemma truncated_witness : exists c data : list (list b64), Forall (of_dim 2) c /\
  shown_clust (kseq_iterate B64Num k64 c data) = Some [Some (map show64 (v64 [3]%Z))].
Proof. exists [v64 [0; 0]%Z], [v64 [5]%Z; v64 [1; 2]%Z]. split; [constructor; [reflexivity|constructor]|]. vm_compute. reflexivity. Qed.

Lemma skipped_witness : exists (c data : list (list b64)) p p' r, kpar_start B64Num k64 2 c data = Ok p /\ psteps k64 c p p' /\
  p_dead p' = false /\ In GPanic (p_gors p') /\ p_main p' = Some r /\ shown_clust r = Some [Some (map show64 (v64 [2; 2]%Z))] /\
  shown_clust (kseq_iterate B64Num k64 c data) = None.
Proof.
  set (c := [v64 [0; 0]%Z]). exists c, [v64 [9; 9; 9]%Z; v64 [2; 2]%Z].
  set (g1 := kreduce_dba B64Num k64 c [v64 [9; 9; 9]%Z]). set (g2 := kreduce_dba B64Num k64 c [v64 [2; 2]%Z]).
  assert (H1 : g1 = Panic) by (vm_compute; reflexivity).
  assert (H2 : exists q, g2 = Ok q /\ shown_clust (kpar_join k64 c [None; Some q]) = Some [Some (map show64 (v64 [2; 2]%Z))]).
  { destruct g2 as [q|] eqn:Eg.
    - exists q. split; [reflexivity|].
      assert (W : match g2 with Ok q => shown_clust (kpar_join k64 c [None; Some q]) | Panic => None end = Some [Some (map show64 (v64 [2; 2]%Z))]) by (vm_compute; reflexivity).
      rewrite Eg in W. exact W.
    - exfalso. assert (W : match g2 with Ok _ => true | Panic => false end = true) by (vm_compute; reflexivity). rewrite Eg in W. discriminate. }
  destruct H2 as (q & H2 & H3).
  exists (mkProcess [GWork g1; GWork g2] None false), (mkProcess [GPanic; GDone q] (Some (kpar_join k64 c [None; Some q])) false), (kpar_join k64 c [None; Some q]).
  split; [reflexivity|]. split; [|split; [reflexivity|split; [left; reflexivity|split; [reflexivity|split; [exact H3|vm_compute; reflexivity]]]]].
  rewrite H1, H2.
  apply pss_cons with (mkProcess [GPanic; GWork (Ok q)] None false); [apply (ps_panic k64 c [GWork Panic; GWork (Ok q)] 0); reflexivity|].
  apply pss_cons with (mkProcess [GPanic; GDone q] None false); [apply (ps_done k64 c [GPanic; GWork (Ok q)] 1); reflexivity|].
  apply pss_cons with (mkProcess [GPanic; GDone q] (Some (kpar_join k64 c [None; Some q])) false); [|apply pss_nil].
  apply (ps_join k64 c [GPanic; GDone q]). intros r [Hr|[Hr|[]]]; discriminate.
Qed.

Definition mixed_im : implem (list b64) (list (list b64)) (buffer (list b64)) unit := kchecked_implem B64Num k64 (with_given (euclid_space B64Num) 1).
Definition mixed_use : list (sys_action (list b64) unit) :=
  [YCall (YPush (v64 [5]%Z) 0) 0; YCall (YPush (v64 [1; 2]%Z) 1) 1; YCall (YPlay tt) 2]%Z.
Definition mixed_start : buffer (list b64) := mkBuffer [] [] InfiniteSize.
Definition mixed_more : list (sys_action (list b64) unit) := [YProgress (STurn tt 1 3); YProgress (STurn tt 2 4)]%Z.
(** Status, position of the run goroutine, dimensions of the data. *)
Definition mixed_shown (o : option (seq_st (list (list b64)) * buffer (list b64))) :=
  match o with Some (q, b) => Some (q_status q, q_run q, map (@length b64) (bdata b), bstrategy b, bpipe b) | None => None end.

(** Streaming. *)
Definition poison_ops : list (sop (list b64) b64) :=
  [SInit; SPush (v64 [5]%Z); SIterate (b64_of_Z 0); SPush (v64 [1; 1]%Z); SIterate (b64_of_Z 0)].
(** Dimensions of the centers, what the iterations did. *)
Definition poison_shown (r : streaming (list b64) b64 * list (outcome (sres (list b64)))) :=
  (map (@length b64) (s_clust (fst r)), s_cards (fst r),
   map (fun r => match r with Ok (RIterate (Some _)) => Some true | Ok _ => Some false | Panic => None end) (snd r)).
Lemma poison_witness : exists (s : streaming (list b64) b64) rs m,
  kstream_run B64Num k64 10 (b64_of_Z 2) 100 (new_streaming B64Num [v64 [0; 0]%Z]) [SInit; SPush (v64 [5]%Z); SIterate (b64_of_Z 0)] = (s, rs) /\
  In m (s_clust s) /\ length m = 1 /\ s_queue s = [] /\
  forall ops, stream_pushes (fun x => length x = 2) ops -> Forall (fun r => ~ absorbed r) (snd (kstream_run B64Num k64 10 (b64_of_Z 2) 100 s ops)).
Proof.
  destruct (kstream_run B64Num k64 10 (b64_of_Z 2) 100 (new_streaming B64Num [v64 [0; 0]%Z]) [SInit; SPush (v64 [5]%Z); SIterate (b64_of_Z 0)]) as [s rs] eqn:Er.
  assert (W : (map (@length b64) (s_clust s), map (@length b64) (s_queue s)) = ([2; 1], [])).
  { change s with (fst (s, rs)). rewrite <- Er. vm_compute. reflexivity. }
  injection W as W1 W2. apply map_eq_nil in W2. destruct (s_clust s) as [|a [|m [|? ?]]] eqn:Ec; try discriminate. injection W1 as _ Wm.
  exists s, rs, m. split; [reflexivity|]. split; [rewrite Ec; right; left; reflexivity|]. split; [exact Wm|]. split; [exact W2|].
  intros ops Hp. pose proof (poison B64Num k64 (@length b64) (euclid_sized b64 B64Num) 100 10 (b64_of_Z 2) ops s m) as H.
  destruct (kstream_run B64Num k64 10 (b64_of_Z 2) 100 s ops) as [s' rs']. cbn [snd]. apply H.
  - rewrite Ec. right. left. reflexivity.
  - rewrite W2. constructor.
  - intros x Hx. rewrite (Hp x Hx), Wm. lia.
Qed.

(** Summaries. *)
Lemma same_main : forall F (N : Num F) d (c data : list (list F)), Forall (of_dim d) c -> Forall (of_dim d) data ->
  kseq_iterate N (euclid_checked N) c data = seq_iterate N (euclid_space N) c data /\
  kseq_iterate N (cosinus_checked N) c data = seq_iterate N (cosinus_space N) c data /\
  (forall degree v, par_iterate N (euclid_space N) degree c data = Ok v ->
     exists p, kpar_start N (euclid_checked N) degree c data = Ok p /\ forall p', psteps (euclid_checked N) c p p' ->
       p_dead p' = false /\ (p_main p' = None \/ p_main p' = Some (Ok v))) /\
  (forall degree v, par_iterate N (cosinus_space N) degree c data = Ok v ->
     exists p, kpar_start N (cosinus_checked N) degree c data = Ok p /\ forall p', psteps (cosinus_checked N) c p p' ->
       p_dead p' = false /\ (p_main p' = None \/ p_main p' = Some (Ok v))).
Proof.
  intros F N d c data Hc Hd. split; [|split; [|split]].
  - apply (kseq_eq N _ _ _ (euclid_agrees F N d)); assumption.
  - apply (kseq_eq N _ _ _ (cosinus_agrees F N d)); assumption.
  - intros degree v. apply (same_par N _ _ _ (euclid_agrees F N d)); assumption.
  - intros degree v. apply (same_par N _ _ _ (cosinus_agrees F N d)); assumption.
Qed.
Lemma sized_main : forall F (N : Num F), sized (euclid_checked N) (@length F) /\ sized (cosinus_checked N) (@length F).
Proof. intros F N. split; [apply euclid_sized|apply cosinus_sized]. Qed.
Lemma stream_same_main : forall F (N : Num F) d bs oa (ratio : F) elemts ops rs s,
  sexec N (euclid_space N) bs oa ratio (new_streaming N elemts) ops rs s -> Forall (of_dim d) elemts -> stream_pushes (of_dim d) ops ->
  kstream_run N (euclid_checked N) oa ratio bs (new_streaming N elemts) ops = (s, map Ok rs).
Proof.
  intros F N d bs oa ratio elemts ops rs s H He Hp. apply (krun_eq N _ _ _ (euclid_agrees F N d)); [|exact Hp|exact H].
  split; cbn; [constructor|exact He].
Qed.

(** ** Parts that no goroutine wrote *)
Lemma missing_main : forall (E F : Type) (K : checked E F) (c : list E) parts,
  kpar_join K c (None :: parts) = kpar_join K c parts /\
  forall n before p rest, before = repeat None n -> fst p <> [] ->
    kpar_join K c (before ++ Some p :: None :: rest) = Panic.
Proof.
  intros E F K c parts. split; [reflexivity|].
  intros n before p rest -> Hp. unfold kpar_join, kdba_aggregate.
  assert (H : forall n l, ofold (fun agg part => match agg with
      | None => Ok part
      | Some a => let* r := kdba_combine K a part in Ok (Some r)
      end) (repeat None n ++ l) (@None (list (option E) * list Z)) = ofold (fun agg part => match agg with
      | None => Ok part
      | Some a => let* r := kdba_combine K a part in Ok (Some r)
      end) l None).
  { intros k l. induction k as [|k IH]; [reflexivity|exact IH]. }
  rewrite H. cbn [ofold obind].
  assert (kdba_combine K p None = Panic) as ->; [|reflexivity].
  unfold kdba_combine. destruct p as [[|d ds] cards]; [contradiction|]. cbn [fst length seq map ofold].
  destruct (sget cards (Z.of_nat 0)) as [ci|]; [|reflexivity]. cbn [obind].
  destruct (ci =? 0)%Z; reflexivity.
Qed.
