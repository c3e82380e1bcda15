(** Algorithms that share generators of random numbers (C123). *)
From Coq Require Import List ZArith Lia Bool.
From Verif Require Import Base.Go Base.Num Model.Clustering Model.Par Model.Buffer Model.Kmeans Model.KmeansInit Model.Mcmc
  Model.Generators Spec.GeneratorsSpec.
Import ListNotations.

(** ** Computations use only their generators *)
Lemma uses_ret {S A} ps (x : A) : @only_uses S A ps (gret x).
Proof. split; unfold gret; [intros m y m' H q _|intros m n y m' Hm H]; injection H as <- <-; [reflexivity|eauto]. Qed.

Lemma uses_lift {S A} ps (o : outcome A) : @only_uses S A ps (glift o).
Proof.
  split; unfold glift; [intros m y m' H q _|intros m n y m' Hm H]; destruct o as [a|]; cbn in *; try discriminate; injection H as <- <-; [reflexivity|eauto].
Qed.

Lemma uses_bind {S A B} ps (a : gcomp S A) (f : A -> gcomp S B) : only_uses ps a -> (forall x, only_uses ps (f x)) -> only_uses ps (gbind a f).
Proof.
  intros [A1 A2] Hf. split; unfold gbind.
  - intros m y m' H q Hq. destruct (a m) as [[x m1]|] eqn:E; [|discriminate]. destruct (Hf x) as [F1 _].
    rewrite (F1 _ _ _ H q Hq). exact (A1 _ _ _ E q Hq).
  - intros m n y m' Hm H. destruct (a m) as [[x m1]|] eqn:E; [|discriminate]. destruct (A2 _ _ _ _ Hm E) as (n1 & -> & Hn1).
    destruct (Hf x) as [_ F2]. exact (F2 _ _ _ _ Hn1 H).
Qed.

Lemma gset_same {S} (m : gmem S) p s : gset m p s p = s.
Proof. unfold gset. rewrite Nat.eqb_refl. reflexivity. Qed.
Lemma gset_other {S} (m : gmem S) p s q : q <> p -> gset m p s q = m q.
Proof. intros H. unfold gset. destruct (Nat.eqb_spec q p); [contradiction|reflexivity]. Qed.

Lemma uses_draw {S A} ps p (f : S -> A * S) : In p ps -> only_uses ps (fun m => let '(x, s) := f (m p) in Ok (x, gset m p s)).
Proof.
  intros Hp. split.
  - intros m y m' H q Hq. destruct (f (m p)) as [x s]. injection H as _ <-. apply gset_other. congruence.
  - intros m n y m' Hm H. rewrite <- (Hm p Hp). destruct (f (m p)) as [x s]. injection H as <- <-. exists (gset n p s).
    split; [reflexivity|]. intros q Hq. unfold gset. destruct (Nat.eqb q p); [reflexivity|exact (Hm q Hq)].
Qed.

Lemma uses_mono {S A} ps qs (f : gcomp S A) : (forall p, In p ps -> In p qs) -> only_uses ps f -> only_uses qs f.
Proof.
  intros Hi [H1 H2]. split.
  - intros m x m' H q Hq. apply (H1 _ _ _ H). auto.
  - intros m n x m' Hm H. destruct (H2 m n x m') as (n' & Hn & Hq); auto. exists n'. split; [exact Hn|]. intros q Hqs.
    destruct (in_dec Nat.eq_dec q ps) as [Hin|Hout]; [auto|]. rewrite (H1 _ _ _ H q Hout), (H1 _ _ _ Hn q Hout). auto.
Qed.

Ltac uses := repeat first
  [ apply uses_ret | apply uses_lift | apply uses_bind; [|intros] | apply uses_draw; cbn; tauto
  | match goal with |- only_uses _ (match ?x with _ => _ end) => destruct x end
  | match goal with |- only_uses _ (if ?x then _ else _) => destruct x end ].

Section Uses.
Context {E F G S : Type} (N : Num F) (Sp : Space E F) (gen : generator F G S).

Lemma uses_gdraw ps w p : In p ps -> only_uses ps (gdraw N gen w p).
Proof. intros H. unfold gdraw. destruct neqb; [apply uses_ret|apply uses_draw; exact H]. Qed.

Lemma uses_pp_loop cpus p : forall n found elemts, only_uses [p] (gpp_loop N Sp gen cpus n found elemts p).
Proof.
  induction n as [|n IH]; intros found elemts; cbn [gpp_loop]; [apply uses_ret|]. apply uses_bind.
  - unfold gpp_iter. apply uses_bind; [apply uses_lift|intros ld]. apply uses_bind; [apply uses_gdraw; cbn; tauto|intros r; apply uses_lift].
  - intros [e [err|]]; cbn [fst snd]; [apply uses_ret|apply IH].
Qed.

Lemma uses_pp cpus p k elemts : only_uses [p] (gpp_initializer N Sp gen cpus p k elemts).
Proof.
  unfold gpp_initializer. apply uses_bind; [apply uses_lift|intros cs]. destruct check; [apply uses_ret|].
  apply uses_bind; [apply uses_draw; cbn; tauto|intros d]. apply uses_bind; [apply uses_lift|intros c0].
  apply uses_bind; [apply uses_pp_loop|intros r; apply uses_ret].
Qed.

Lemma uses_given p k elemts : only_uses [p] (ggiven_initializer (S := S) Sp p k elemts).
Proof. apply uses_lift. Qed.

Context (initializer : nat -> Z -> list E -> gcomp S (list (option E) * option init_error)).
Context (Hinit : forall p k elemts, only_uses [p] (initializer p k elemts)).

Lemma uses_gkmeans k frame par pt b :
  only_uses (held pt) (gi_init (gkmeans N Sp initializer k frame par) pt b) /\
  forall c, only_uses (held pt) (gi_iterate (gkmeans N Sp initializer k frame par) pt b c).
Proof.
  split; cbn.
  - apply uses_bind; [apply uses_lift|intros b1]. apply uses_bind; [|intros r; apply uses_ret].
    apply (uses_mono [pt_conf pt]); [cbn; tauto|apply Hinit].
  - intros c. uses.
Qed.

Lemma uses_gcenters cpus ps s data k clust p : In p ps -> only_uses ps (gcenters N Sp gen cpus s data k clust p).
Proof.
  intros Hp. unfold gcenters. destruct store_get; [apply uses_ret|]. destruct (_ <? _)%Z.
  - apply uses_bind; [apply uses_lift|intros ld]. apply uses_bind; [apply uses_gdraw; exact Hp|intros r; apply uses_ret].
  - destruct (_ <? _)%Z; [|apply uses_ret]. apply uses_bind; [apply uses_draw; exact Hp|intros d; apply uses_ret].
Qed.

Lemma uses_gsamples ps p : In p ps -> forall n, only_uses ps (gsamples gen n p).
Proof.
  intros Hp. induction n as [|n IH]; cbn [gsamples]; [apply uses_ret|]. apply uses_bind; [apply uses_draw; exact Hp|intros g].
  apply uses_bind; [exact IH|intros r; apply uses_ret].
Qed.

Lemma uses_gmcmc frame pow log exp cpus D conf g0 pt m :
  let im := gmcmc N Sp gen initializer frame pow log exp cpus D conf g0 in
  only_uses (held pt) (gi_init im pt m) /\ forall c, only_uses (held pt) (gi_iterate im pt m c).
Proof.
  split; cbn.
  - apply uses_bind; [apply uses_lift|intros b]. apply uses_bind; [|intros r; apply uses_lift].
    apply (uses_mono [pt_conf pt]); [cbn; tauto|apply Hinit].
  - intros c. apply uses_bind; [|intros dr; apply uses_bind; [apply uses_lift|intros r; apply uses_ret]].
    unfold gmcmc_draws. apply uses_bind; [apply uses_gdraw; cbn; tauto|intros rk]. apply uses_bind; [apply uses_lift|intros k].
    apply uses_bind; [apply uses_gcenters; cbn; tauto|intros [r d]]. apply uses_bind; [apply uses_lift|intros ce].
    apply uses_bind; [destruct (snd ce); [apply uses_gcenters; cbn; tauto|apply uses_ret]|intros [r' d']].
    apply uses_bind; [apply uses_lift|intros kc]. apply uses_bind; [apply uses_gsamples; cbn; tauto|intros gs].
    apply uses_bind; [apply uses_draw; cbn; tauto|intros u; apply uses_ret].
Qed.
End Uses.

(** ** Several algorithms *)
Section Algos.
Context {E I S : Type} (im : gimplem E I S).

Lemma gupdate_length (l : list (@galgo E I)) : forall i a, length (gupdate l i a) = length l.
Proof. induction l as [|b l IH]; intros [|i] a; cbn; auto. Qed.
Lemma gupdate_same (l : list (@galgo E I)) : forall i a, i < length l -> nth_error (gupdate l i a) i = Some a.
Proof. induction l as [|b l IH]; intros [|i] a H; cbn in *; try lia; [reflexivity|]. apply IH. lia. Qed.
Lemma gupdate_other (l : list (@galgo E I)) : forall i j a, j <> i -> nth_error (gupdate l i a) j = nth_error l j.
Proof. induction l as [|b l IH]; intros [|i] [|j] a H; cbn; try reflexivity; try lia. apply IH. lia. Qed.

(** Algorithm [i] is the same in both, and so are its generators; the others of the first hold none of them. *)
Definition alike (i : nat) (pt : pointers) (st st' : list (@galgo E I) * gmem S) : Prop :=
  (exists a, nth_error (fst st) i = Some a /\ nth_error (fst st') i = Some a /\ ga_pt a = pt) /\
  (forall q, In q (held pt) -> snd st q = snd st' q) /\
  (forall j a, j <> i -> nth_error (fst st) j = Some a -> forall p, In p (held (ga_pt a)) -> ~ In p (held pt)).

Context (Huse : forall pt b, only_uses (held pt) (gi_init im pt b) /\ forall c, only_uses (held pt) (gi_iterate im pt b c)).

Lemma alike_update i pt l m l' m' m1 m1' a :
  alike i pt (l, m) (l', m') -> ga_pt a = pt -> (forall q, In q (held pt) -> m1 q = m1' q) ->
  alike i pt (gupdate l i a, m1) (gupdate l' i a, m1').
Proof.
  intros ((b & B1 & B2 & B3) & _ & Hd) Ha Hm. cbn [fst snd] in *. split; [|split]; cbn [fst snd].
  - exists a. rewrite !gupdate_same by (apply nth_error_Some; congruence). auto.
  - exact Hm.
  - intros j c Hj Hc. rewrite gupdate_other in Hc by exact Hj. eauto.
Qed.

Lemma alike_other i pt l m l' m' m1 j a b :
  alike i pt (l, m) (l', m') -> j <> i -> nth_error l j = Some b -> ga_pt a = ga_pt b ->
  (forall q, ~ In q (held (ga_pt b)) -> m1 q = m q) ->
  alike i pt (gupdate l j a, m1) (l', m').
Proof.
  intros ((c & B1 & B2 & B3) & Hm & Hd) Hj Hb Ha H1. cbn [fst snd] in *. split; [|split]; cbn [fst snd].
  - exists c. rewrite gupdate_other by auto. auto.
  - intros q Hq. rewrite <- (Hm q Hq). apply H1. intros Hin. exact (Hd j b Hj Hb q Hin Hq).
  - intros k d Hk Hd'. destruct (Nat.eq_dec k j) as [->|Hkj].
    + rewrite gupdate_same in Hd' by (apply nth_error_Some; congruence). injection Hd' as <-. rewrite Ha. eauto.
    + rewrite gupdate_other in Hd' by exact Hkj. eauto.
Qed.

Lemma step_own i pt st st' o st1 : alike i pt st st' -> target o = i -> is_copy o = false -> gstep im st o = Some st1 ->
  exists st1', gstep im st' o = Some st1' /\ alike i pt st1 st1'.
Proof.
  intros HA Ht Hc H. destruct st as [l m], st' as [l' m']. pose proof HA as ((a & A1 & A2 & A3) & Hm & Hd). cbn [fst snd] in *.
  destruct o as [j|j|j x|j p]; cbn in Ht, Hc; try discriminate; subst j; cbn [gstep] in *; rewrite A1 in H; rewrite A2.
  - destruct (gi_init im (ga_pt a) (ga_impl a) m) as [[[[im' cs] err] m1]|] eqn:Ei; [|discriminate]. injection H as <-.
    destruct (Huse (ga_pt a) (ga_impl a)) as [[_ U] _]. rewrite <- A3 in Hm. destruct (U _ _ _ _ Hm Ei) as (m1' & -> & Hm1).
    eexists. split; [reflexivity|]. eapply alike_update; [exact HA|exact A3|rewrite A3 in Hm1; exact Hm1].
  - destruct (ga_ready a); [|discriminate]. destruct (somes (ga_centroids a)) as [c|]; [|discriminate].
    destruct (gi_iterate im (ga_pt a) (ga_impl a) c m) as [[[im' c'] m1]|] eqn:Ei; [|discriminate]. injection H as <-.
    destruct (Huse (ga_pt a) (ga_impl a)) as [_ U]. destruct (U c) as [_ U2]. rewrite <- A3 in Hm. destruct (U2 _ _ _ _ Hm Ei) as (m1' & -> & Hm1).
    eexists. split; [reflexivity|]. eapply alike_update; [exact HA|exact A3|rewrite A3 in Hm1; exact Hm1].
  - destruct (gi_push im (ga_impl a) x) as [im'|]; [|discriminate]. injection H as <-. eexists. split; [reflexivity|].
    eapply alike_update; [exact HA|exact A3|exact Hm].
Qed.

Lemma step_other i pt st st' o st1 : alike i pt st st' -> target o <> i -> (forall j p, o = GCopy j p -> ~ In p (held pt)) ->
  gstep im st o = Some st1 -> alike i pt st1 st'.
Proof.
  intros HA Ht Hc H. destruct st as [l m], st' as [l' m']. pose proof HA as ((a & A1 & A2 & A3) & Hm & Hd). cbn [fst snd] in *.
  destruct o as [j|j|j x|j p]; cbn [target] in Ht; cbn [gstep] in H; destruct (nth_error l j) as [b|] eqn:Hb; try discriminate.
  - destruct (gi_init im (ga_pt b) (ga_impl b) m) as [[[[im' cs] err] m1]|] eqn:Ei; [|discriminate]. injection H as <-.
    destruct (Huse (ga_pt b) (ga_impl b)) as [[U _] _]. eapply alike_other; try eassumption; [reflexivity|]. intros q. apply (U _ _ _ Ei).
  - destruct (ga_ready b); [|discriminate]. destruct (somes (ga_centroids b)) as [c|]; [|discriminate].
    destruct (gi_iterate im (ga_pt b) (ga_impl b) c m) as [[[im' c'] m1]|] eqn:Ei; [|discriminate]. injection H as <-.
    destruct (Huse (ga_pt b) (ga_impl b)) as [_ U]. destruct (U c) as [U1 _]. eapply alike_other; try eassumption; [reflexivity|]. intros q. apply (U1 _ _ _ Ei).
  - destruct (gi_push im (ga_impl b) x) as [im'|]; [|discriminate]. injection H as <-. eapply alike_other; try eassumption; [reflexivity|]. reflexivity.
  - destruct (gi_copy im (ga_impl b)) as [im'|]; [|discriminate]. injection H as <-. split; [|split]; cbn [fst snd].
    + exists a. rewrite nth_error_app1 by (apply nth_error_Some; congruence). auto.
    + exact Hm.
    + intros k d Hk Hd'. destruct (Nat.lt_ge_cases k (length l)) as [Hlt|Hge].
      * rewrite nth_error_app1 in Hd' by exact Hlt. eauto.
      * rewrite nth_error_app2 in Hd' by exact Hge. destruct (k - length l) as [|n]; [|destruct n; discriminate].
        cbn in Hd'. injection Hd' as <-. cbn. pose proof (Hd j b Ht Hb) as Hbd. cbn in Hbd.
        intros q [<-|[<-|[<-|[]]]]; [exact (Hc j p eq_refl)|apply Hbd; auto|apply Hbd; auto].
Qed.

Lemma apart_run i pt : forall os st st' st1, alike i pt st st' -> (forall j p, In (GCopy j p) os -> j <> i /\ ~ In p (held pt)) ->
  gsteps im st os = Some st1 -> exists st1', gsteps im st' (own_calls i os) = Some st1' /\ alike i pt st1 st1'.
Proof.
  induction os as [|o os IH]; intros st st' st1 HA Hc H; cbn in H |- *; [injection H as <-; eauto|].
  destruct (gstep im st o) as [st2|] eqn:Eo; [|discriminate].
  assert (Hc' : forall j p, In (GCopy j p) os -> j <> i /\ ~ In p (held pt)) by (intros j p Hin; apply Hc; right; exact Hin).
  destruct (Nat.eqb_spec (target o) i) as [Ht|Ht]; [destruct (is_copy o) eqn:Hcp|]; cbn [andb negb].
  - exfalso. destruct o as [j|j|j x|j p]; try discriminate. cbn in Ht. destruct (Hc j p); [left; reflexivity|contradiction].
  - destruct (step_own i pt st st' o st2 HA Ht Hcp Eo) as (st2' & E2 & HA2). cbn [gsteps]. rewrite E2. exact (IH _ _ _ HA2 Hc' H).
  - apply (IH st2 st' st1); [|exact Hc'|exact H]. eapply step_other; try eassumption. intros j p ->. exact (proj2 (Hc j p (or_introl eq_refl))).
Qed.

Lemma apart_main i a l m os l1 m1 : nth_error l i = Some a -> apart i (ga_pt a) l os -> gsteps im (l, m) os = Some (l1, m1) ->
  exists l2 m2, gsteps im (l, m) (own_calls i os) = Some (l2, m2) /\ nth_error l1 i = nth_error l2 i /\
    forall p, In p (held (ga_pt a)) -> m1 p = m2 p.
Proof.
  intros Ha [Hd Hc] H. destruct (apart_run i (ga_pt a) os (l, m) (l, m) (l1, m1)) as ([l2 m2] & H1 & H2); auto.
  - split; [exists a; auto|]. split; [reflexivity|exact Hd].
  - exists l2, m2. destruct H2 as ((b & B1 & B2 & _) & Hm & _). cbn [fst snd] in *. split; [exact H1|]. split; [congruence|exact Hm].
Qed.

(** ** Iterations that draw nothing *)
Context (Hquiet : forall pt b c m n x m', gi_iterate im pt b c m = Ok (x, m') -> gi_iterate im pt b c n = Ok (x, n)).

Lemma quiet_run i : forall os l m l' m' st1, (forall o, In o os -> target o = i -> is_init o = false) ->
  nth_error l i = nth_error l' i -> nth_error l i <> None -> gsteps im (l, m) os = Some st1 ->
  exists l2, gsteps im (l', m') (own_calls i os) = Some (l2, m') /\ nth_error (fst st1) i = nth_error l2 i.
Proof.
  induction os as [|o os IH]; intros l m l' m' st1 Hi Hl Hn H; cbn [own_calls filter] in *.
  - cbn in H |- *. injection H as <-. exists l'. auto.
  - cbn [gsteps] in H. destruct (gstep im (l, m) o) as [[l1 m1]|] eqn:Eo; [|discriminate].
    assert (Hi' : forall o, In o os -> target o = i -> is_init o = false) by (intros o' Ho'; apply Hi; right; exact Ho').
    assert (Hgrow : nth_error l1 i = nth_error l i \/ (target o = i /\ is_copy o = false)).
    { destruct o as [j|j|j x|j p]; cbn [gstep target is_copy] in *; destruct (nth_error l j) as [b|] eqn:Hb; try discriminate.
      - destruct (gi_init im (ga_pt b) (ga_impl b) m) as [[[[im' cs] err] m2]|]; [|discriminate]. injection Eo as <- <-.
        destruct (Nat.eq_dec j i) as [|Hj]; [auto|left]. apply gupdate_other. auto.
      - destruct (ga_ready b); [|discriminate]. destruct (somes (ga_centroids b)) as [c|]; [|discriminate].
        destruct (gi_iterate im (ga_pt b) (ga_impl b) c m) as [[[im' c'] m2]|]; [|discriminate]. injection Eo as <- <-.
        destruct (Nat.eq_dec j i) as [|Hj]; [auto|left]. apply gupdate_other. auto.
      - destruct (gi_push im (ga_impl b) x) as [im'|]; [|discriminate]. injection Eo as <- <-.
        destruct (Nat.eq_dec j i) as [|Hj]; [auto|left]. apply gupdate_other. auto.
      - destruct (gi_copy im (ga_impl b)) as [im'|]; [|discriminate]. injection Eo as <- <-. left. apply nth_error_app1. apply nth_error_Some. exact Hn. }
    destruct (Nat.eqb_spec (target o) i) as [Ht|Ht]; [destruct (is_copy o) eqn:Hcp|]; cbn [andb negb].
    + destruct Hgrow as [Hg|[_ Hg]]; [|discriminate]. apply (IH l1 m1 l' m' st1); auto; congruence.
    + destruct (nth_error l i) as [a|] eqn:Ha; [|contradiction].
      assert (Hlt : i < length l) by (apply nth_error_Some; congruence).
      assert (Hlt' : i < length l') by (apply nth_error_Some; congruence).
      pose proof (Hi o (or_introl eq_refl) Ht) as Hni.
      destruct o as [j|j|j x|j p]; cbn [target is_init is_copy] in *; try discriminate; subst j; cbn [gstep] in Eo; rewrite Ha in Eo.
      * destruct (ga_ready a) eqn:Hr; [|discriminate]. destruct (somes (ga_centroids a)) as [c|] eqn:Hs; [|discriminate].
        destruct (gi_iterate im (ga_pt a) (ga_impl a) c m) as [[[im' c'] m2]|] eqn:Ei; [|discriminate]. injection Eo as <- <-.
        cbn [gsteps gstep]. rewrite <- Hl, Hr, Hs, (Hquiet _ _ _ _ m' _ _ Ei).
        eapply IH; [exact Hi'| | |exact H]; rewrite !gupdate_same by assumption; [reflexivity|discriminate].
      * destruct (gi_push im (ga_impl a) x) as [im'|] eqn:Ep; [|discriminate]. injection Eo as <- <-.
        cbn [gsteps gstep]. rewrite <- Hl, Ep.
        eapply IH; [exact Hi'| | |exact H]; rewrite !gupdate_same by assumption; [reflexivity|discriminate].
    + destruct Hgrow as [Hg|[Hg _]]; [|contradiction]. apply (IH l1 m1 l' m' st1); auto; congruence.
Qed.
End Algos.

Lemma gkmeans_quiet {E F S} (N : Num F) (Sp : Space E F) initializer k frame par pt b c (m n : gmem S) x m' :
  gi_iterate (gkmeans N Sp initializer k frame par) pt b c m = Ok (x, m') ->
  gi_iterate (gkmeans N Sp initializer k frame par) pt b c n = Ok (x, n).
Proof.
  cbn. unfold gbind, glift, gret. destruct (strategy_iterate N Sp par c (bdata b)) as [r|]; cbn; [|discriminate].
  destruct (somes r) as [c'|]; cbn; [|discriminate]. destruct (buffer_apply b) as [b'|]; cbn; [|discriminate].
  intros H. injection H as <- _. reflexivity.
Qed.

Lemma kmeans_apart_main : forall (E F S : Type) (N : Num F) (Sp : Space E F) initializer k frame par,
  let im := gkmeans (S := S) N Sp initializer k frame par in forall i a l m os l1 m1,
  nth_error l i = Some a -> (forall o, In o os -> target o = i -> is_init o = false) -> gsteps im (l, m) os = Some (l1, m1) ->
  exists l2, gsteps im (l, m) (own_calls i os) = Some (l2, m) /\ nth_error l1 i = nth_error l2 i.
Proof.
  intros E F S N Sp initializer k frame par im i a l m os l1 m1 Ha Hi H.
  destruct (quiet_run im (gkmeans_quiet N Sp initializer k frame par) i os l m l m (l1, m1) Hi eq_refl ltac:(congruence) H) as (l2 & H1 & H2).
  exists l2. auto.
Qed.

Lemma mcmc_apart_main : forall (E F G S : Type) (N : Num F) (Sp : Space E F) (gen : generator F G S) initializer frame pow log exp cpus D conf g0,
  (forall p k elemts, only_uses [p] (initializer p k elemts)) ->
  let im := gmcmc N Sp gen initializer frame pow log exp cpus D conf g0 in forall i a l m os l1 m1,
  nth_error l i = Some a -> apart i (ga_pt a) l os -> gsteps im (l, m) os = Some (l1, m1) ->
  exists l2 m2, gsteps im (l, m) (own_calls i os) = Some (l2, m2) /\ nth_error l1 i = nth_error l2 i /\
    forall p, In p (held (ga_pt a)) -> m1 p = m2 p.
Proof. intros. eapply apart_main; try eassumption. intros pt b. apply uses_gmcmc. assumption. Qed.

Lemma kmeans_all_apart_main : forall (E F S : Type) (N : Num F) (Sp : Space E F) initializer k frame par,
  (forall p k elemts, only_uses [p] (initializer p k elemts)) ->
  let im := gkmeans (S := S) N Sp initializer k frame par in forall i a l m os l1 m1,
  nth_error l i = Some a -> apart i (ga_pt a) l os -> gsteps im (l, m) os = Some (l1, m1) ->
  exists l2 m2, gsteps im (l, m) (own_calls i os) = Some (l2, m2) /\ nth_error l1 i = nth_error l2 i /\
    forall p, In p (held (ga_pt a)) -> m1 p = m2 p.
Proof. intros. eapply apart_main; try eassumption. intros pt b. apply uses_gkmeans. assumption. Qed.

Lemma initializers_main : forall (E F G S : Type) (N : Num F) (Sp : Space E F) (gen : generator F G S) cpus p k elemts,
  only_uses [p] (gpp_initializer N Sp gen cpus p k elemts) /\ only_uses [p] (ggiven_initializer (S := S) Sp p k elemts).
Proof. intros. split; [apply uses_pp|apply uses_given]. Qed.

(** An iteration is one of Model/Mcmc.v with the numbers it draws. *)
Lemma gbind_inv {S A B} (x : gcomp S A) (f : A -> gcomp S B) m r : gbind x f m = Ok r -> exists v m1, x m = Ok (v, m1) /\ f v m1 = Ok r.
Proof. unfold gbind. destruct (x m) as [[v m1]|]; [eauto|discriminate]. Qed.

Lemma gmcmc_draws_spec {E F G S} (N : Num F) (Sp : Space E F) (gen : generator F G S) cpus conf g0 pt m c mem dr (mem' : gmem S) :
  gmcmc_draws N Sp gen cpus conf g0 pt m c mem = Ok (dr, mem') ->
  exists st, g_float gen st = (d_u dr, mem' (pt_impl pt)) /\
    (neqb N (weights_sum N (mp_proba_k conf)) (nof N 0) = false -> d_k dr = fst (g_float gen (mem (pt_conf pt)))).
Proof.
  unfold gmcmc_draws. intros H. apply gbind_inv in H. destruct H as (rk & m1 & Hk & H).
  apply gbind_inv in H. destruct H as (k & m2 & _ & H). apply gbind_inv in H. destruct H as ([r d] & m3 & _ & H).
  apply gbind_inv in H. destruct H as (ce & m4 & _ & H). apply gbind_inv in H. destruct H as ([r' d'] & m5 & _ & H).
  apply gbind_inv in H. destruct H as (kc & m6 & _ & H). apply gbind_inv in H. destruct H as (gs & m7 & _ & H).
  apply gbind_inv in H. destruct H as (u & m8 & Hu & H). unfold gret in H. injection H as <- <-. cbn [d_u d_k].
  exists (m7 (pt_impl pt)). split.
  - unfold gfloat in Hu. destruct (g_float gen (m7 (pt_impl pt))) as [x s]. injection Hu as <- <-. rewrite gset_same. reflexivity.
  - intros Hw. unfold gdraw in Hk. rewrite Hw in Hk. unfold gfloat in Hk. destruct (g_float gen (mem (pt_conf pt))) as [x s].
    injection Hk as <- _. reflexivity.
Qed.

Lemma gmcmc_draws_main : forall (E F G S : Type) (N : Num F) (Sp : Space E F) (gen : generator F G S) initializer frame pow log exp cpus D conf g0 pt m c
    (mem mem' : gmem S) m' c',
  gi_iterate (gmcmc N Sp gen initializer frame pow log exp cpus D conf g0) pt m c mem = Ok (m', c', mem') ->
  exists dr f st, mcmc_iterate N Sp pow log exp cpus D conf m c dr = Ok (m', c', f) /\
    g_float gen st = (d_u dr, mem' (pt_impl pt)) /\
    (neqb N (weights_sum N (mp_proba_k conf)) (nof N 0) = false -> d_k dr = fst (g_float gen (mem (pt_conf pt)))).
Proof.
  intros until c'. cbn. unfold gbind, glift, gret. destruct (gmcmc_draws N Sp gen cpus conf g0 pt m c mem) as [[dr mem1]|] eqn:Ed; [|discriminate].
  destruct (mcmc_iterate N Sp pow log exp cpus D conf m c dr) as [[[m1 c1] f]|] eqn:Ei; cbn; [|discriminate].
  intros H. injection H as <- <- <-. apply gmcmc_draws_spec in Ed. destruct Ed as (st & Hu & Hk). exists dr, f, st. auto.
Qed.

Definition works {A} (o : option A) : bool := match o with Some _ => true | None => false end.
