(** What a centroid computed by k-means is an average of, for any space: a relation between averages
    and lists of elements that Combine preserves is preserved by the sequential and parallel
    iterations. Used for the float64 properties, where Combine is not associative. *)
From Coq Require Import List ZArith Lia Bool.
From Verif Require Import Base.Go Base.Num Model.Clustering Model.Par Model.Kmeans Spec.ClusterSpec Spec.KmeansSpec
  Proofs.GoLemmas Proofs.NumLaws Proofs.NearestProofs Proofs.ReduceProofs Proofs.ParProofs Proofs.ParReduceProofs
  Proofs.ReduceMain Proofs.KmeansProofs.
Import ListNotations.
Local Open Scope Z_scope.

(** [Q a xs]: [a] is an average of [xs], at most [M] elements that satisfy [P]. *)
Record averages {E F : Type} (Sp : Space E F) (M : Z) (P : E -> Prop) (Q : E -> list E -> Prop) : Prop := {
  av_copy : forall x, P x -> Q (scopy Sp x) [x];
  av_one : forall x, P x -> Q x [x];
  av_combine : forall a xs b ys, Forall P xs -> Forall P ys -> xs <> [] -> ys <> [] -> Q a xs -> Q b ys ->
    Z.of_nat (length xs) + Z.of_nat (length ys) <= M ->
    Q (scombine Sp a (Z.of_nat (length xs)) b (Z.of_nat (length ys))) (xs ++ ys)
}.
Arguments av_copy {E F Sp M P Q}. Arguments av_one {E F Sp M P Q}. Arguments av_combine {E F Sp M P Q}.

Lemma filter_length_le {X} (f : X -> bool) l : (length (filter f l) <= length l)%nat.
Proof. induction l as [|x l IH]; cbn; [lia|]. destruct (f x); cbn; lia. Qed.

Section Represent.
Context {E F : Type} (N : Num F) (good : F -> Prop) (HN : NumOrd N good) (Sp : Space E F).
Context (M : Z) (P : E -> Prop) (Q : E -> list E -> Prop) (HA : averages Sp M P Q).

Lemma dba_average (xs : list E) a : Forall P xs -> Z.of_nat (length xs) <= M -> dba Sp xs = Some a -> Q a xs.
Proof.
  revert a. induction xs as [|y xs IH] using rev_ind; intros a HF Hle H; [discriminate|].
  apply Forall_app in HF. destruct HF as [HF Hy]. rewrite app_length in Hle. cbn [length] in Hle.
  destruct xs as [|x xs].
  - cbn in H. injection H as <-. apply (av_copy HA). inversion Hy; assumption.
  - destruct (dba_nonempty Sp (x :: xs) ltac:(discriminate)) as [b Hb].
    rewrite (dba_snoc Sp _ y b Hb) in H. apply (f_equal (fun o => match o with Some a => a | None => a end)) in H. cbv beta iota in H.
    rewrite <- H. change 1 with (Z.of_nat (length [y])).
    apply (av_combine HA); auto; try discriminate.
    + apply IH; [assumption|lia|exact Hb].
    + apply (av_one HA). inversion Hy; assumption.
    + cbn [length]. cbn [length] in Hle. lia.
Qed.

Definition avg (m : option E) (xs : list E) : Prop :=
  match m with None => xs = [] | Some a => xs <> [] /\ Q a xs end.

Definition holds_avg (k : nat) (xs : nat -> list E) (st : list (option E) * list Z) : Prop :=
  length (fst st) = k /\ length (snd st) = k /\
  forall i, (i < k)%nat -> avg (nth i (fst st) None) (xs i) /\ nth i (snd st) 0 = Z.of_nat (length (xs i)).

Lemma upd_same {A} (l : list A) i a d : (i < length l)%nat -> nth i l d = a -> upd l i a = l.
Proof.
  intros Hi Ha. apply list_ext; [apply upd_length|]. intros j Hj. rewrite upd_length in Hj. rewrite nth_error_upd.
  destruct (Nat.eqb_spec j i) as [->|]; cbn [andb]; [|reflexivity].
  destruct (Nat.ltb_spec i (length l)); [|lia]. symmetry. rewrite <- Ha. apply nth_error_nth'. lia.
Qed.

Lemma dba_combine_avg k xs ys a o :
  (forall i, Forall P (xs i)) -> (forall i, Forall P (ys i)) ->
  (forall i, Z.of_nat (length (xs i)) + Z.of_nat (length (ys i)) <= M) ->
  holds_avg k xs a -> holds_avg k ys o ->
  exists r, dba_combine Sp a o = Ok r /\ holds_avg k (fun i => xs i ++ ys i) r.
Proof.
  intros HX HY HL (A1 & A2 & A3) (O1 & O2 & O3). destruct a as [da ca]. cbn [fst snd] in *.
  unfold dba_combine. cbn [fst]. rewrite A1.
  destruct (index_loop (agg_slot Sp o) None 0
     (fun st i =>
    let '(dbas, cards) := st in
    let* ci := sget cards i in
    if ci =? 0 then
      let* od := sget (fst o) i in
      let* dbas := sset dbas i od in
      let* oc := sget (snd o) i in
      let* cards := sset cards i oc in
      Ok (dbas, cards)
    else
      let* oc := sget (snd o) i in
      if 0 <? oc then
        let* ad := sget dbas i in
        let* od := sget (fst o) i in
        match ad, od with
        | Some ad, Some od =>
            let* dbas := sset dbas i (Some (scombine Sp ad ci od oc)) in
            let* cards := sset cards i (ci + oc) in
            Ok (dbas, cards)
        | _, _ => Panic
        end
      else Ok (dbas, cards)) k da ca
      (fun st => forall i, (i < k)%nat -> nth i (snd st) 0 <> 0 -> nth i (fst st) None <> None))
    as (d' & c' & -> & _ & L1 & L2 & L3); auto.
  - cbn [fst snd]. intros i Hi Hn. destruct (A3 i Hi) as [H1 H]. rewrite H in Hn.
    destruct (nth i da None); [discriminate|]. cbn in H1. rewrite H1 in Hn. cbn in Hn. lia.
  - intros [d c] i Hi Hd Hc Hinv. cbn [fst snd] in *.
    rewrite (sget_nth c i 0) by lia. cbn [obind].
    rewrite (sget_nth (fst o) i None) by lia. rewrite (sget_nth (snd o) i 0) by lia. cbn [obind].
    rewrite (sget_nth d i None) by lia. cbn [obind].
    unfold arr_step. cbn [fst snd]. rewrite Nat2Z.id. unfold agg_slot. cbn [fst snd].
    destruct (O3 i Hi) as [Ho1 Ho2].
    destruct (Z.eqb_spec (nth i c 0) 0) as [Hz|Hnz].
    + rewrite !sset_nat by lia. cbn [obind fst snd]. split; [reflexivity|].
      intros j Hj. rewrite !nth_upd, Hd, Hc.
      destruct (Nat.eqb_spec j i) as [->|]; cbn [andb]; [|apply Hinv; assumption].
      destruct (Nat.ltb_spec i k); [|lia]. rewrite Ho2.
      destruct (nth i (fst o) None); [discriminate|]. cbn in Ho1. rewrite Ho1. cbn. lia.
    + specialize (Hinv i Hi Hnz) as Hsome. destruct (nth i d None) as [ad|] eqn:Had; [|contradiction].
      destruct (Z.ltb_spec 0 (nth i (snd o) 0)) as [Hpos|Hnpos].
      * destruct (nth i (fst o) None) as [od|] eqn:Hod; [|cbn in Ho1; rewrite Ho1 in Ho2; cbn in Ho2; lia].
        rewrite !sset_nat by lia. cbn [obind fst snd]. split; [reflexivity|].
        intros j Hj. rewrite !nth_upd, Hd, Hc.
        destruct (Nat.eqb_spec j i) as [->|]; cbn [andb]; [|apply Hinv; assumption].
        destruct (Nat.ltb_spec i k); [|lia]. discriminate.
      * cbn [fst snd]. rewrite (upd_same d i (Some ad) None) by (lia || assumption).
        rewrite (upd_same c i (nth i c 0) 0) by (lia || reflexivity).
        split; [reflexivity|]. exact Hinv.
  - exists (d', c'). split; [reflexivity|]. unfold holds_avg. cbn [fst snd].
    split; [exact L1|split; [exact L2|]]. intros i Hi. specialize (L3 i Hi).
    unfold agg_slot in L3. cbn [fst snd] in L3. destruct (A3 i Hi) as [Ha1 Ha2], (O3 i Hi) as [Ho1 Ho2].
    rewrite Ha2, Ho2 in L3. specialize (HX i). specialize (HY i). specialize (HL i). clear -L3 HX HY HL HA Ha1 Ho1.
    destruct (nth i da None) as [a|]; cbn in Ha1.
    + destruct Ha1 as [Hne Hq]. destruct (Z.eqb_spec (Z.of_nat (length (xs i))) 0) as [H|H].
      { destruct (xs i); [contradiction|cbn [length] in H; lia]. }
      destruct (nth i (fst o) None) as [b|]; cbn in Ho1.
      * destruct Ho1 as [Hne' Hq']. destruct (Z.ltb_spec 0 (Z.of_nat (length (ys i)))) as [H'|H'].
        2:{ destruct (ys i); [contradiction|cbn [length] in H'; lia]. }
        pose proof (f_equal fst L3) as E1. pose proof (f_equal snd L3) as E2. cbn [fst snd] in E1, E2. rewrite E1, E2.
        split; [|rewrite app_length; lia]. cbn. split; [|apply (av_combine HA); assumption].
        destruct (xs i); [contradiction|discriminate].
      * rewrite Ho1 in L3. change (0 <? Z.of_nat (length (@nil E))) with false in L3. cbn iota in L3.
        injection L3 as -> ->. rewrite Ho1, app_nil_r. cbn. auto.
    + rewrite Ha1 in L3. cbn [length Z.of_nat Z.eqb] in L3. injection L3 as -> ->. rewrite Ha1. cbn [app]. auto.
Qed.

Lemma app_length_concat {X} (xss : list (list X)) (f : list X) : In f xss -> (length f <= length (concat xss))%nat.
Proof.
  induction xss as [|g xss IH]; intros H; [destruct H|]. cbn [concat]. rewrite app_length.
  destruct H as [->|H]; [lia|]. specialize (IH H). lia.
Qed.

Lemma dba_aggregate_fold_avg k : forall xss parts xs a,
  Forall2 (holds_avg k) xss parts ->
  (forall f, In f xss -> forall i, Forall P (f i)) -> (forall i, Forall P (xs i)) ->
  (forall i, Z.of_nat (length (xs i ++ concat (map (fun f => f i) xss))) <= M) ->
  holds_avg k xs a ->
  exists r, ofold (dba_aggregate_step Sp) parts (Some a) = Ok (Some r) /\
    holds_avg k (fun i => xs i ++ concat (map (fun f => f i) xss)) r.
Proof.
  intros xss parts xs a HF. revert xs a. induction HF as [|f p xss parts Hp _ IH]; intros xs a HP HX HL Ha.
  - exists a. split; [reflexivity|]. destruct Ha as (A1 & A2 & A3). split; [exact A1|split; [exact A2|]].
    intros i Hi. cbn. rewrite app_nil_r. apply A3. exact Hi.
  - cbn [ofold dba_aggregate_step].
    destruct (dba_combine_avg k xs f a p HX (HP f (or_introl eq_refl))) as (r & -> & Hr); [|exact Ha|exact Hp|].
    { intros i. specialize (HL i). cbn [map concat] in HL. rewrite !app_length in HL. lia. }
    cbn [obind].
    destruct (IH (fun i => xs i ++ f i) r) as (r' & -> & Hr').
    + intros g Hg. apply HP. right; exact Hg.
    + intros i. apply Forall_app. split; [apply HX|apply (HP f (or_introl eq_refl))].
    + intros i. specialize (HL i). cbn [map concat] in HL. rewrite <- app_assoc. exact HL.
    + exact Hr.
    + exists r'. split; [reflexivity|]. destruct Hr' as (A1 & A2 & A3). split; [exact A1|split; [exact A2|]].
      intros i Hi. cbn [map concat]. rewrite app_assoc. apply A3. exact Hi.
Qed.

Lemma reduce_dba_avg (c xs : list E) : c <> [] -> Forall P xs -> Z.of_nat (length xs) <= M ->
  exists r, reduce_dba N Sp c xs = Ok r /\ holds_avg (length c) (fun i => members (fun x => fst (nearest N Sp c x)) i xs) r.
Proof.
  intros Hc HP HL. destruct (reduce_dba_result N Sp c xs Hc (leb_m1_0 N good HN)) as (l & k & H' & L1 & L2 & L3).
  exists (l, k). split; [exact H'|]. split; [exact L1|]. split; [exact L2|]. intros i Hi. cbn [fst snd].
  destruct (L3 i Hi) as [H1 H2]. split; [|exact H2]. rewrite H1.
  pose proof (members_Forall P (fun x => fst (nearest N Sp c x)) i xs HP) as HF.
  pose proof (filter_length_le (fun x => Z.eqb (fst (nearest N Sp c x)) (Z.of_nat i)) xs) as Hle.
  change (filter _ xs) with (members (fun x => fst (nearest N Sp c x)) i xs) in Hle.
  destruct (members _ i xs) as [|y ys] eqn:Hm; [reflexivity|].
  destruct (dba_nonempty Sp (y :: ys) ltac:(discriminate)) as [m Hd]. rewrite Hd. cbn [avg]. split; [discriminate|].
  apply dba_average; [exact HF| |exact Hd]. lia.
Qed.

Lemma par_reduce_dba_avg (c data : list E) degree :
  c <> [] -> 0 < degree -> Forall P data -> Z.of_nat (length data) <= M ->
  exists r, par_reduce_dba N Sp c data degree = build_result c r /\
    holds_avg (length c) (fun i => members (fun x => fst (nearest N Sp c x)) i data) r.
Proof.
  intros Hc Hd HP HL.
  destruct (par_parts data degree (fun part => reduce_dba N Sp c part) Hd) as (chunks & Hcat & Hlen & Heq).
  assert (Hpar : par_reduce_dba N Sp c data degree
    = obind (omap (fun part => reduce_dba N Sp c part) chunks)
        (fun parts => obind (dba_aggregate Sp parts) (build_result c))).
  { rewrite <- Heq. unfold par_reduce_dba. destruct (par_ranges (slen data) degree); reflexivity. }
  rewrite Hpar. clear Hpar Heq.
  assert (HPc : forall ch, In ch chunks -> Forall P ch /\ Z.of_nat (length ch) <= M).
  { intros ch Hch. split.
    - apply Forall_forall. intros x Hx. rewrite Forall_forall in HP. apply HP. rewrite <- Hcat. apply in_concat. eauto.
    - pose proof (app_length_concat chunks ch Hch) as H. rewrite Hcat in H. lia. }
  destruct (omap_total (fun part => reduce_dba N Sp c part) chunks) as [parts Hparts].
  { intros part Hpart. destruct (reduce_dba_avg c part Hc (proj1 (HPc part Hpart)) (proj2 (HPc part Hpart))) as (r & H & _). eauto. }
  rewrite Hparts. cbn [obind]. apply omap_ok_inv in Hparts.
  set (memb := fun chunk i => members (fun x => fst (nearest N Sp c x)) i chunk).
  assert (HF : Forall2 (holds_avg (length c)) (map memb chunks) parts).
  { clear -Hparts Hc HPc HN HA. induction Hparts as [|ch p chs ps H _ IH]; cbn [map]; constructor.
    - destruct (HPc ch (or_introl eq_refl)) as [HP1 HL1]. destruct (reduce_dba_avg c ch Hc HP1 HL1) as (r & H' & Hr).
      rewrite H in H'. injection H' as ->. exact Hr.
    - apply IH. intros g Hg. apply HPc. right. exact Hg. }
  assert (Hmem : forall i, concat (map (fun f => f i) (map memb chunks)) = members (fun x => fst (nearest N Sp c x)) i data).
  { intros i. rewrite map_map. rewrite <- Hcat, members_concat. reflexivity. }
  destruct chunks as [|ch0 chunks]; [cbn in Hlen; lia|]. cbn [map] in HF. inversion HF as [|f p xss ps Hp HF']; subst.
  unfold dba_aggregate. cbn [ofold dba_aggregate_step obind].
  destruct (dba_aggregate_fold_avg (length c) (map memb chunks) ps (memb ch0) p HF') as (r & -> & Hr).
  - intros f Hf i. apply in_map_iff in Hf. destruct Hf as (ch & <- & Hch). apply members_Forall. apply HPc. right. exact Hch.
  - intros i. apply members_Forall. apply HPc. left. reflexivity.
  - intros i. specialize (Hmem i). cbn [map concat] in Hmem. rewrite Hmem.
    eapply Z.le_trans; [|exact HL]. apply Nat2Z.inj_le. apply filter_length_le.
  - exact Hp.
  - cbn [obind]. exists r. split; [reflexivity|]. destruct Hr as (R1 & R2 & R3). split; [exact R1|split; [exact R2|]].
    intros i Hi. specialize (Hmem i). cbn [map concat] in Hmem |- *. rewrite <- Hmem. apply R3. exact Hi.
Qed.

(** Result of an iteration, whatever the strategy. *)
Definition average_step (lab : E -> Z) (c data c' : list E) : Prop :=
  length c' = length c /\
  forall i ci ci', nth_error c i = Some ci -> nth_error c' i = Some ci' ->
    (members lab i data = [] /\ ci' = ci) \/ (members lab i data <> [] /\ Q ci' (members lab i data)).

Lemma strategy_average par (c data : list E) : valid_par par -> c <> [] -> Forall P data -> Z.of_nat (length data) <= M ->
  exists c', strategy_iterate N Sp par c data = Ok (map Some c') /\ average_step (fun x => fst (nearest N Sp c x)) c data c'.
Proof.
  intros Hp Hc HP HL. set (lab := fun x => fst (nearest N Sp c x)). destruct par as [degree|]; cbn in Hp |- *.
  - destruct (par_reduce_dba_avg c data degree Hc Hp HP HL) as (r & Hr & R1 & R2 & R3).
    destruct (build_result_ok c r R1 R2) as (res & Hb & L1 & L2).
    unfold par_iterate. rewrite Hr, Hb. cbn [obind fst].
    exists (map (fun p => fill (fst p) (snd p)) (combine c res)). split.
    + f_equal. apply list_ext; [rewrite !map_length, combine_length; lia|]. intros i Hi. rewrite L1 in Hi.
      destruct (nth_error c i) as [ci|] eqn:Hci; [|apply nth_error_None in Hci; lia].
      rewrite nth_error_map, (nth_error_fill c res i ci L1 Hci). cbn [option_map].
      rewrite (nth_error_nth' res None) by lia. f_equal. rewrite (L2 i ci Hci). destruct (R3 i Hi) as [Q1 Q2].
      destruct (0 <? nth i (snd r) 0) eqn:Hn; [|reflexivity]. destruct (nth i (fst r) None); [reflexivity|].
      cbn in Q1. rewrite Q1 in Q2. rewrite Q2 in Hn. discriminate.
    + split; [rewrite map_length, combine_length; lia|]. intros i ci ci' Hi Hi'.
      rewrite (nth_error_fill c res i ci L1 Hi) in Hi'. injection Hi' as <-.
      assert (Hlt : (i < length c)%nat) by (apply nth_error_Some; congruence).
      rewrite (L2 i ci Hi). destruct (R3 i Hlt) as [Q1 Q2]. fold lab in Q1, Q2. rewrite Q2.
      destruct (members lab i data) as [|y ys] eqn:Hm; [left; auto|]. right. split; [discriminate|].
      destruct (Z.ltb_spec 0 (Z.of_nat (length (y :: ys)))) as [Hl|Hl]; [|cbn [length] in Hl; lia].
      destruct (nth i (fst r) None); [|cbn in Q1; discriminate]. cbn [fill]. apply Q1.
  - destruct (seq_iterate_lloyd N good HN Sp c data Hc) as (c' & H1 & H2 & H3).
    exists c'. split; [exact H1|]. split; [exact H2|]. intros i ci ci' Hi Hi'. specialize (H3 i ci Hi).
    rewrite Hi' in H3. injection H3 as ->. fold lab.
    pose proof (members_Forall P lab i data HP) as HF.
    pose proof (filter_length_le (fun x => Z.eqb (lab x) (Z.of_nat i)) data) as Hle. change (filter _ data) with (members lab i data) in Hle.
    destruct (members lab i data) as [|y ys] eqn:Hm; [left; auto|]. right. split; [discriminate|].
    destruct (dba_nonempty Sp (y :: ys) ltac:(discriminate)) as [m Hd]. rewrite Hd.
    apply dba_average; [exact HF|lia|exact Hd].
Qed.

End Represent.
