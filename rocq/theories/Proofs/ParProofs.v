(** Proofs about Par and the parallel labelling and reductions. *)
From Coq Require Import List ZArith Lia Bool Permutation.
From Verif Require Import Base.Go Base.Num Model.Clustering Model.Par Spec.ClusterSpec Spec.ParSpec
  Proofs.GoLemmas Proofs.NumLaws Proofs.NearestProofs Proofs.ReduceProofs.
Import ListNotations.
Local Open Scope Z_scope.

(** ** Par ranges *)
Section Ranges.
Variables size degree : Z.
Hypothesis Hs : 0 <= size.
Hypothesis Hd : 0 < degree.

Let q := size / degree.
Let r := size mod degree.

(** Start of rank i. *)
Definition par_bound (i : Z) : Z := i * q + Z.max 0 (i - (degree - r)).

Lemma qr : size = degree * q + r /\ 0 <= r < degree /\ 0 <= q.
Proof.
  unfold q, r. split; [apply Z.div_mod; lia|]. split; [apply Z.mod_pos_bound; lia|].
  apply Z.div_pos; lia.
Qed.

Lemma par_bound_0 : par_bound 0 = 0.
Proof. unfold par_bound. destruct qr as (_ & ? & ?). lia. Qed.

Lemma par_bound_d : par_bound degree = size.
Proof. unfold par_bound. destruct qr as (H & ? & ?). lia. Qed.

Lemma par_bound_S i : par_bound (i + 1) = par_bound i + q + (if Z.leb (degree - r) i then 1 else 0).
Proof. unfold par_bound. destruct (Z.leb_spec (degree - r) i); lia. Qed.

Lemma par_bound_mono i j : i <= j -> par_bound i <= par_bound j.
Proof. unfold par_bound. destruct qr as (_ & ? & ?). nia. Qed.

Lemma par_loop_spec n : forall i, 0 <= i -> i + Z.of_nat n = degree ->
  par_loop n i (par_bound i) (q + (if Z.ltb (degree - r) i then 1 else 0)) size degree r
  = map (fun k => (par_bound (i + Z.of_nat k), par_bound (i + Z.of_nat k + 1), i + Z.of_nat k)) (seq 0 n).
Proof.
  induction n as [|n IH]; intros i Hi Hn; [reflexivity|].
  cbn [par_loop seq map].
  assert (Hoff : (if i =? degree - r then q + (if Z.ltb (degree - r) i then 1 else 0) + 1
                  else q + (if Z.ltb (degree - r) i then 1 else 0))
                 = q + (if Z.leb (degree - r) i then 1 else 0)).
  { destruct (Z.eqb_spec i (degree - r)), (Z.ltb_spec (degree - r) i), (Z.leb_spec (degree - r) i); lia. }
  rewrite Hoff.
  assert (He : par_bound i + (q + (if Z.leb (degree - r) i then 1 else 0)) = par_bound (i + 1))
    by (rewrite par_bound_S; lia).
  rewrite He.
  assert (Hle : par_bound (i + 1) <= size).
  { rewrite <- par_bound_d. apply par_bound_mono. lia. }
  destruct (Z.ltb_spec size (par_bound (i + 1))); [lia|].
  rewrite Z.add_0_r. f_equal.
  replace (Z.leb (degree - r) i) with (Z.ltb (degree - r) (i + 1))
    by (destruct (Z.ltb_spec (degree - r) (i + 1)), (Z.leb_spec (degree - r) i); lia).
  rewrite IH by lia. rewrite <- seq_shift, map_map. apply map_ext.
  intros k. replace (i + Z.of_nat (S k)) with (i + 1 + Z.of_nat k) by lia. reflexivity.
Qed.

Lemma par_ranges_spec :
  par_ranges size degree =
  Ok (map (fun k => (par_bound (Z.of_nat k), par_bound (Z.of_nat k + 1), Z.of_nat k))
          (seq 0 (Z.to_nat degree))).
Proof.
  unfold par_ranges, idiv, imod. destruct (Z.eqb_spec degree 0); [lia|]. cbn [obind].
  destruct (Z.ltb_spec degree 0); [lia|].
  rewrite Z.quot_div_nonneg, Z.rem_mod_nonneg by lia. fold q r.
  pose proof (par_loop_spec (Z.to_nat degree) 0 ltac:(lia) ltac:(lia)) as Hlp.
  rewrite par_bound_0 in Hlp. destruct qr as (_ & Hr & _).
  destruct (Z.ltb_spec (degree - r) 0); [lia|]. rewrite Z.add_0_r in Hlp. rewrite Hlp.
  f_equal.
Qed.

Lemma par_bound_locate j : 0 <= j < size ->
  exists i, (i < Z.to_nat degree)%nat /\ par_bound (Z.of_nat i) <= j < par_bound (Z.of_nat i + 1).
Proof.
  intros Hj.
  assert (H : forall n, (n <= Z.to_nat degree)%nat -> j < par_bound (Z.of_nat n) ->
    exists i, (i < n)%nat /\ par_bound (Z.of_nat i) <= j < par_bound (Z.of_nat i + 1)).
  { induction n as [|n IH]; intros Hn Hlt.
    - change (Z.of_nat 0) with 0 in Hlt. rewrite par_bound_0 in Hlt. lia.
    - destruct (Z_lt_dec j (par_bound (Z.of_nat n))) as [Hlt'|Hge].
      + destruct (IH ltac:(lia) Hlt') as (i & Hi & Hb). exists i. split; [lia|exact Hb].
      + exists n. split; [lia|]. replace (Z.of_nat n + 1) with (Z.of_nat (S n)) by lia. lia. }
  destruct (H (Z.to_nat degree)) as (i & Hi & Hb); [lia|rewrite Z2Nat.id, par_bound_d; lia|].
  exists i. auto.
Qed.

Lemma par_nth_inv i s e k :
  nth_error (map (fun k => (par_bound (Z.of_nat k), par_bound (Z.of_nat k + 1), Z.of_nat k))
          (seq 0 (Z.to_nat degree))) i = Some (s, e, k) ->
  (i < Z.to_nat degree)%nat /\ s = par_bound (Z.of_nat i) /\ e = par_bound (Z.of_nat i + 1) /\ k = Z.of_nat i.
Proof.
  intros H.
  assert (Hi : (i < Z.to_nat degree)%nat).
  { assert (Hl : nth_error (map (fun k => (par_bound (Z.of_nat k), par_bound (Z.of_nat k + 1), Z.of_nat k))
          (seq 0 (Z.to_nat degree))) i <> None) by congruence.
    apply nth_error_Some in Hl. rewrite map_length, seq_length in Hl. exact Hl. }
  rewrite nth_error_map, (nth_error_nth' _ 0%nat) in H by (rewrite seq_length; exact Hi).
  rewrite seq_nth in H by exact Hi. cbn in H. injection H as <- <- <-. auto.
Qed.

Lemma par_ranges_even : exists ranges, par_ranges size degree = Ok ranges /\ even_partition size degree ranges.
Proof.
  eexists. split; [apply par_ranges_spec|]. destruct qr as (Hqr & Hr & Hq).
  assert (Hin : forall s e k, In (s, e, k) (map (fun k => (par_bound (Z.of_nat k), par_bound (Z.of_nat k + 1), Z.of_nat k))
          (seq 0 (Z.to_nat degree))) -> exists i, (i < Z.to_nat degree)%nat /\ s = par_bound (Z.of_nat i) /\ e = par_bound (Z.of_nat i + 1)).
  { intros s e k H. apply In_nth_error in H. destruct H as [i Hi]. apply par_nth_inv in Hi.
    exists i. tauto. }
  split.
  - rewrite map_length, seq_length. lia.
  - intros i s e k H. apply par_nth_inv in H. tauto.
  - intros s e k H. apply Hin in H. destruct H as (i & Hi & -> & ->).
    pose proof (par_bound_mono 0 (Z.of_nat i) ltac:(lia)) as H1. rewrite par_bound_0 in H1.
    pose proof (par_bound_mono (Z.of_nat i) (Z.of_nat i + 1) ltac:(lia)).
    pose proof (par_bound_mono (Z.of_nat i + 1) degree ltac:(lia)) as H3. rewrite par_bound_d in H3. lia.
  - intros s e k H. apply par_nth_inv in H. destruct H as (_ & -> & _). apply par_bound_0.
  - intros i s e k s' e' k' H H'. apply par_nth_inv in H, H'.
    destruct H as (_ & _ & -> & _), H' as (_ & -> & _). f_equal. lia.
  - intros s e k H. apply par_nth_inv in H. destruct H as (_ & _ & -> & _).
    rewrite map_length, seq_length. rewrite <- par_bound_d. f_equal. lia.
  - intros j Hj. destruct (par_bound_locate j Hj) as (i & Hi & Hb).
    exists i. split.
    + exists (par_bound (Z.of_nat i)), (par_bound (Z.of_nat i + 1)), (Z.of_nat i). split; [|exact Hb].
      rewrite nth_error_map, (nth_error_nth' _ 0%nat) by (rewrite seq_length; exact Hi).
      rewrite seq_nth by exact Hi. reflexivity.
    + intros i' s e k H Hse. apply par_nth_inv in H. destruct H as (_ & -> & -> & _).
      destruct (lt_eq_lt_dec i i') as [[Hlt|Heq]|Hlt]; [|auto|].
      * pose proof (par_bound_mono (Z.of_nat i + 1) (Z.of_nat i') ltac:(lia)). lia.
      * pose proof (par_bound_mono (Z.of_nat i' + 1) (Z.of_nat i) ltac:(lia)). lia.
  - intros s e k s' e' k' H H'. apply Hin in H, H'. destruct H as (i & _ & -> & ->), H' as (i' & _ & -> & ->).
    rewrite !par_bound_S. destruct (degree - r <=? Z.of_nat i), (degree - r <=? Z.of_nat i'); lia.
Qed.
End Ranges.

Lemma par_ranges_panic size degree : 0 <= size -> degree <= 0 -> par_ranges size degree = Panic.
Proof.
  intros Hs Hd. unfold par_ranges, idiv, imod. destruct (Z.eqb_spec degree 0); [reflexivity|].
  cbn [obind]. destruct (Z.ltb_spec degree 0); [reflexivity|lia].
Qed.

(** ** Slices of the data cut by Par *)
Section Cut.
Context {X : Type}.

Definition cut (b : Z -> Z) (l : list X) (i : nat) : list X :=
  firstn (Z.to_nat (b (Z.of_nat i + 1) - b (Z.of_nat i))) (skipn (Z.to_nat (b (Z.of_nat i))) l).

Lemma cut_prefix b l n :
  b 0 = 0 -> (forall i j, i <= j -> b i <= b j) ->
  concat (map (cut b l) (seq 0 n)) = firstn (Z.to_nat (b (Z.of_nat n))) l.
Proof.
  intros H0 Hm. induction n as [|n IH].
  - change (Z.of_nat 0) with 0. rewrite H0. reflexivity.
  - rewrite seq_S, map_app, concat_app, IH. cbn [map concat plus]. rewrite app_nil_r. unfold cut.
    pose proof (Hm 0 (Z.of_nat n) ltac:(lia)). pose proof (Hm (Z.of_nat n) (Z.of_nat n + 1) ltac:(lia)).
    rewrite H0 in *.
    replace (Z.of_nat (S n)) with (Z.of_nat n + 1) by lia.
    replace (Z.to_nat (b (Z.of_nat n + 1)))
      with (Nat.add (Z.to_nat (b (Z.of_nat n))) (Z.to_nat (b (Z.of_nat n + 1) - b (Z.of_nat n)))) by lia.
    remember (Z.to_nat (b (Z.of_nat n))) as u. remember (Z.to_nat (b (Z.of_nat n + 1) - b (Z.of_nat n))) as v.
    clear. revert u. induction l as [|x l IH]; intros u.
    + rewrite !firstn_nil, skipn_nil, firstn_nil. reflexivity.
    + destruct u as [|u]; [reflexivity|]. cbn [firstn skipn plus app]. f_equal. apply IH.
Qed.
End Cut.

Lemma cut_length {X} b (l : list X) i :
  0 <= b (Z.of_nat i) -> b (Z.of_nat i) <= b (Z.of_nat i + 1) -> b (Z.of_nat i + 1) <= slen l ->
  length (cut b l i) = Z.to_nat (b (Z.of_nat i + 1) - b (Z.of_nat i)).
Proof.
  intros H0 H1 H2. unfold cut. rewrite firstn_length, skipn_length. unfold slen in H2. lia.
Qed.

Lemma omap_map {A B C} (f : B -> outcome C) (g : A -> B) l :
  omap f (map g l) = omap (fun x => f (g x)) l.
Proof. induction l as [|x l IH]; simpl; [reflexivity|]. rewrite IH. reflexivity. Qed.

Lemma omap_ext {A B} (f g : A -> outcome B) l :
  (forall x, In x l -> f x = g x) -> omap f l = omap g l.
Proof.
  induction l as [|x l IH]; intros H; simpl; [reflexivity|].
  rewrite (H x (or_introl eq_refl)), IH; [reflexivity|]. intros y Hy. apply H. right; exact Hy.
Qed.

(** The parts computed by goroutines launched by Par over a slice. *)
Lemma par_parts {X P} (data : list X) degree (g : list X -> outcome P) :
  0 < degree ->
  exists chunks, concat chunks = data /\ Z.of_nat (length chunks) = degree /\
    obind (par_ranges (slen data) degree)
      (fun ranges => omap (fun '(start, e, _) => let* part := sslice data start e in g part) ranges)
    = omap g chunks.
Proof.
  intros Hd. assert (Hs : 0 <= slen data) by (unfold slen; lia).
  set (b := par_bound (slen data) degree).
  exists (map (cut b data) (seq 0 (Z.to_nat degree))). split; [|split].
  - rewrite cut_prefix.
    + rewrite Z2Nat.id by lia. unfold b. rewrite par_bound_d by assumption.
      unfold slen. rewrite Nat2Z.id. apply firstn_all.
    + apply par_bound_0; assumption.
    + apply par_bound_mono; assumption.
  - rewrite map_length, seq_length. lia.
  - rewrite par_ranges_spec by assumption. cbn [obind]. rewrite !omap_map.
    apply omap_ext. intros i Hi. apply in_seq in Hi. fold b.
    pose proof (par_bound_mono _ _ Hs Hd 0 (Z.of_nat i) ltac:(lia)) as H1.
    rewrite par_bound_0 in H1 by assumption.
    pose proof (par_bound_mono _ _ Hs Hd (Z.of_nat i) (Z.of_nat i + 1) ltac:(lia)) as H2.
    pose proof (par_bound_mono _ _ Hs Hd (Z.of_nat i + 1) degree ltac:(lia)) as H3.
    rewrite par_bound_d in H3 by assumption.
    fold b in H1, H2, H3. rewrite sslice_ok by lia. reflexivity.
Qed.

Lemma firstn_combine {A B} n : forall (l1 : list A) (l2 : list B),
  firstn n (combine l1 l2) = combine (firstn n l1) (firstn n l2).
Proof. induction n as [|n IH]; intros [|a l1] [|b l2]; simpl; f_equal; auto. Qed.

Lemma skipn_combine {A B} n : forall (l1 : list A) (l2 : list B),
  skipn n (combine l1 l2) = combine (skipn n l1) (skipn n l2).
Proof.
  induction n as [|n IH]; intros [|a l1] [|b l2]; simpl; auto.
  destruct (skipn n l1); reflexivity.
Qed.

(** The same when a list of labels is cut along with the data. *)
Lemma par_parts2 {X P} (data : list X) (labels : list Z) degree (g : list X -> list Z -> outcome P) :
  0 < degree -> length labels = length data ->
  exists chunks : list (list X * list Z),
    concat (map (fun p => combine (snd p) (fst p)) chunks) = combine labels data /\
    concat (map fst chunks) = data /\
    Forall (fun p => length (fst p) = length (snd p)) chunks /\
    Z.of_nat (length chunks) = degree /\
    obind (par_ranges (slen data) degree)
      (fun ranges => omap (fun '(start, e, _) =>
          let* part := sslice data start e in
          let* plabels := sslice labels start e in g part plabels) ranges)
    = omap (fun p => g (fst p) (snd p)) chunks.
Proof.
  intros Hd Hl. assert (Hs : 0 <= slen data) by (unfold slen; lia).
  set (b := par_bound (slen data) degree).
  exists (map (fun i => (cut b data i, cut b labels i)) (seq 0 (Z.to_nat degree))).
  assert (Hb0 : b 0 = 0) by (apply par_bound_0; assumption).
  assert (Hbm : forall i j, i <= j -> b i <= b j) by (apply par_bound_mono; assumption).
  assert (Hbd : b degree = slen data) by (apply par_bound_d; assumption).
  split; [|split; [|split; [|split]]].
  - rewrite map_map. cbn [fst snd].
    rewrite (map_ext _ (cut b (combine labels data))).
    + rewrite cut_prefix by assumption. rewrite Z2Nat.id, Hbd by lia.
      unfold slen. rewrite Nat2Z.id, <- Hl.
      replace (length labels) with (length (combine labels data)) by (rewrite combine_length; lia).
      apply firstn_all.
    + intros i. unfold cut. rewrite skipn_combine, firstn_combine. reflexivity.
  - rewrite map_map. cbn [fst]. rewrite cut_prefix by assumption. rewrite Z2Nat.id, Hbd by lia.
    unfold slen. rewrite Nat2Z.id. apply firstn_all.
  - apply Forall_forall. intros p Hp. apply in_map_iff in Hp. destruct Hp as (i & <- & Hi).
    cbn [fst snd]. unfold cut. rewrite !firstn_length, !skipn_length, Hl. reflexivity.
  - rewrite map_length, seq_length. lia.
  - rewrite par_ranges_spec by assumption. cbn [obind]. rewrite !omap_map.
    apply omap_ext. intros i Hi. apply in_seq in Hi. fold b. cbn [fst snd].
    pose proof (Hbm 0 (Z.of_nat i) ltac:(lia)) as H1. rewrite Hb0 in H1.
    pose proof (Hbm (Z.of_nat i) (Z.of_nat i + 1) ltac:(lia)) as H2.
    pose proof (Hbm (Z.of_nat i + 1) degree ltac:(lia)) as H3. rewrite Hbd in H3.
    rewrite sslice_ok by lia. cbn [obind].
    rewrite sslice_ok by (unfold slen in *; rewrite ?Hl; lia). reflexivity.
Qed.

(** ** Schedules *)
Lemma interleaving_perm {A} (gs : list (list A)) tr : interleaving gs tr -> Permutation (concat gs) tr.
Proof.
  induction 1 as [gs H|gs1 a g gs2 tr H IH].
  - replace (concat gs) with (@nil A); [constructor|].
    induction gs as [|g gs IHg]; simpl; [reflexivity|].
    rewrite (H g (or_introl eq_refl)). simpl. apply IHg. intros g' Hg'. apply H. right; exact Hg'.
  - rewrite !concat_app in *. cbn [concat app] in *. rewrite <- Permutation_middle.
    constructor. exact IH.
Qed.

(** Running the goroutines one after the other is one of the schedules. *)
Lemma interleaving_sequential {A} (gs : list (list A)) : interleaving gs (concat gs).
Proof.
  assert (H : forall (done gs : list (list A)), (forall g, In g done -> g = []) ->
                interleaving (done ++ gs) (concat gs)).
  { intros done gs0. revert done. induction gs0 as [|g gs0 IH]; intros done Hdone.
    - simpl. rewrite app_nil_r. constructor. exact Hdone.
    - simpl. induction g as [|a g IHg]; simpl.
      + specialize (IH (done ++ [[]])). rewrite <- app_assoc in IH. apply IH.
        intros g' Hg'. apply in_app_or in Hg'. destruct Hg' as [Hg'|[<-|[]]]; auto.
      + apply il_step. exact IHg. }
  apply (H [] gs). intros g [].
Qed.

(** One write per goroutine, in its own entry: the entries after [wg.Wait()] are the parts of the
    ranks whatever the schedule. *)
Lemma par_parts_any_schedule {P} (parts : list P) (d : P) tr :
  interleaving (map (fun ip => [ip]) (combine (seq 0 (length parts)) parts)) tr ->
  fold_left (fun m ip => upd m (fst ip) (snd ip)) tr (repeat d (length parts)) = parts.
Proof.
  intros Hi. apply interleaving_perm in Hi.
  assert (Hc : concat (map (fun ip => [ip]) (combine (seq 0 (length parts)) parts))
               = combine (seq 0 (length parts)) parts).
  { generalize (combine (seq 0 (length parts)) parts). clear. induction l; simpl; f_equal; auto. }
  rewrite Hc in Hi. clear Hc.
  assert (Hval : forall i v, In (i, v) tr -> nth_error parts i = Some v).
  { intros i v H. apply (Permutation_in _ (Permutation_sym Hi)) in H.
    apply (In_nth_error) in H. destruct H as [n Hn].
    assert (Hlt : (n < length parts)%nat).
    { assert (H : nth_error (combine (seq 0 (length parts)) parts) n <> None) by congruence.
      apply nth_error_Some in H. rewrite combine_length, seq_length in H. lia. }
    destruct (nth_error parts n) as [w|] eqn:Hw; [|apply nth_error_None in Hw; lia].
    assert (Hc : nth_error (combine (seq 0 (length parts)) parts) n = Some (n, w)).
    { rewrite (nth_error_nth' _ (0%nat, d)) by (rewrite combine_length, seq_length; lia).
      rewrite combine_nth by apply seq_length. rewrite seq_nth by assumption.
      rewrite (nth_error_nth _ _ d Hw). reflexivity. }
    rewrite Hc in Hn. injection Hn as <- <-. exact Hw. }
  assert (Hall : forall i, (i < length parts)%nat -> exists v, In (i, v) tr).
  { intros i Hlt. destruct (nth_error parts i) as [w|] eqn:Hw; [|apply nth_error_None in Hw; lia].
    exists w. apply (Permutation_in _ Hi). apply (nth_error_In _ i).
    rewrite (nth_error_nth' _ (0%nat, d)) by (rewrite combine_length, seq_length; lia).
    rewrite combine_nth by apply seq_length. rewrite seq_nth by assumption.
    rewrite (nth_error_nth _ _ d Hw). reflexivity. }
  clear Hi. assert (Hlen : length (repeat d (length parts)) = length parts) by apply repeat_length.
  revert Hlen. generalize (repeat d (length parts)) as m.
  assert (Hgen : forall m, length m = length parts ->
    (forall i, (i < length parts)%nat -> (exists v, In (i, v) tr) \/ nth_error m i = nth_error parts i) ->
    fold_left (fun m ip => upd m (fst ip) (snd ip)) tr m = parts).
  { clear Hall. induction tr as [|[i v] tr IH]; intros m Hm Hall; cbn [fold_left fst snd].
    - apply list_ext; [exact Hm|]. intros i Hi. rewrite Hm in Hi.
      destruct (Hall i Hi) as [[v []]|H]; exact H.
    - apply IH.
      + intros j w Hj. apply Hval. right; exact Hj.
      + rewrite upd_length. exact Hm.
      + intros j Hj. rewrite nth_error_upd. rewrite Hm.
        destruct (Nat.eqb_spec j i) as [->|Hne]; cbn [andb].
        * destruct (Nat.ltb_spec i (length parts)); [|lia]. right.
          rewrite (Hval i v (or_introl eq_refl)). reflexivity.
        * destruct (Hall j Hj) as [[w [Hw|Hw]]|H].
          -- injection Hw as -> ->. contradiction.
          -- left. exists w. exact Hw.
          -- right. exact H. }
  intros m Hm. apply Hgen; [exact Hm|]. intros i Hi. left. apply Hall. exact Hi.
Qed.

(** ** ParMapLabel *)
Section ParMap.
Context {E F : Type} (N : Num F) (Sp : Space E F).

Definition agrees (L : list Z) (D : list F) (w : label_write) : Prop :=
  match w with WLabel i v => nth_error L i = Some v | WDist i v => nth_error D i = Some v end.

Lemma write_agree (L : list Z) (D : list F) tr : forall m,
  length (fst m) = length L -> length (snd m) = length D ->
  Forall (agrees L D) tr ->
  (forall i v, nth_error L i = Some v -> In (WLabel i v) tr \/ nth_error (fst m) i = Some v) ->
  (forall i v, nth_error D i = Some v -> In (WDist i v) tr \/ nth_error (snd m) i = Some v) ->
  fold_left apply_label_write tr m = (L, D).
Proof.
  induction tr as [|w tr IH]; intros [l d] Hl Hd HF HL HD; cbn [fold_left fst snd] in *.
  - f_equal; (apply list_ext; [assumption|]); intros i Hi.
    + rewrite Hl in Hi. destruct (nth_error L i) as [v|] eqn:Hv; [|apply nth_error_None in Hv; lia].
      destruct (HL i v Hv) as [[]|H]; exact H.
    + rewrite Hd in Hi. destruct (nth_error D i) as [v|] eqn:Hv; [|apply nth_error_None in Hv; lia].
      destruct (HD i v Hv) as [[]|H]; exact H.
  - inversion HF as [|? ? Hw HF']; subst.
    destruct w as [i v|i v]; cbn [apply_label_write agrees fst snd] in *.
    + apply IH; cbn [fst snd]; [rewrite upd_length; assumption|assumption|assumption| |].
      * intros j u Hj. rewrite nth_error_upd, Hl.
        destruct (Nat.eqb_spec j i) as [->|Hne]; cbn [andb].
        -- right. assert (i < length L)%nat by (apply nth_error_Some; congruence).
           destruct (Nat.ltb_spec i (length L)); [congruence|lia].
        -- destruct (HL j u Hj) as [[[= <- <-]|H]|H]; auto. contradiction.
      * intros j u Hj. destruct (HD j u Hj) as [[H|H]|H]; auto. discriminate.
    + apply IH; cbn [fst snd]; [assumption|rewrite upd_length; assumption|assumption| |].
      * intros j u Hj. destruct (HL j u Hj) as [[H|H]|H]; auto. discriminate.
      * intros j u Hj. rewrite nth_error_upd, Hd.
        destruct (Nat.eqb_spec j i) as [->|Hne]; cbn [andb].
        -- right. assert (i < length D)%nat by (apply nth_error_Some; congruence).
           destruct (Nat.ltb_spec i (length D)); [congruence|lia].
        -- destruct (HD j u Hj) as [[[= <- <-]|H]|H]; auto. contradiction.
Qed.

Lemma indexed_in {A B} (f : nat -> A -> B) l : forall k w,
  In w (indexed f k l) <-> exists i a, nth_error l i = Some a /\ w = f (k + i)%nat a.
Proof.
  induction l as [|x l IH]; intros k w; cbn [indexed In].
  - split; [intros []|]. intros (i & a & H & _). destruct i; discriminate.
  - rewrite IH. split.
    + intros [<-|(i & a & H & ->)].
      * exists 0%nat, x. rewrite Nat.add_0_r. auto.
      * exists (S i), a. split; [exact H|]. f_equal. lia.
    + intros ([|i] & a & H & ->).
      * left. injection H as ->. rewrite Nat.add_0_r. reflexivity.
      * right. exists i, a. split; [exact H|]. f_equal. lia.
Qed.

Lemma nth_error_cut {X} b (l : list X) k i x :
  nth_error (cut b l k) i = Some x ->
  nth_error l (Z.to_nat (b (Z.of_nat k)) + i) = Some x /\
  lt i (Z.to_nat (b (Z.of_nat k + 1) - b (Z.of_nat k))).
Proof.
  unfold cut. intros H.
  assert (Hi : lt i (Z.to_nat (b (Z.of_nat k + 1) - b (Z.of_nat k)))).
  { assert (H' : nth_error (firstn (Z.to_nat (b (Z.of_nat k + 1) - b (Z.of_nat k)))
                  (skipn (Z.to_nat (b (Z.of_nat k))) l)) i <> None) by congruence.
    apply nth_error_Some in H'. rewrite firstn_length in H'. lia. }
  split; [|exact Hi].
  rewrite <- H. clear H. remember (Z.to_nat (b (Z.of_nat k))) as u. clear Hequ.
  remember (Z.to_nat _) as v in *. clear Heqv. revert i v Hi u.
  assert (Hs : forall u i, nth_error l (u + i) = nth_error (skipn u l) i).
  { induction l as [|y l IH]; intros u i.
    - rewrite skipn_nil. destruct (u + i)%nat, i; reflexivity.
    - destruct u; [reflexivity|]. cbn. apply IH. }
  intros i v Hi u. rewrite Hs. generalize (skipn u l). clear Hs l. intros l.
  revert i v Hi. induction l as [|y l IH]; intros i v Hi.
  - rewrite firstn_nil. reflexivity.
  - destruct v; [lia|]. destruct i; [reflexivity|]. cbn. apply IH. lia.
Qed.

Lemma nth_error_cut_conv {X} b (l : list X) k j x :
  0 <= b (Z.of_nat k) -> b (Z.of_nat k) <= Z.of_nat j < b (Z.of_nat k + 1) ->
  nth_error l j = Some x ->
  nth_error (cut b l k) (j - Z.to_nat (b (Z.of_nat k))) = Some x.
Proof.
  intros H0 Hj Hx. unfold cut.
  assert (Hi : lt (j - Z.to_nat (b (Z.of_nat k))) (Z.to_nat (b (Z.of_nat k + 1) - b (Z.of_nat k)))) by lia.
  assert (Hj' : j = (Z.to_nat (b (Z.of_nat k)) + (j - Z.to_nat (b (Z.of_nat k))))%nat) by lia.
  rewrite Hj' in Hx. remember (j - Z.to_nat (b (Z.of_nat k)))%nat as i. clear Heqi Hj'.
  remember (Z.to_nat (b (Z.of_nat k))) as u. remember (Z.to_nat (b (Z.of_nat k + 1) - b (Z.of_nat k))) as v.
  clear -Hx Hi. rewrite <- Hx. clear Hx.
  assert (Hs : forall u i, nth_error l (u + i) = nth_error (skipn u l) i).
  { induction l as [|y l IH]; intros u' i'.
    - rewrite skipn_nil. destruct (u' + i')%nat, i'; reflexivity.
    - destruct u'; [reflexivity|]. cbn. apply IH. }
  rewrite Hs. generalize (skipn u l). clear Hs l. intros l.
  revert i v Hi. induction l as [|y l IH]; intros i v Hi.
  - rewrite firstn_nil. reflexivity.
  - destruct v; [lia|]. destruct i; [reflexivity|]. cbn. apply IH. lia.
Qed.

Definition part_writes (c data : list E) (b : Z -> Z) (k : nat) : list label_write :=
  let '(labels, dists) := map_label N Sp c (cut b data k) in
  indexed WLabel (Z.to_nat (b (Z.of_nat k))) labels ++ indexed WDist (Z.to_nat (b (Z.of_nat k))) dists.

Lemma par_map_label_processes (c data : list E) degree :
  0 < degree ->
  obind (par_ranges (slen data) degree) (fun ranges => omap (map_label_process N Sp c data) ranges)
  = Ok (map (part_writes c data (par_bound (slen data) degree)) (seq 0 (Z.to_nat degree))).
Proof.
  intros Hd. assert (Hs : 0 <= slen data) by (unfold slen; lia).
  rewrite par_ranges_spec by assumption. cbn [obind]. rewrite omap_map.
  apply omap_ok. intros i Hi. apply in_seq in Hi. unfold map_label_process, part_writes.
  pose proof (par_bound_mono _ _ Hs Hd 0 (Z.of_nat i) ltac:(lia)) as H1.
  rewrite par_bound_0 in H1 by assumption.
  pose proof (par_bound_mono _ _ Hs Hd (Z.of_nat i) (Z.of_nat i + 1) ltac:(lia)) as H2.
  pose proof (par_bound_mono _ _ Hs Hd (Z.of_nat i + 1) degree ltac:(lia)) as H3.
  rewrite par_bound_d in H3 by assumption.
  rewrite sslice_ok by lia. reflexivity.
Qed.

Lemma par_map_label_schedule (c data : list E) degree tr :
  0 < degree ->
  interleaving (map (part_writes c data (par_bound (slen data) degree)) (seq 0 (Z.to_nat degree))) tr ->
  fold_left apply_label_write tr (repeat 0 (length data), repeat (nof N 0) (length data))
  = map_label N Sp c data.
Proof.
  intros Hd Hi. assert (Hs : 0 <= slen data) by (unfold slen; lia).
  apply interleaving_perm in Hi.
  set (b := par_bound (slen data) degree) in *.
  assert (Hin : forall w, In w tr <->
    exists k, (k < Z.to_nat degree)%nat /\ In w (part_writes c data b k)).
  { intros w. split.
    - intros H. apply (Permutation_in _ (Permutation_sym Hi)) in H. apply in_concat in H.
      destruct H as (g & Hg & Hw). apply in_map_iff in Hg. destruct Hg as (k & <- & Hk).
      apply in_seq in Hk. exists k. split; [lia|exact Hw].
    - intros (k & Hk & Hw). apply (Permutation_in _ Hi). apply in_concat.
      exists (part_writes c data b k). split; [|exact Hw]. apply in_map_iff. exists k.
      split; [reflexivity|]. apply in_seq. lia. }
  unfold map_label. apply write_agree; cbn [fst snd].
  - rewrite repeat_length, map_length. reflexivity.
  - rewrite repeat_length, map_length. reflexivity.
  - apply Forall_forall. intros w Hw. apply Hin in Hw. destruct Hw as (k & Hk & Hw).
    unfold part_writes, map_label in Hw. apply in_app_or in Hw. destruct Hw as [Hw|Hw];
      apply indexed_in in Hw; destruct Hw as (i & a & Hia & ->); cbn [agrees];
      rewrite nth_error_map in Hia |- *;
      destruct (nth_error (cut b data k) i) as [x|] eqn:Hx; try discriminate;
      injection Hia as <-; apply nth_error_cut in Hx; destruct Hx as [-> _]; reflexivity.
  - intros j v Hj. left. apply Hin.
    assert (Hlt : (j < length data)%nat).
    { assert (H : nth_error (map (fun x : E => fst (nearest N Sp c x)) data) j <> None) by congruence.
      apply nth_error_Some in H. rewrite map_length in H. exact H. }
    destruct (par_bound_locate _ _ Hs Hd (Z.of_nat j)) as (k & Hk & Hb); [unfold slen; lia|].
    exists k. split; [exact Hk|]. unfold part_writes, map_label. apply in_or_app. left.
    apply indexed_in. fold b in Hb.
    assert (H0 : 0 <= b (Z.of_nat k)).
    { unfold b. rewrite <- (par_bound_0 _ _ Hs Hd). apply par_bound_mono; [assumption..|lia]. }
    rewrite nth_error_map in Hj. destruct (nth_error data j) as [x|] eqn:Hx; [|discriminate].
    injection Hj as <-.
    exists (j - Z.to_nat (b (Z.of_nat k)))%nat, (fst (nearest N Sp c x)). split.
    + rewrite nth_error_map, (nth_error_cut_conv b data k j x H0 Hb Hx). reflexivity.
    + f_equal. lia.
  - intros j v Hj. left. apply Hin.
    assert (Hlt : (j < length data)%nat).
    { assert (H : nth_error (map (fun x : E => snd (nearest N Sp c x)) data) j <> None) by congruence.
      apply nth_error_Some in H. rewrite map_length in H. exact H. }
    destruct (par_bound_locate _ _ Hs Hd (Z.of_nat j)) as (k & Hk & Hb); [unfold slen; lia|].
    exists k. split; [exact Hk|]. unfold part_writes, map_label. apply in_or_app. right.
    apply indexed_in. fold b in Hb.
    assert (H0 : 0 <= b (Z.of_nat k)).
    { unfold b. rewrite <- (par_bound_0 _ _ Hs Hd). apply par_bound_mono; [assumption..|lia]. }
    rewrite nth_error_map in Hj. destruct (nth_error data j) as [x|] eqn:Hx; [|discriminate].
    injection Hj as <-.
    exists (j - Z.to_nat (b (Z.of_nat k)))%nat, (snd (nearest N Sp c x)). split.
    + rewrite nth_error_map, (nth_error_cut_conv b data k j x H0 Hb Hx). reflexivity.
    + f_equal. lia.
Qed.

Lemma par_map_label_run_eq (c data : list E) degree :
  0 < degree ->
  (exists res, par_map_label_run N Sp c data degree res) /\
  forall res, par_map_label_run N Sp c data degree res -> res = map_label N Sp c data.
Proof.
  intros Hd. pose proof (par_map_label_processes c data degree Hd) as Hp. split.
  - eexists. unfold par_map_label_run.
    destruct (par_ranges (slen data) degree) as [ranges|] eqn:Hr; [|discriminate].
    cbn [obind] in Hp.
    eexists ranges, _, _. split; [reflexivity|]. split; [exact Hp|].
    split; [apply interleaving_sequential|reflexivity].
  - intros res (ranges & gs & tr & Hr & Hg & Hi & ->). rewrite Hr in Hp. cbn [obind] in Hp.
    rewrite Hg in Hp. injection Hp as ->. apply par_map_label_schedule with (degree := degree); assumption.
Qed.

Lemma par_map_label_eq (c data : list E) degree :
  0 < degree -> par_map_label N Sp c data degree = Ok (map_label N Sp c data).
Proof.
  intros Hd. pose proof (par_map_label_processes c data degree Hd) as Hp.
  unfold par_map_label. destruct (par_ranges (slen data) degree) as [ranges|]; [|discriminate].
  cbn [obind] in *. rewrite Hp. cbn [obind]. f_equal.
  apply par_map_label_schedule with (degree := degree); [exact Hd|apply interleaving_sequential].
Qed.

End ParMap.
