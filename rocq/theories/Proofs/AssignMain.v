(** Statements of C01-C04 in the form used by Props. *)
From Coq Require Import List ZArith Lia Bool Reals.
From Verif Require Import Base.Go Base.Num Model.Clustering Model.Par Spec.NearestSpec Spec.ParSpec
  Proofs.GoLemmas Proofs.NumLaws Proofs.NearestProofs Proofs.ReduceProofs Proofs.ParProofs.
Import ListNotations.

Lemma assign_float64 : forall E (Sp : Space E b64) (c : list E) (x : E),
  c <> [] ->
  (forall y, In y c -> not_nan64 (sdist Sp x y) /\ b64_leb (b64_of_Z 0) (sdist Sp x y) = true) ->
  exists l cl,
    assign B64Num Sp c x = Ok (Some cl, Z.of_nat l, sdist Sp x cl) /\ first_nearest64 Sp c x l cl.
Proof.
  intros E Sp c x Hc Hu. exact (assign_best B64Num Sp not_nan64 B64NumOrd c x Hc Hu).
Qed.

Lemma assign_exact : forall E (Sp : Space E R) (c : list E) (x : E),
  c <> [] -> (forall y, In y c -> (0 <= sdist Sp x y)%R) ->
  exists l cl,
    assign RNum Sp c x = Ok (Some cl, Z.of_nat l, sdist Sp x cl) /\ first_nearest Sp c x l cl.
Proof.
  intros E Sp c x Hc Hu.
  destruct (assign_best RNum Sp (fun _ => True) RNumOrd c x Hc) as (l & cl & H & H1 & H2 & H3).
  - intros y Hy. split; [exact I|]. apply Rleb_true. apply Hu. exact Hy.
  - exists l, cl. split; [exact H|]. split; [exact H1|]. split.
    + intros j cj Hj. apply Rleb_true. exact (H2 j cj Hj).
    + intros j cj Hj Hlt. apply Rltb_true. exact (H3 j cj Hj Hlt).
Qed.

Lemma assign_total : forall E (Sp : Space E b64) (c : list E) (x : E),
  (c = [] -> assign B64Num Sp c x = Ok (None, (-1)%Z, b64_of_Z (-1))) /\
  (c <> [] -> exists l cl,
     nth_error c l = Some cl /\ assign B64Num Sp c x = Ok (Some cl, Z.of_nat l, sdist Sp x cl)).
Proof.
  intros E Sp c x. split.
  - intros ->. reflexivity.
  - intros Hc. destruct (assign_valid B64Num Sp not_nan64 B64NumOrd c x Hc) as (l & cl & H & Hn). eauto.
Qed.

Lemma nearest_assign {E F} (N : Num F) (Sp : Space E F) good (HN : NumOrd N good) c x :
  exists cl, assign N Sp c x = Ok (cl, fst (nearest N Sp c x), snd (nearest N Sp c x)).
Proof.
  destruct c as [|c0 c].
  - exists None. reflexivity.
  - destruct (nearest_valid N Sp (c0 :: c) x (leb_m1_0 N good HN)) as (l & cl & Hn & Hl); [discriminate|].
    exists (Some cl). rewrite (assign_nearest N Sp _ x l cl Hn Hl), Hn. reflexivity.
Qed.

Lemma map_label_assign : forall E F (N : Num F) good, NumOrd N good -> forall (Sp : Space E F) (c xs : list E),
  length (fst (map_label N Sp c xs)) = length xs /\
  length (snd (map_label N Sp c xs)) = length xs /\
  forall i x, nth_error xs i = Some x ->
    exists cl l d, assign N Sp c x = Ok (cl, l, d) /\
      nth_error (fst (map_label N Sp c xs)) i = Some l /\
      nth_error (snd (map_label N Sp c xs)) i = Some d.
Proof.
  intros E F N good HN Sp c xs. unfold map_label. cbn [fst snd]. rewrite !map_length.
  split; [reflexivity|split; [reflexivity|]]. intros i x Hx.
  destruct (nearest_assign N Sp good HN c x) as [cl Hcl].
  exists cl, (fst (nearest N Sp c x)), (snd (nearest N Sp c x)). split; [exact Hcl|].
  rewrite !nth_error_map, Hx. auto.
Qed.

Lemma par_map_label_main : forall E F (N : Num F) (Sp : Space E F) (c data : list E) (degree : Z),
  (0 < degree)%Z ->
  (exists res, par_map_label_run N Sp c data degree res) /\
  (forall res, par_map_label_run N Sp c data degree res -> res = map_label N Sp c data).
Proof. intros E F N Sp c data degree. apply par_map_label_run_eq. Qed.

(** No two goroutines of ParMapLabel write the same cell. *)
Definition writes_cell {F} (w : @label_write F) : bool * nat :=
  match w with WLabel i _ => (true, i) | WDist i _ => (false, i) end.

Lemma par_map_label_no_race : forall E F (N : Num F) (Sp : Space E F) (c data : list E) degree ranges gs,
  par_ranges (slen data) degree = Ok ranges ->
  omap (map_label_process N Sp c data) ranges = Ok gs ->
  forall i j gi gj wi wj, i <> j ->
    nth_error gs i = Some gi -> nth_error gs j = Some gj -> In wi gi -> In wj gj ->
    writes_cell wi <> writes_cell wj.
Proof.
  intros E F N Sp c data degree ranges gs Hr Hg.
  assert (Hs : (0 <= slen data)%Z) by (unfold slen; lia).
  destruct (Z_le_dec degree 0) as [Hneg|Hpos].
  { rewrite par_ranges_panic in Hr by assumption. discriminate. }
  assert (Hd : (0 < degree)%Z) by lia.
  pose proof (par_map_label_processes N Sp c data degree Hd) as Hp. rewrite Hr in Hp. cbn [obind] in Hp.
  rewrite Hg in Hp. injection Hp as ->.
  set (b := par_bound (slen data) degree).
  assert (Hcell : forall k g w, nth_error (map (part_writes N Sp c data b) (seq 0 (Z.to_nat degree))) k = Some g ->
    In w g -> (b (Z.of_nat k) <= Z.of_nat (snd (writes_cell w)) < b (Z.of_nat k + 1))%Z).
  { intros k g w Hk Hw.
    assert (Hlt : k < Z.to_nat degree).
    { assert (H : nth_error (map (part_writes N Sp c data b) (seq 0 (Z.to_nat degree))) k <> None) by congruence.
      apply nth_error_Some in H. rewrite map_length, seq_length in H. exact H. }
    rewrite nth_error_map, (nth_error_nth' _ 0) in Hk by (rewrite seq_length; exact Hlt).
    rewrite seq_nth in Hk by exact Hlt. injection Hk as <-.
    assert (H0 : (0 <= b (Z.of_nat k))%Z).
    { unfold b. rewrite <- (par_bound_0 _ _ Hs Hd). apply par_bound_mono; [assumption..|lia]. }
    unfold part_writes, map_label in Hw. apply in_app_or in Hw.
    destruct Hw as [Hw|Hw]; apply indexed_in in Hw; destruct Hw as (i & a & Hia & ->); cbn [writes_cell snd];
      rewrite nth_error_map in Hia; cbn [plus] in Hia;
      destruct (nth_error (cut b data k) i) as [x|] eqn:Hx; try discriminate;
      apply nth_error_cut in Hx; destruct Hx as [_ Hi]; lia. }
  intros i j gi gj wi wj Hij Hi Hj Hwi Hwj Heq.
  pose proof (Hcell i gi wi Hi Hwi) as H1. pose proof (Hcell j gj wj Hj Hwj) as H2. rewrite Heq in H1.
  destruct (Nat.lt_total i j) as [Hlt|[Hlt|Hlt]]; [|contradiction|].
  - pose proof (par_bound_mono _ _ Hs Hd (Z.of_nat i + 1) (Z.of_nat j) ltac:(lia)) as Hmono. fold b in Hmono. lia.
  - pose proof (par_bound_mono _ _ Hs Hd (Z.of_nat j + 1) (Z.of_nat i) ltac:(lia)) as Hmono. fold b in Hmono. lia.
Qed.

Lemma par_partition : forall size degree, (0 <= size)%Z ->
  ((0 < degree)%Z -> exists ranges, par_ranges size degree = Ok ranges /\ even_partition size degree ranges) /\
  ((degree <= 0)%Z -> par_ranges size degree = Panic).
Proof.
  intros size degree Hs. split; intros Hd.
  - apply par_ranges_even; assumption.
  - apply par_ranges_panic; assumption.
Qed.
