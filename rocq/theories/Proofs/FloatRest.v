(** Averages of equal float64 vectors of few significant bits are exact, so that centroids placed on
    their elements stay there (C119). *)
From Coq Require Import List ZArith Lia Bool Reals Lra.
From Flocq Require Import Core IEEE754.BinarySingleNaN.
From Verif Require Import Base.Go Base.Num Model.Clustering Model.Par Model.Euclid Model.Kmeans
  Spec.ClusterSpec Spec.KmeansSpec Spec.RestSpec Spec.NearestSpec
  Proofs.GoLemmas Proofs.NumLaws Proofs.NearestProofs Proofs.AssignMain Proofs.EuclidFloat Proofs.ConfProofs Proofs.FloatMean
  Proofs.KmeansProofs Proofs.Represent Proofs.FloatKmeans Proofs.ParReduceProofs.
Import ListNotations.
Local Open Scope R_scope.

#[local] Existing Instance prec64_gt_0.
#[local] Existing Instance prec64_lt_emax.
#[local] Existing Instance exp64.
#[local] Existing Instance rnd64.

Lemma rnd_grid (v : Z) e : (-1074 <= e)%Z -> (Z.abs v < 2 ^ 53)%Z -> rnd (IZR v * bpow radix2 e) = IZR v * bpow radix2 e.
Proof. intros He Hv. apply round_generic; [apply rnd64|]. rewrite Rmult_comm. apply box_format; assumption. Qed.

Lemma grid_small (v : Z) e : (e <= 970)%Z -> (Z.abs v < 2 ^ 53)%Z -> Rabs (IZR v * bpow radix2 e) < bpow radix2 emax64.
Proof.
  intros He Hv. rewrite Rabs_mult, <- abs_IZR, (Rabs_right (bpow radix2 e)) by (apply Rle_ge, bpow_ge_0). rewrite Rmult_comm.
  apply box_no_overflow; lia.
Qed.

Lemma mul_grid (x : b64) (z e w : Z) : (-1074 <= e <= 970)%Z -> (0 < w < 2 ^ 53)%Z -> (Z.abs (z * w) < 2 ^ 53)%Z ->
  is_finite x = true -> B2R x = IZR z * bpow radix2 e ->
  is_finite (b64_mul x (b64_of_Z w)) = true /\ B2R (b64_mul x (b64_of_Z w)) = IZR (z * w) * bpow radix2 e.
Proof.
  intros He Hw Hz Hf Hx. destruct (b64_of_Z_exact w ltac:(lia)) as [Hw1 Hw2].
  assert (Hr : B2R x * IZR w = IZR (z * w) * bpow radix2 e) by (rewrite Hx, mult_IZR; ring).
  destruct (mul_cases x (b64_of_Z w) Hf Hw2) as [(_ & H2 & H3 & _)|[H _]]; rewrite Hw1, Hr, rnd_grid in * by lia.
  - auto.
  - exfalso. pose proof (grid_small (z * w) e ltac:(lia) Hz). lra.
Qed.

Lemma add_grid (x y : b64) (u v e : Z) : (-1074 <= e <= 970)%Z -> (Z.abs (u + v) < 2 ^ 53)%Z ->
  is_finite x = true -> is_finite y = true -> B2R x = IZR u * bpow radix2 e -> B2R y = IZR v * bpow radix2 e ->
  is_finite (b64_add x y) = true /\ B2R (b64_add x y) = IZR (u + v) * bpow radix2 e.
Proof.
  intros He Hs Hx Hy Vx Vy. pose proof (Bplus_correct prec64 emax64 _ _ mode_NE x y Hx Hy) as H. fold (b64_add x y) in H.
  assert (Hr : B2R x + B2R y = IZR (u + v) * bpow radix2 e) by (rewrite Vx, Vy, plus_IZR; ring).
  rewrite Hr, rnd_grid in H by lia. rewrite Rlt_bool_true in H by (apply grid_small; lia). destruct H as (H1 & H2 & _). auto.
Qed.

Lemma div_grid (x : b64) (z e w : Z) : (-1074 <= e <= 970)%Z -> (0 < w < 2 ^ 53)%Z -> (Z.abs z < 2 ^ 53)%Z ->
  is_finite x = true -> B2R x = IZR (z * w) * bpow radix2 e ->
  is_finite (b64_div x (b64_of_Z w)) = true /\ B2R (b64_div x (b64_of_Z w)) = IZR z * bpow radix2 e.
Proof.
  intros He Hw Hz Hf Hx. destruct (b64_of_Z_exact w ltac:(lia)) as [Hw1 Hw2].
  assert (Hw0 : 0 < IZR w) by (apply IZR_lt; lia).
  pose proof (Bdiv_correct prec64 emax64 _ _ mode_NE x (b64_of_Z w)) as H. fold (b64_div x (b64_of_Z w)) in H. rewrite Hw1 in H.
  specialize (H ltac:(lra)).
  assert (Hr : B2R x / IZR w = IZR z * bpow radix2 e) by (rewrite Hx, mult_IZR; field; lra).
  rewrite Hr, rnd_grid in H by lia. rewrite Rlt_bool_true in H by (apply grid_small; lia).
  destruct H as (H1 & H2 & _). rewrite Hf in H2. auto.
Qed.

(** The sign of zero survives. *)
Lemma mean64_zero s (w1 w2 : Z) : (0 < w1)%Z -> (0 < w2)%Z -> (w1 + w2 < 2 ^ 53)%Z ->
  mean64 (B754_zero s) w1 (B754_zero s) w2 = B754_zero s.
Proof.
  intros H1 H2 H. assert (Hp : forall w, (0 < w < 2 ^ 53)%Z -> exists m e p, b64_of_Z w = B754_finite false m e p).
  { intros w Hw. destruct (b64_of_Z_exact w ltac:(lia)) as [Hv Hf]. assert (Hw0 : 0 < IZR w) by (apply IZR_lt; lia).
    destruct (b64_of_Z w) as [t|t| |t m e p]; cbn in Hf, Hv; try discriminate; try lra. destruct t; [|eauto].
    exfalso. assert (F2R (Float radix2 (Z.neg m) e) < 0) by (apply F2R_lt_0; reflexivity). cbn in *. lra. }
  unfold mean64. destruct (Hp w1 ltac:(lia)) as (m1 & e1 & p1 & ->), (Hp w2 ltac:(lia)) as (m2 & e2 & p2 & ->),
    (Hp (w1 + w2)%Z ltac:(lia)) as (m3 & e3 & p3 & ->). destruct s; reflexivity.
Qed.

Lemma mean64_same (x : b64) n (w1 w2 : Z) : few_bits n x -> (0 < w1)%Z -> (0 < w2)%Z -> (w1 + w2 <= n)%Z -> (n < 2 ^ 53)%Z ->
  mean64 x w1 x w2 = x.
Proof.
  intros (Hf & z & e & He & Hz & Hx) H1 H2 H Hn. rewrite pow2_bpow in Hx.
  destruct (Z.eq_dec z 0) as [Hz0|Hz0].
  - assert (B2R x = 0) by (rewrite Hx, Hz0; ring). destruct x as [s|s| |s m f p]; cbn in Hf; try discriminate.
    + apply mean64_zero; lia.
    + exfalso. cbn [B2R] in H0. apply eq_0_F2R in H0. destruct s; discriminate H0.
  - assert (Hb : forall w, (0 < w <= n)%Z -> (Z.abs (z * w) < 2 ^ 53)%Z) by (intros w Hw; rewrite Z.abs_mul, (Z.abs_eq w) by lia; pose proof (Z.mul_le_mono_nonneg_l w n (Z.abs z)); lia).
    destruct (mul_grid x z e w1 He (conj H1 (ltac:(lia) : (w1 < 2 ^ 53)%Z)) (Hb w1 (ltac:(lia))) Hf Hx) as [F1 V1].
    destruct (mul_grid x z e w2 He ltac:(lia) (Hb w2 ltac:(lia)) Hf Hx) as [F2 V2].
    assert (Hs : (Z.abs (z * w1 + z * w2) < 2 ^ 53)%Z) by (rewrite <- Z.mul_add_distr_l; apply Hb; lia).
    destruct (add_grid _ _ _ _ e He Hs F1 F2 V1 V2) as [F3 V3].
    rewrite <- Z.mul_add_distr_l in V3.
    assert (Hz1 : (Z.abs z < 2 ^ 53)%Z) by (replace z with (z * 1)%Z by lia; apply Hb; lia).
    destruct (div_grid _ z e (w1 + w2) He ltac:(lia) Hz1 F3 V3) as [F4 V4].
    fold (mean64 x w1 x w2) in F4, V4. rewrite <- Hx in V4.
    assert (Hne : B2R x <> 0).
    { rewrite Hx. apply Rmult_integral_contrapositive_currified; [apply IZR_neq; exact Hz0|apply Rgt_not_eq, bpow_gt_0]. }
    apply B2R_inj; [| |exact V4].
    + destruct (mean64 x w1 x w2) as [s|s| |s m f p]; cbn in F4 |- *; try discriminate; [|reflexivity]. exfalso. apply Hne. rewrite <- V4. reflexivity.
    + destruct x as [s|s| |s m f p]; cbn in Hf |- *; try discriminate; [|reflexivity]. exfalso. apply Hne. reflexivity.
Qed.

Lemma combine_same (x : list b64) n (w1 w2 : Z) : Forall (few_bits n) x -> (0 < w1)%Z -> (0 < w2)%Z -> (w1 + w2 <= n)%Z -> (n < 2 ^ 53)%Z ->
  scombine euclid64 x w1 x w2 = x.
Proof.
  intros Hx H1 H2 H Hn. rewrite combine64 by (auto; lia). induction Hx as [|a x Ha Hx IH]; [reflexivity|].
  cbn [combine map fst snd]. rewrite IH, (mean64_same a n) by assumption. reflexivity.
Qed.

(** [a] is [x] whenever all of [xs] are. *)
Definition same_as (a : list b64) (xs : list (list b64)) : Prop := forall x, (forall y, In y xs -> y = x) -> a = x.

Lemma same_averages n : (n < 2 ^ 53)%Z -> averages euclid64 n (Forall (few_bits n)) same_as.
Proof.
  intros Hn. constructor.
  - intros x _ y Hy. apply Hy. left. reflexivity.
  - intros x _ y Hy. apply Hy. left. reflexivity.
  - intros a xs b ys HP _ Hx Hy Ha Hb Hle z Hz.
    assert (Ea : a = z) by (apply Ha; intros y H; apply Hz, in_or_app; auto).
    assert (Eb : b = z) by (apply Hb; intros y H; apply Hz, in_or_app; auto).
    subst a b. apply (combine_same z n); auto.
    + destruct xs as [|x xs]; [contradiction|]. rewrite <- (Hz x) by (left; reflexivity). inversion HP; assumption.
    + destruct xs; [contradiction|cbn [length]; lia].
    + destruct ys; [contradiction|cbn [length]; lia].
Qed.

Lemma rest_main : forall par (c data : list (list b64)), valid_par par -> c <> [] -> (Z.of_nat (length data) < 2 ^ 53)%Z ->
  Forall (Forall (few_bits (Z.of_nat (length data)))) data ->
  (forall x, In x data -> exists i d, assign B64Num euclid64 c x = Ok (Some x, i, d)) ->
  forall n, iterations B64Num euclid64 par data n c c.
Proof.
  intros par c data Hp Hc Hn HD Ha.
  assert (Hstep : strategy_iterate B64Num euclid64 par c data = Ok (map Some c)).
  { destruct (strategy_average B64Num _ B64NumOrd euclid64 _ _ _ (same_averages _ Hn) par c data Hp Hc HD) as (c' & H1 & H2 & H3); [lia|].
    rewrite H1. do 2 f_equal. apply list_ext; [exact H2|]. intros i Hi.
    destruct (nth_error c' i) as [ci'|] eqn:Hci'; [|apply nth_error_None in Hci'; lia].
    destruct (nth_error c i) as [ci|] eqn:Hci; [|apply nth_error_None in Hci; lia].
    f_equal. destruct (H3 i ci ci' Hci Hci') as [[_ H]|[_ H]]; [exact H|]. apply H. intros y Hy.
    apply filter_In in Hy. destruct Hy as [Hy Hl]. apply Z.eqb_eq in Hl. destruct (Ha y Hy) as (l & d & E).
    destruct (nearest_valid B64Num euclid64 c y (leb_m1_0 B64Num _ B64NumOrd) Hc) as (l' & cl & Hne & Hcl).
    rewrite (assign_nearest B64Num euclid64 _ y l' cl Hne Hcl) in E. injection E as -> _ _.
    rewrite Hne in Hl. cbn [fst] in Hl. apply Nat2Z.inj in Hl. subst l'. congruence. }
  induction n as [|n IH]; [constructor|]. econstructor; [exact Hstep|exact IH].
Qed.

Lemma copies_main : forall n (x : list b64), (0 < n)%nat -> (Z.of_nat n < 2 ^ 53)%Z -> Forall (few_bits (Z.of_nat n)) x ->
  dba euclid64 (repeat x n) = Some x.
Proof.
  intros n x H0 Hn Hx. destruct (dba_nonempty euclid64 (repeat x n)) as [m Hm]; [destruct n; [lia|discriminate]|].
  rewrite Hm. f_equal.
  apply (dba_average euclid64 _ _ _ (same_averages _ Hn) (repeat x n) m); [|rewrite repeat_length; lia|exact Hm|].
  - apply Forall_forall. intros y Hy. apply repeat_spec in Hy. subst y. exact Hx.
  - intros y Hy. apply repeat_spec in Hy. exact Hy.
Qed.

(** Integers have few bits. *)
Lemma few_bits_int (n z : Z) : (0 < n)%Z -> (Z.abs z * n < 2 ^ 53)%Z -> few_bits n (b64_of_Z z).
Proof.
  intros Hn Hz. destruct (b64_of_Z_exact z ltac:(nia)) as [H1 H2]. split; [exact H2|]. exists z, 0%Z. split; [lia|]. split; [exact Hz|].
  rewrite H1. cbn. ring.
Qed.

Lemma assign_at (c : list (list b64)) x i : c <> [] -> fst (nearest B64Num euclid64 c x) = Z.of_nat i -> nth_error c i = Some x ->
  exists l d, assign B64Num euclid64 c x = Ok (Some x, l, d).
Proof.
  intros Hc Hi Hx. destruct (nearest_valid B64Num euclid64 c x (leb_m1_0 B64Num _ B64NumOrd) Hc) as (l' & cl & Hne & Hcl).
  rewrite Hne in Hi. cbn [fst] in Hi. apply Nat2Z.inj in Hi. subst l'. rewrite Hx in Hcl. injection Hcl as <-.
  rewrite (assign_nearest B64Num euclid64 _ x i x Hne Hx). eauto.
Qed.
