(** Weighted averages of vectors in binary64: range and accuracy. *)
From Coq Require Import List ZArith Lia Bool Reals Lra Psatz.
From Flocq Require Import Core IEEE754.BinarySingleNaN Relative.
From Verif Require Import Base.Go Base.Num Model.Clustering Model.Euclid Spec.RealSpec Spec.FloatSpec
  Proofs.GoLemmas Proofs.NumLaws Proofs.RealLemmas Proofs.EuclidFloat Proofs.ConfProofs.
Import ListNotations.
Local Open Scope R_scope.

#[local] Existing Instance prec64_gt_0.
#[local] Existing Instance prec64_lt_emax.
#[local] Instance exp64 : Valid_exp (SpecFloat.fexp prec64 emax64) := fexp_correct prec64 emax64 prec64_gt_0.
#[local] Instance rnd64 : Valid_rnd (round_mode mode_NE) := valid_rnd_round_mode mode_NE.
Notation fmt := (generic_format radix2 (SpecFloat.fexp prec64 emax64)).

Lemma pow2_bpow k : powerRZ 2 k = bpow radix2 k.
Proof. rewrite bpow_powerRZ. reflexivity. Qed.

Lemma rnd_le x b : fmt b -> Rabs x <= b -> Rabs (rnd x) <= b.
Proof. intros Hb H. apply abs_round_le_generic; auto with typeclass_instances. Qed.

Lemma rnd_err x : Rabs (rnd x - x) <= bpow radix2 (-53) * Rabs x + bpow radix2 (-1075).
Proof.
  destruct (error_N_FLT radix2 (-1074) 53 ltac:(reflexivity) (fun z => negb (Z.even z)) x) as (eps & eta & H1 & H2 & _ & H3).
  change (rnd x) with (round radix2 (FLT_exp (-1074) 53) (Znearest (fun z => negb (Z.even z))) x). rewrite H3.
  replace (x * (1 + eps) + eta - x) with (eps * x + eta) by ring.
  apply (Rle_trans _ _ _ (Rabs_triang _ _)). rewrite Rabs_mult.
  change (-53)%Z with (-1 + -52)%Z. change (-1075)%Z with (-1 + -1074)%Z. rewrite !(bpow_plus radix2 (-1)).
  change (bpow radix2 (-1)) with (/ 2). change (u_ro radix2 53) with (/ 2 * bpow radix2 (-52)) in H1.
  apply Rplus_le_compat; [|exact H2]. apply Rmult_le_compat_r; [apply Rabs_pos|exact H1].
Qed.

(** 2^k * w is a float64. *)
Lemma box_format k (w : Z) : (-1074 <= k)%Z -> (Z.abs w < 2 ^ 53)%Z -> fmt (bpow radix2 k * IZR w).
Proof.
  intros Hk Hw. replace (bpow radix2 k * IZR w) with (F2R (Float radix2 w k)) by (unfold F2R; cbn; ring).
  apply (generic_format_FLT radix2 (-1074) 53). exists (Float radix2 w k); [reflexivity|exact Hw|exact Hk].
Qed.

Lemma pow_format k : (-1074 <= k)%Z -> fmt (bpow radix2 k).
Proof. intros Hk. replace (bpow radix2 k) with (bpow radix2 k * IZR 1) by (cbn; ring). apply box_format; [exact Hk|reflexivity]. Qed.

Lemma box_no_overflow k (w : Z) : (k <= 970)%Z -> (0 <= w < 2 ^ 53)%Z -> bpow radix2 k * IZR w < bpow radix2 emax64.
Proof.
  intros Hk [Hw0 Hw]. apply Rle_lt_trans with (bpow radix2 k * bpow radix2 53).
  - apply Rmult_le_compat_l; [apply bpow_ge_0|]. rewrite <- (IZR_Zpower radix2 53) by lia. apply IZR_le. change (Zpower radix2 53) with (2 ^ 53)%Z. lia.
  - rewrite <- bpow_plus. apply bpow_lt. unfold emax64. lia.
Qed.

Lemma mul_box (x : b64) k (w : Z) : (-1074 <= k <= 970)%Z -> (0 < w < 2 ^ 53)%Z -> in_box k x ->
  is_finite (b64_mul x (b64_of_Z w)) = true /\
  B2R (b64_mul x (b64_of_Z w)) = rnd (B2R x * IZR w) /\
  Rabs (B2R (b64_mul x (b64_of_Z w))) <= bpow radix2 k * IZR w.
Proof.
  intros Hk Hw [Hf Hx]. rewrite pow2_bpow in Hx. destruct (b64_of_Z_exact w ltac:(lia)) as [Hw1 Hw2].
  assert (Hw0 : 0 < IZR w) by (apply IZR_lt; lia).
  assert (Hb : Rabs (rnd (B2R x * IZR w)) <= bpow radix2 k * IZR w).
  { apply rnd_le; [apply box_format; lia|]. rewrite Rabs_mult, (Rabs_right (IZR w)) by lra. apply Rmult_le_compat_r; lra. }
  destruct (mul_cases x (b64_of_Z w) Hf Hw2) as [(H1 & H2 & H3 & _)|[H _]]; rewrite Hw1 in *.
  - split; [exact H3|]. split; [exact H2|]. rewrite H2. exact Hb.
  - exfalso. pose proof (box_no_overflow k w ltac:(lia) ltac:(lia)). lra.
Qed.

Lemma add_box (x y : b64) k (w : Z) : (-1074 <= k <= 970)%Z -> (0 < w < 2 ^ 53)%Z ->
  is_finite x = true -> is_finite y = true -> Rabs (B2R x + B2R y) <= bpow radix2 k * IZR w ->
  is_finite (b64_add x y) = true /\ B2R (b64_add x y) = rnd (B2R x + B2R y) /\
  Rabs (B2R (b64_add x y)) <= bpow radix2 k * IZR w.
Proof.
  intros Hk Hw Hx Hy Hs. pose proof (Bplus_correct prec64 emax64 _ _ mode_NE x y Hx Hy) as H. fold (b64_add x y) in H.
  assert (Hb : Rabs (rnd (B2R x + B2R y)) <= bpow radix2 k * IZR w) by (apply rnd_le; [apply box_format; lia|exact Hs]).
  rewrite Rlt_bool_true in H.
  - destruct H as (H1 & H2 & _). split; [exact H2|]. split; [exact H1|]. rewrite H1. exact Hb.
  - pose proof (box_no_overflow k w ltac:(lia) ltac:(lia)). lra.
Qed.

Lemma div_box (x : b64) k (w : Z) : (-1074 <= k <= 970)%Z -> (0 < w < 2 ^ 53)%Z ->
  is_finite x = true -> Rabs (B2R x) <= bpow radix2 k * IZR w ->
  is_finite (b64_div x (b64_of_Z w)) = true /\ B2R (b64_div x (b64_of_Z w)) = rnd (B2R x / IZR w) /\
  Rabs (B2R (b64_div x (b64_of_Z w))) <= bpow radix2 k.
Proof.
  intros Hk Hw Hx Hs. destruct (b64_of_Z_exact w ltac:(lia)) as [Hw1 Hw2].
  assert (Hw0 : 0 < IZR w) by (apply IZR_lt; lia).
  pose proof (Bdiv_correct prec64 emax64 _ _ mode_NE x (b64_of_Z w)) as H. fold (b64_div x (b64_of_Z w)) in H. rewrite Hw1 in H.
  specialize (H ltac:(lra)).
  assert (Hb : Rabs (rnd (B2R x / IZR w)) <= bpow radix2 k).
  { apply rnd_le; [apply pow_format; lia|]. unfold Rdiv. rewrite Rabs_mult, (Rabs_right (/ IZR w)) by (apply Rle_ge; left; apply Rinv_0_lt_compat; exact Hw0).
    apply (Rmult_le_reg_r (IZR w)); [exact Hw0|]. rewrite Rmult_assoc, Rinv_l, Rmult_1_r by lra. exact Hs. }
  rewrite Rlt_bool_true in H.
  - destruct H as (H1 & H2 & _). rewrite Hx in H2. split; [exact H2|]. split; [exact H1|]. rewrite H1. exact Hb.
  - apply (Rle_lt_trans _ _ _ Hb). apply bpow_lt. unfold emax64. lia.
Qed.

Lemma weights_add (w1 w2 : Z) : (0 < w1)%Z -> (0 < w2)%Z -> (w1 + w2 < 2 ^ 53)%Z ->
  b64_add (b64_of_Z w1) (b64_of_Z w2) = b64_of_Z (w1 + w2).
Proof.
  intros H1 H2 H. destruct (b64_of_Z_exact w1 ltac:(lia)) as [V1 F1], (b64_of_Z_exact w2 ltac:(lia)) as [V2 F2],
    (b64_of_Z_exact (w1 + w2) ltac:(lia)) as [V3 F3].
  assert (Hpos : 0 < IZR (w1 + w2)) by (apply IZR_lt; lia).
  destruct (add_box (b64_of_Z w1) (b64_of_Z w2) 0 (w1 + w2)) as (F & V & _); auto; try lia.
  { rewrite V1, V2, <- plus_IZR. rewrite Rabs_right by lra. cbn. lra. }
  rewrite V1, V2, <- plus_IZR in V.
  assert (Hv : B2R (b64_add (b64_of_Z w1) (b64_of_Z w2)) = B2R (b64_of_Z (w1 + w2))).
  { rewrite V, V3. apply round_generic; auto with typeclass_instances.
    replace (IZR (w1 + w2)) with (bpow radix2 0 * IZR (w1 + w2)) by (cbn; ring). apply box_format; lia. }
  apply B2R_Bsign_inj; auto. 
  assert (Hs : forall x : b64, is_finite x = true -> 0 < B2R x -> Bsign x = false).
  { intros [s|s| |s m e p] Hf Hr; cbn in *; try discriminate; try lra. destruct s; [|reflexivity].
    exfalso. assert (F2R (Float radix2 (Z.neg m) e) < 0) by (apply F2R_lt_0; reflexivity). cbn in *. lra. }
  rewrite !Hs; auto; rewrite ?Hv, V3; exact Hpos.
Qed.

Definition mean64 (x : b64) (w1 : Z) (y : b64) (w2 : Z) : b64 :=
  b64_div (b64_add (b64_mul x (b64_of_Z w1)) (b64_mul y (b64_of_Z w2))) (b64_of_Z (w1 + w2)).

(** A weighted average of two values of the box is in the box, and close to the exact average. *)
Lemma mean64_box (x y : b64) k (w1 w2 : Z) : (-1074 <= k <= 970)%Z -> (0 < w1)%Z -> (0 < w2)%Z -> (w1 + w2 < 2 ^ 53)%Z ->
  in_box k x -> in_box k y -> in_box k (mean64 x w1 y w2).
Proof.
  intros Hk H1 H2 H Hx Hy. unfold mean64.
  destruct (mul_box x k w1 Hk ltac:(lia) Hx) as (F1 & V1 & B1), (mul_box y k w2 Hk ltac:(lia) Hy) as (F2 & V2 & B2).
  destruct (add_box (b64_mul x (b64_of_Z w1)) (b64_mul y (b64_of_Z w2)) k (w1 + w2)) as (F3 & V3 & B3); auto; try lia.
  { apply (Rle_trans _ _ _ (Rabs_triang _ _)). rewrite plus_IZR. lra. }
  destruct (div_box (b64_add (b64_mul x (b64_of_Z w1)) (b64_mul y (b64_of_Z w2))) k (w1 + w2)) as (F4 & V4 & B4); auto; try lia.
  split; [exact F4|]. rewrite pow2_bpow. exact B4.
Qed.

Lemma mean64_err (x y : b64) k (w1 w2 : Z) : (-1020 <= k <= 970)%Z -> (0 < w1)%Z -> (0 < w2)%Z -> (w1 + w2 < 2 ^ 53)%Z ->
  in_box k x -> in_box k y ->
  Rabs (B2R (mean64 x w1 y w2) - (B2R x * IZR w1 + B2R y * IZR w2) / IZR (w1 + w2)) <= powerRZ 2 (k - 51).
Proof.
  intros Hk H1 H2 H Hx Hy. unfold mean64.
  destruct (mul_box x k w1 ltac:(lia) ltac:(lia) Hx) as (F1 & V1 & B1), (mul_box y k w2 ltac:(lia) ltac:(lia) Hy) as (F2 & V2 & B2).
  set (p := b64_mul x (b64_of_Z w1)) in *. set (q := b64_mul y (b64_of_Z w2)) in *.
  assert (Bpq : Rabs (B2R p + B2R q) <= bpow radix2 k * IZR (w1 + w2)).
  { apply (Rle_trans _ _ _ (Rabs_triang _ _)). rewrite plus_IZR. lra. }
  destruct (add_box p q k (w1 + w2)) as (F3 & V3 & B3); auto; try lia.
  set (s := b64_add p q) in *.
  destruct (div_box s k (w1 + w2)) as (F4 & V4 & B4); auto; try lia.
  set (r := b64_div s (b64_of_Z (w1 + w2))) in *.
  destruct Hx as [_ Hx], Hy as [_ Hy]. rewrite pow2_bpow in *.
  set (u := bpow radix2 (-53)). set (eta := bpow radix2 (-1075)). set (B := bpow radix2 k) in *.
  assert (W1 : 1 <= IZR w1) by (apply IZR_le; lia). assert (W2 : 1 <= IZR w2) by (apply IZR_le; lia).
  set (t := IZR (w1 + w2)) in *. assert (Ht : t = IZR w1 + IZR w2) by (unfold t; apply plus_IZR).
  assert (Hu : 0 < u) by apply bpow_gt_0. assert (He : 0 < eta) by apply bpow_gt_0. assert (HB : 0 < B) by apply bpow_gt_0.
  assert (Hetau : eta <= u * B / 4).
  { unfold eta, u, B, Rdiv. rewrite <- bpow_plus. change (/ 4) with (bpow radix2 (-2)). rewrite <- bpow_plus. apply bpow_le. lia. }
  assert (Htarget : bpow radix2 (k - 51) = 4 * (u * B)).
  { unfold u, B. rewrite <- bpow_plus. change 4 with (bpow radix2 2). rewrite <- bpow_plus. f_equal. lia. }
  pose proof (rnd_err (B2R x * IZR w1)) as E1. rewrite <- V1 in E1. fold u eta in E1.
  pose proof (rnd_err (B2R y * IZR w2)) as E2. rewrite <- V2 in E2. fold u eta in E2.
  pose proof (rnd_err (B2R p + B2R q)) as E3. rewrite <- V3 in E3. fold u eta in E3.
  pose proof (rnd_err (B2R s / t)) as E4. rewrite <- V4 in E4. fold u eta in E4.
  assert (M1 : Rabs (B2R x * IZR w1) <= B * IZR w1).
  { rewrite Rabs_mult, (Rabs_right (IZR w1)) by lra. apply Rmult_le_compat_r; lra. }
  assert (M2 : Rabs (B2R y * IZR w2) <= B * IZR w2).
  { rewrite Rabs_mult, (Rabs_right (IZR w2)) by lra. apply Rmult_le_compat_r; lra. }
  assert (M4 : Rabs (B2R s / t) <= B).
  { unfold Rdiv. rewrite Rabs_mult, (Rabs_right (/ t)) by (apply Rle_ge; left; apply Rinv_0_lt_compat; lra).
    apply (Rmult_le_reg_r t); [lra|]. rewrite Rmult_assoc, Rinv_l, Rmult_1_r by lra. exact B3. }
  (* error on the sum *)
  set (v := B2R x * IZR w1 + B2R y * IZR w2).
  assert (Es : Rabs (B2R s - v) <= 2 * (u * B * t) + 3 * eta).
  { replace (B2R s - v) with ((B2R s - (B2R p + B2R q)) + ((B2R p - B2R x * IZR w1) + (B2R q - B2R y * IZR w2))) by (unfold v; ring).
    apply (Rle_trans _ _ _ (Rabs_triang _ _)).
    apply Rle_trans with ((u * (B * t) + eta) + ((u * (B * IZR w1) + eta) + (u * (B * IZR w2) + eta))).
    - apply Rplus_le_compat; [|apply (Rle_trans _ _ _ (Rabs_triang _ _)); apply Rplus_le_compat].
      + apply (Rle_trans _ _ _ E3). apply Rplus_le_compat_r. apply Rmult_le_compat_l; [lra|exact Bpq].
      + apply (Rle_trans _ _ _ E1). apply Rplus_le_compat_r. apply Rmult_le_compat_l; [lra|exact M1].
      + apply (Rle_trans _ _ _ E2). apply Rplus_le_compat_r. apply Rmult_le_compat_l; [lra|exact M2].
    - rewrite Ht. right. ring. }
  assert (Ed : Rabs (B2R s / t - v / t) <= 2 * (u * B) + 3 * eta / 2).
  { replace (B2R s / t - v / t) with ((B2R s - v) / t) by (field; lra).
    unfold Rdiv at 1. rewrite Rabs_mult, (Rabs_right (/ t)) by (apply Rle_ge; left; apply Rinv_0_lt_compat; lra).
    apply (Rmult_le_reg_r t); [lra|]. rewrite Rmult_assoc, Rinv_l, Rmult_1_r by lra.
    apply (Rle_trans _ _ _ Es). rewrite Rmult_plus_distr_r. nra. }
  rewrite Htarget.
  replace (B2R r - v / t) with ((B2R r - B2R s / t) + (B2R s / t - v / t)) by ring.
  apply (Rle_trans _ _ _ (Rabs_triang _ _)).
  assert (E4' : Rabs (B2R r - B2R s / t) <= u * B + eta).
  { apply (Rle_trans _ _ _ E4). apply Rplus_le_compat_r. apply Rmult_le_compat_l; [lra|exact M4]. }
  nra.
Qed.
