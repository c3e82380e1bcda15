(** The Euclidean distance in binary64 against the exact distance. *)
From Coq Require Import List ZArith Lia Bool Reals Lra Psatz.
From Flocq Require Import Core IEEE754.BinarySingleNaN Relative Plus_error.
From Verif Require Import Base.Go Base.Num Model.Clustering Model.Euclid Spec.RealSpec Spec.FloatSpec
  Proofs.GoLemmas Proofs.NumLaws Proofs.RealLemmas Proofs.EuclidProofs Proofs.EuclidFloat Proofs.ConfProofs Proofs.FloatMean.
Import ListNotations.
Local Open Scope R_scope.

#[local] Existing Instance prec64_gt_0.
#[local] Existing Instance prec64_lt_emax.
#[local] Instance exp64' : Valid_exp (SpecFloat.fexp prec64 emax64) := fexp_correct prec64 emax64 prec64_gt_0.
#[local] Instance rnd64' : Valid_rnd (round_mode mode_NE) := valid_rnd_round_mode mode_NE.

Notation uu := (bpow radix2 (-53)).
Notation eta := (bpow radix2 (-1075)).

Lemma uu_small : 0 < uu <= / 1024.
Proof. split; [apply bpow_gt_0|]. change (/ 1024) with (bpow radix2 (-10)). apply bpow_le. lia. Qed.
Lemma eta_pos : 0 < eta.
Proof. apply bpow_gt_0. Qed.

(** Sums of float64 values have no underflow error. *)
Lemma plus_err (x y : R) : fmt x -> fmt y -> Rabs (rnd (x + y) - (x + y)) <= uu * Rabs (x + y).
Proof.
  intros Hx Hy.
  destruct (FLT_plus_error_N_ex radix2 (-1074) 53 (fun z => negb (Z.even z)) x y Hx Hy) as (e & H1 & H2).
  change (rnd (x + y)) with (round radix2 (FLT_exp (-1074) 53) (Znearest (fun z => negb (Z.even z))) (x + y)). rewrite H2.
  replace ((x + y) * (1 + e) - (x + y)) with (e * (x + y)) by ring. rewrite Rabs_mult. apply Rmult_le_compat_r; [apply Rabs_pos|].
  change (u_ro radix2 53) with (/ 2 * bpow radix2 (-52)) in H1.
  assert (Hu : / 2 * bpow radix2 (-52) = uu) by (change (-53)%Z with (-1 + -52)%Z; rewrite (bpow_plus radix2 (-1)); reflexivity).
  rewrite Hu in H1. apply (Rle_trans _ _ _ H1). pose proof uu_small. unfold Rdiv. rewrite <- (Rmult_1_r uu) at 3.
  apply Rmult_le_compat_l; [lra|]. rewrite <- Rinv_1. apply Rinv_le; lra.
Qed.
Lemma minus_err (x y : R) : fmt x -> fmt y -> Rabs (rnd (x - y) - (x - y)) <= uu * Rabs (x - y).
Proof. intros Hx Hy. unfold Rminus at 1 3 4. apply plus_err; [exact Hx|]. apply generic_format_opp. exact Hy. Qed.

Lemma fmt_B2R (x : b64) : fmt (B2R x).
Proof. apply generic_format_B2R. Qed.

(** The square of a difference. *)
Lemma sqdiff64 (x y : b64) k : (-500 <= k <= 480)%Z -> in_box k x -> in_box k y ->
  let p := b64_mul (b64_sub x y) (b64_sub x y) in let t := B2R x - B2R y in
  is_finite p = true /\ 0 <= B2R p <= bpow radix2 (2 * k + 2) /\ Rabs (B2R p - t * t) <= 4 * uu * (t * t) + eta.
Proof.
  intros Hk [Fx Bx] [Fy By] p t. rewrite pow2_bpow in *.
  assert (Bt : Rabs t <= bpow radix2 (k + 1)).
  { rewrite bpow_plus. change (bpow radix2 1) with 2. unfold t. apply Rabs_le_inv in Bx. apply Rabs_le_inv in By. apply Rabs_le. lra. }
  assert (Bv : Rabs (rnd t) <= bpow radix2 (k + 1)) by (apply rnd_le; [apply pow_format; lia|exact Bt]).
  pose proof (minus_err (B2R x) (B2R y) (fmt_B2R x) (fmt_B2R y)) as Ev. change (B2R x - B2R y) with t in Ev.
  pose proof (sub_cases x y Fx Fy) as Hsub. change (B2R x - B2R y) with t in Hsub.
  destruct Hsub as [(_ & Vv & Fv)|[H _]].
  2: { exfalso. assert (bpow radix2 (k + 1) < bpow radix2 emax64) by (apply bpow_lt; unfold emax64; lia). lra. }
  rewrite <- Vv in Ev, Bv.
  set (v := B2R (b64_sub x y)) in *.
  assert (Bvv : Rabs (v * v) <= bpow radix2 (2 * k + 2)).
  { rewrite Rabs_mult. replace (2 * k + 2)%Z with ((k + 1) + (k + 1))%Z by lia. rewrite (bpow_plus radix2 (k + 1) (k + 1)).
    apply Rmult_le_compat; try apply Rabs_pos; assumption. }
  assert (Bp : Rabs (rnd (v * v)) <= bpow radix2 (2 * k + 2)) by (apply rnd_le; [apply pow_format; lia|exact Bvv]).
  pose proof (mul_cases (b64_sub x y) (b64_sub x y) Fv Fv) as Hmul. fold v in Hmul. destruct Hmul as [(_ & Vp & Fp & _)|[H _]].
  2: { exfalso. assert (bpow radix2 (2 * k + 2) < bpow radix2 emax64) by (apply bpow_lt; unfold emax64; lia). lra. }
  fold p in Vp, Fp. split; [exact Fp|]. split.
  - split; [apply nonneg_R; [apply square_nonneg, sub_not_nan; assumption|exact Fp]|]. rewrite Vp. apply (Rle_trans _ _ _ (Rle_abs _)). exact Bp.
  - pose proof (rnd_err (v * v)) as Ep. rewrite <- Vp in Ep. pose proof uu_small as Hu.
    assert (Hvv : Rabs (v * v) = v * v) by (apply Rabs_right; nra). rewrite Hvv in Ep.
    assert (Htt : Rabs t * Rabs t = t * t) by (rewrite <- Rabs_mult; apply Rabs_right; nra).
    assert (Hv2 : Rabs (v * v - t * t) <= (2 * uu + uu * uu) * (t * t)).
    { replace (v * v - t * t) with ((v - t) * (v - t) + 2 * t * (v - t)) by ring.
      apply (Rle_trans _ _ _ (Rabs_triang _ _)). rewrite !Rabs_mult, (Rabs_right 2) by lra. pose proof (Rabs_pos t). pose proof (Rabs_pos (v - t)).
      apply Rle_trans with ((uu * Rabs t) * (uu * Rabs t) + 2 * Rabs t * (uu * Rabs t)); [|rewrite <- Htt; nra].
      apply Rplus_le_compat; [apply Rmult_le_compat; lra|]. apply Rmult_le_compat_l; lra. }
    replace (B2R p - t * t) with ((B2R p - v * v) + (v * v - t * t)) by ring.
    apply (Rle_trans _ _ _ (Rabs_triang _ _)). assert (0 <= t * t) by nra.
    assert (v * v <= t * t + (2 * uu + uu * uu) * (t * t)) by (apply Rabs_le_inv in Hv2; lra).
    assert (uu * (v * v) <= uu * (t * t + (2 * uu + uu * uu) * (t * t))) by (apply Rmult_le_compat_l; lra).
    assert (Q : uu + (2 * uu + uu * uu) * (uu + 1) <= 4 * uu) by nra.
    assert ((uu + (2 * uu + uu * uu) * (uu + 1)) * (t * t) <= 4 * uu * (t * t)) by (apply Rmult_le_compat_r; assumption). nra.
Qed.

(** [s] approximates the sum [S] of [i] squares. *)
Definition sum_near (k : Z) (i : nat) (s : b64) (S : R) : Prop :=
  is_finite s = true /\ 0 <= S /\ 0 <= B2R s <= bpow radix2 (2 * k + 2) * INR i /\
  Rabs (B2R s - S) <= 2 * (INR i + 3) * uu * S + 2 * INR i * eta.

Lemma sum_near_step k i s S p T : (-500 <= k <= 480)%Z -> (Z.of_nat i < 2 ^ 50)%Z -> sum_near k i s S -> 0 <= T ->
  is_finite p = true -> 0 <= B2R p <= bpow radix2 (2 * k + 2) -> Rabs (B2R p - T) <= 4 * uu * T + eta ->
  sum_near k (Datatypes.S i) (b64_add s p) (S + T).
Proof.
  intros Hk Hi (Fs & HS & Bs & Es) HT Fp Bp Ep. pose proof (pos_INR i) as Hi0. pose proof uu_small as Hu. pose proof eta_pos as He.
  assert (Hiz : INR i < bpow radix2 50).
  { rewrite INR_IZR_INZ. change (bpow radix2 50) with (IZR (2 ^ 50)). apply IZR_lt. exact Hi. }
  assert (Hiu : (INR i + 3) * uu <= / 4).
  { apply Rle_trans with ((bpow radix2 50 + bpow radix2 50) * uu); [apply Rmult_le_compat_r; [lra|]|].
    - assert (3 <= bpow radix2 50) by (change 3 with (IZR 3); change (bpow radix2 50) with (IZR (2 ^ 50)); apply IZR_le; lia). lra.
    - replace ((bpow radix2 50 + bpow radix2 50) * uu) with (bpow radix2 1 * (bpow radix2 50 * uu)) by (change (bpow radix2 1) with 2; ring).
      rewrite <- !bpow_plus. change (/ 4) with (bpow radix2 (-2)). apply bpow_le. lia. }
  destruct (add_box s p (2 * k + 2) (Z.of_nat (Datatypes.S i))) as (Fa & Va & Ba); auto; try lia.
  { rewrite <- INR_IZR_INZ, S_INR. rewrite Rabs_right by lra. lra. }
  pose proof (plus_err (B2R s) (B2R p) (fmt_B2R s) (fmt_B2R p)) as Ea. rewrite <- Va in Ea.
  split; [exact Fa|]. split; [lra|]. split.
  - rewrite <- INR_IZR_INZ in Ba. split; [|apply (Rle_trans _ _ _ (Rle_abs _)); exact Ba].
    rewrite Va. apply round_ge_generic; auto with typeclass_instances; [apply generic_format_0|lra].
  - rewrite (Rabs_right (B2R s + B2R p)) in Ea by lra. rewrite S_INR.
    set (I := INR i) in *. set (a := B2R (b64_add s p)) in *. set (u := uu) in *. set (h := eta) in *.
    assert (Hd : Rabs (B2R s + B2R p - (S + T)) <= 2 * (I + 3) * u * (S + T) + (2 * I + 1) * h).
    { replace (B2R s + B2R p - (S + T)) with ((B2R s - S) + (B2R p - T)) by ring. apply (Rle_trans _ _ _ (Rabs_triang _ _)).
      assert (4 * u * T <= 2 * (I + 3) * u * T) by (apply Rmult_le_compat_r; [exact HT|]; nra). lra. }
    replace (a - (S + T)) with ((a - (B2R s + B2R p)) + (B2R s + B2R p - (S + T))) by ring.
    apply (Rle_trans _ _ _ (Rabs_triang _ _)). apply Rabs_le_inv in Hd as Hd'.
    assert (Hsp : B2R s + B2R p <= (S + T) + 2 * (I + 3) * u * (S + T) + (2 * I + 1) * h) by lra.
    assert (u * (B2R s + B2R p) <= u * ((S + T) + 2 * (I + 3) * u * (S + T) + (2 * I + 1) * h)) by (apply Rmult_le_compat_l; lra).
    assert (Q1 : u * (2 * (I + 3) * u * (S + T)) <= u * (S + T)).
    { replace (u * (2 * (I + 3) * u * (S + T))) with ((2 * ((I + 3) * u)) * (u * (S + T))) by ring.
      rewrite <- (Rmult_1_l (u * (S + T))) at 2. apply Rmult_le_compat_r; [nra|lra]. }
    assert (Q2 : u * ((2 * I + 1) * h) <= h).
    { replace (u * ((2 * I + 1) * h)) with ((u * (2 * I + 1)) * h) by ring. rewrite <- (Rmult_1_l h) at 2. apply Rmult_le_compat_r; [lra|nra]. }
    nra.
Qed.

Lemma sqsum64 k : (-500 <= k <= 480)%Z -> forall p1 p2 i s S, length p1 = length p2 -> Forall (in_box k) p1 -> Forall (in_box k) p2 ->
  (Z.of_nat (i + length p1) <= 2 ^ 50)%Z -> sum_near k i s S ->
  exists r, sqsum_loop B64Num p1 p2 s = Ok r /\ sum_near k (i + length p1) r (S + sqdist (reals p1) (reals p2)).
Proof.
  intros Hk. induction p1 as [|x p1 IH]; intros [|y p2] i s S Hl H1 H2 Hi Hs; try discriminate Hl.
  - exists s. cbn [sqsum_loop length]. split; [reflexivity|]. rewrite Nat.add_0_r. replace (S + sqdist (reals []) (reals [])) with S by (cbn; lra). exact Hs.
  - inversion H1 as [|? ? X1 Y1]; subst. inversion H2 as [|? ? X2 Y2]; subst. injection Hl as Hl. cbn [length] in Hi.
    destruct (sqdiff64 x y k Hk X1 X2) as (P1 & P2 & P3).
    assert (HT : 0 <= (B2R x - B2R y) * (B2R x - B2R y)) by apply Rle_0_sqr.
    pose proof (sum_near_step k i s S _ _ Hk ltac:(lia) Hs HT P1 P2 P3) as Hs'.
    destruct (IH p2 (Datatypes.S i) _ _ Hl Y1 Y2 ltac:(lia) Hs') as (r & R1 & R2).
    exists r. cbn [sqsum_loop nsub nmul nadd B64Num]. split; [exact R1|]. cbn [length]. rewrite Nat.add_succ_r.
    cbn [reals map]. fold (reals p1) (reals p2). rewrite sqdist_cons, <- Rplus_assoc. exact R2.
Qed.

Lemma sqrt_add a b : 0 <= a -> 0 <= b -> sqrt (a + b) <= sqrt a + sqrt b.
Proof.
  intros Ha Hb. pose proof (sqrt_pos a). pose proof (sqrt_pos b). apply Rsqr_incr_0_var; [|lra].
  rewrite Rsqr_sqrt by lra. unfold Rsqr. pose proof (sqrt_sqrt a Ha). pose proof (sqrt_sqrt b Hb). nra.
Qed.

Lemma sqrt_scale a q : 0 <= a -> 0 <= q -> sqrt ((1 + a) * q) <= (1 + a) * sqrt q.
Proof.
  intros Ha Hq. rewrite sqrt_mult by lra. apply Rmult_le_compat_r; [apply sqrt_pos|].
  rewrite <- (sqrt_square (1 + a)) at 2 by lra. apply sqrt_le_1_alt. nra.
Qed.

Lemma sqrt_near s q a b : 0 <= s -> 0 <= q -> 0 <= a <= 1 -> 0 <= b -> Rabs (s - q) <= a * q + b -> Rabs (sqrt s - sqrt q) <= a * sqrt q + sqrt b.
Proof.
  intros Hs Hq Ha Hb H. apply Rabs_le_inv in H as [H1 H2]. apply Rabs_le. split.
  - assert (K : sqrt ((1 - a) * q) <= sqrt s + sqrt b).
    { apply Rle_trans with (sqrt (s + b)); [apply sqrt_le_1_alt; lra|apply sqrt_add; assumption]. }
    assert ((1 - a) * sqrt q <= sqrt ((1 - a) * q)); [|lra].
    rewrite sqrt_mult by lra. apply Rmult_le_compat_r; [apply sqrt_pos|].
    rewrite <- (sqrt_square (1 - a)) at 1 by lra. apply sqrt_le_1_alt. nra.
  - assert (K : sqrt s <= sqrt ((1 + a) * q) + sqrt b).
    { apply Rle_trans with (sqrt ((1 + a) * q + b)); [apply sqrt_le_1_alt; lra|apply sqrt_add; [nra|assumption]]. }
    pose proof (sqrt_scale a q ltac:(lra) Hq). lra.
Qed.

Lemma dist64 k d (p1 p2 : list b64) : (-500 <= k <= 480)%Z -> (Z.of_nat d <= 2 ^ 50)%Z -> box_vec k d p1 -> box_vec k d p2 ->
  let D := sdist (euclid_space B64Num) p1 p2 in
  is_finite D = true /\ Rabs (B2R D - sqrt (sqdist (reals p1) (reals p2))) <= rel_err d * sqrt (sqdist (reals p1) (reals p2)) + abs_err d.
Proof.
  intros Hk Hd [L1 B1] [L2 B2] D.
  assert (H0 : sum_near k 0 (b64_of_Z 0) 0).
  { destruct (b64_of_Z_exact 0 ltac:(lia)) as [V F]. split; [exact F|]. split; [lra|]. rewrite V. cbn [INR]. split; [lra|].
    replace (0 - 0) with 0 by lra. rewrite Rabs_R0. lra. }
  destruct (sqsum64 k Hk p1 p2 0 _ 0 ltac:(congruence) B1 B2 ltac:(cbn; lia) H0) as (s & Hs & Fs & HS & [Bs0 Bs] & Es).
  cbn [Nat.add] in *. rewrite Rplus_0_l in *. rewrite L1 in *.
  assert (HD : D = b64_sqrt s). { unfold D. cbn [sdist euclid_space]. unfold point_dist. cbn [nof B64Num]. rewrite Hs. reflexivity. }
  set (q := sqdist (reals p1) (reals p2)) in *. clearbody D. subst D.
  pose proof (Bsqrt_correct prec64 emax64 _ _ mode_NE s) as (V & F & _). fold (b64_sqrt s) in V, F.
  assert (Fq : is_finite (b64_sqrt s) = true).
  { rewrite F. destruct s as [sg|sg| |sg m e p]; cbn in Fs |- *; try discriminate Fs; try reflexivity. destruct sg; [|reflexivity]. exfalso.
    assert (F2R (Float radix2 (Z.neg m) e) < 0) by (apply F2R_lt_0; reflexivity). cbn in *. lra. }
  split; [exact Fq|]. pose proof (rnd_err (sqrt (B2R s))) as Er. rewrite <- V in Er.
  rewrite (Rabs_right (sqrt _)) in Er by (apply Rle_ge, sqrt_pos). pose proof uu_small as Hu. pose proof eta_pos as He. pose proof (pos_INR d) as Hd0.
  assert (Hiz : INR d <= bpow radix2 50).
  { rewrite INR_IZR_INZ. change (bpow radix2 50) with (IZR (2 ^ 50)). apply IZR_le. exact Hd. }
  assert (Hiu : (INR d + 3) * uu <= / 4).
  { apply Rle_trans with ((bpow radix2 50 + bpow radix2 50) * uu); [apply Rmult_le_compat_r; [lra|]|].
    - assert (3 <= bpow radix2 50) by (change 3 with (IZR 3); change (bpow radix2 50) with (IZR (2 ^ 50)); apply IZR_le; lia). lra.
    - replace ((bpow radix2 50 + bpow radix2 50) * uu) with (bpow radix2 1 * (bpow radix2 50 * uu)) by (change (bpow radix2 1) with 2; ring).
      rewrite <- !bpow_plus. change (/ 4) with (bpow radix2 (-2)). apply bpow_le. lia. }
  assert (Hab : 0 <= 2 * (INR d + 3) * uu <= 1) by nra.
  pose proof (sqrt_near (B2R s) q (2 * (INR d + 3) * uu) (2 * INR d * eta) Bs0 HS Hab ltac:(nra) Es) as En.
  pose proof (sqrt_pos q) as Hq. pose proof (sqrt_pos (2 * INR d * eta)) as Hb.
  assert (Hbb : sqrt (2 * INR d * eta) <= INR d * bpow radix2 (-537)).
  { destruct d as [|d']; [cbn [INR]; rewrite Rmult_0_r, Rmult_0_l, sqrt_0; lra|].
    assert (1 <= INR (S d')) by (rewrite S_INR; pose proof (pos_INR d'); lra).
    rewrite <- (sqrt_square (INR (S d') * bpow radix2 (-537))) by (apply Rmult_le_pos; [lra|apply bpow_ge_0]). apply sqrt_le_1_alt.
    replace (INR (S d') * bpow radix2 (-537) * (INR (S d') * bpow radix2 (-537))) with (INR (S d') * INR (S d') * (bpow radix2 (-537) * bpow radix2 (-537))) by ring.
    rewrite <- bpow_plus. change (-537 + -537)%Z with (1 + -1075)%Z. rewrite bpow_plus. change (bpow radix2 1) with 2. clear - H He. set (n := INR (S d')) in *. set (h := eta) in *. clearbody n h. assert (0 <= (n * n - n) * h) by (apply Rmult_le_pos; nra). nra. }
  assert (Habs : abs_err d = 2 * (INR d * bpow radix2 (-537))).
  { unfold abs_err. rewrite pow2_bpow. change (-536)%Z with (1 + -537)%Z. rewrite bpow_plus. change (bpow radix2 1) with 2. ring. }
  assert (Hrel : rel_err d = 2 * (INR d + 4) * uu).
  { unfold rel_err. rewrite pow2_bpow. change (-52)%Z with (1 + -53)%Z. rewrite bpow_plus. change (bpow radix2 1) with 2. ring. }
  rewrite Habs, Hrel.
  assert (Hz : d = 0%nat \/ eta <= / 4 * (INR d * bpow radix2 (-537))).
  { destruct d as [|d']; [left; reflexivity|right]. assert (1 <= INR (S d')) by (rewrite S_INR; pose proof (pos_INR d'); lra).
    apply Rle_trans with (/ 4 * bpow radix2 (-537)).
    - change (/ 4) with (bpow radix2 (-2)). rewrite <- bpow_plus. apply bpow_le. lia.
    - pose proof (bpow_ge_0 radix2 (-537)). nra. }
  destruct Hz as [->|Hz].
  - (* no coordinate *)
    assert (Hq0 : q = 0) by (destruct p1; [|discriminate L1]; reflexivity). cbn [INR] in *. assert (Hs0 : B2R s = 0) by lra.
    rewrite V, Hs0, Hq0, sqrt_0, round_0 by auto with typeclass_instances. replace (0 - 0) with 0 by ring. rewrite Rabs_R0. lra.
  - apply Rabs_le_inv in En as [En1 En2].
    assert (Hss : sqrt (B2R s) <= sqrt q + 2 * (INR d + 3) * uu * sqrt q + INR d * bpow radix2 (-537)) by lra.
    set (g := INR d * bpow radix2 (-537)) in *. assert (Hg : 0 <= g) by lra.
    assert (uu * sqrt (B2R s) <= 2 * uu * sqrt q + / 4 * g).
    { apply Rle_trans with (uu * (sqrt q + 2 * (INR d + 3) * uu * sqrt q + g)); [apply Rmult_le_compat_l; lra|].
      assert (2 * (INR d + 3) * uu * sqrt q <= sqrt q) by nra. nra. }
    replace (B2R (b64_sqrt s) - sqrt q) with ((B2R (b64_sqrt s) - sqrt (B2R s)) + (sqrt (B2R s) - sqrt q)) by ring.
    apply (Rle_trans _ _ _ (Rabs_triang _ _)).
    assert (Rabs (sqrt (B2R s) - sqrt q) <= 2 * (INR d + 3) * uu * sqrt q + g) by (apply Rabs_le; lra). lra.
Qed.
