(** The float64 cosinus distance against the exact one (C115). *)
From Coq Require Import List ZArith Lia Bool Reals Lra Psatz.
From Flocq Require Import Core IEEE754.BinarySingleNaN.
From Verif Require Import Base.Go Base.Num Model.Clustering Model.Euclid Model.Cosinus Spec.RealSpec Spec.NearestSpec Spec.FloatSpec Spec.FloatCosSpec
  Proofs.GoLemmas Proofs.NumLaws Proofs.NearestProofs Proofs.RealLemmas Proofs.EuclidProofs Proofs.CosinusProofs Proofs.SpaceMain Proofs.ConfProofs Proofs.EuclidFloat Proofs.FloatMean Proofs.FloatDist Proofs.FloatLoss.
Import ListNotations.
Local Open Scope R_scope.

#[local] Existing Instance prec64_gt_0.
#[local] Existing Instance prec64_lt_emax.
#[local] Instance exp64c : Valid_exp (SpecFloat.fexp prec64 emax64) := fexp_correct prec64 emax64 prec64_gt_0.
#[local] Instance rnd64c : Valid_rnd (round_mode mode_NE) := valid_rnd_round_mode mode_NE.

Definition adot (a b : list R) : R := dot (map Rabs a) (map Rabs b).
Lemma adot_nonneg a : forall b, 0 <= adot a b.
Proof. induction a as [|x a IH]; intros [|y b]; try (cbn; lra). unfold adot in *. cbn [map]. rewrite dot_cons. specialize (IH b). pose proof (Rabs_pos x). pose proof (Rabs_pos y). nra. Qed.
Lemma dot_abs a : forall b, Rabs (dot a b) <= adot a b.
Proof.
  induction a as [|x a IH]; intros [|y b]; try (cbn; rewrite Rabs_R0; lra). unfold adot in *. cbn [map]. rewrite !dot_cons. specialize (IH b).
  apply (Rle_trans _ _ _ (Rabs_triang _ _)). rewrite Rabs_mult. lra.
Qed.
Lemma adot_self a : dot (map Rabs a) (map Rabs a) = dot a a.
Proof. induction a as [|x a IH]; [reflexivity|]. cbn [map]. rewrite !dot_cons, IH, <- Rabs_mult. rewrite (Rabs_right (x * x)); [reflexivity|]. nra. Qed.
Lemma adot_cs a b : length a = length b -> adot a b <= sqrt (dot a a) * sqrt (dot b b).
Proof.
  intros H. pose proof (cauchy_schwarz (map Rabs a) (map Rabs b) ltac:(rewrite !map_length; exact H)) as C. fold (adot a b) in C. rewrite !adot_self in C.
  rewrite <- sqrt_mult by apply dot_nonneg. rewrite <- (sqrt_square (adot a b)) by apply adot_nonneg. apply sqrt_le_1_alt. exact C.
Qed.

Lemma mul_near (x y : b64) : in_box 480 x -> in_box 480 y ->
  let p := b64_mul x y in is_finite p = true /\ Rabs (B2R p) <= bpow radix2 960 /\ Rabs (B2R p - B2R x * B2R y) <= uu * (Rabs (B2R x) * Rabs (B2R y)) + eta.
Proof.
  intros [Fx Bx] [Fy By] p. rewrite pow2_bpow in *.
  assert (B : Rabs (B2R x * B2R y) <= bpow radix2 960). { rewrite Rabs_mult. change 960%Z with (480 + 480)%Z. rewrite bpow_plus. apply Rmult_le_compat; try apply Rabs_pos; assumption. }
  assert (Br : Rabs (rnd (B2R x * B2R y)) <= bpow radix2 960) by (apply rnd_le; [apply pow_format; lia|exact B]).
  destruct (mul_cases x y Fx Fy) as [(_ & V & F & _)|[H _]].
  - fold p in V, F. split; [exact F|]. rewrite V. split; [exact Br|]. rewrite <- Rabs_mult. apply rnd_err.
  - exfalso. assert (bpow radix2 960 < bpow radix2 emax64) by (apply bpow_lt; reflexivity). lra.
Qed.

Definition dot_near (i : nat) (s : b64) (T A : R) : Prop :=
  is_finite s = true /\ Rabs (B2R s) <= bpow radix2 960 * INR i /\ Rabs T <= A /\ Rabs (B2R s - T) <= 2 * (INR i + 1) * uu * A + 2 * INR i * eta.

Lemma small_u i : (Z.of_nat i <= 2 ^ 45)%Z -> 2 * (INR i + 4) * uu <= / 127.
Proof.
  intros Hi. assert (H : INR i <= bpow radix2 45) by (rewrite INR_IZR_INZ; change (bpow radix2 45) with (IZR (2 ^ 45)); apply IZR_le; exact Hi).
  apply Rle_trans with (2 * (bpow radix2 45 + bpow radix2 2) * uu).
  - apply Rmult_le_compat_r; [apply bpow_ge_0|]. change (bpow radix2 2) with 4. lra.
  - rewrite Rmult_assoc, Rmult_plus_distr_r, <- !bpow_plus. change (bpow radix2 (45 + -53)) with (/ 256).
    assert (bpow radix2 (2 + -53) <= bpow radix2 (-20)) by (apply bpow_le; lia). change (bpow radix2 (-20)) with (/ 1048576) in H0. lra.
Qed.

Lemma dot_step i s T A (x y : b64) : (Z.of_nat (S i) <= 2 ^ 45)%Z -> in_box 480 x -> in_box 480 y -> dot_near i s T A ->
  dot_near (S i) (b64_add s (b64_mul x y)) (T + B2R x * B2R y) (A + Rabs (B2R x) * Rabs (B2R y)).
Proof.
  intros Hi Hx Hy (Fs & Bs & HT & Es). destruct (mul_near x y Hx Hy) as (Fp & Bp & Ep). set (p := b64_mul x y) in *. cbn zeta in *.
  pose proof (small_u (S i) Hi) as Hs. rewrite S_INR in *. pose proof (pos_INR i) as Hi0. pose proof uu_small as Hu. pose proof eta_pos as He.
  destruct (add_box s p 960 (Z.of_nat (S i))) as (Fa & Va & Ba); auto; try lia.
  { rewrite <- INR_IZR_INZ, S_INR. apply (Rle_trans _ _ _ (Rabs_triang _ _)). lra. }
  pose proof (plus_err (B2R s) (B2R p) (fmt_B2R s) (fmt_B2R p)) as Ea. rewrite <- Va in Ea. rewrite <- INR_IZR_INZ, S_INR in Ba.
  set (X := Rabs (B2R x) * Rabs (B2R y)) in *. assert (HX : Rabs (B2R x * B2R y) = X) by apply Rabs_mult. assert (HX0 : 0 <= X) by (rewrite <- HX; apply Rabs_pos).
  split; [exact Fa|]. rewrite S_INR. split; [exact Ba|]. split; [apply (Rle_trans _ _ _ (Rabs_triang _ _)); rewrite HX; lra|].
  set (I := INR i) in *. set (u := uu) in *. set (h := eta) in *. set (a := B2R (b64_add s p)) in *. set (m := B2R x * B2R y) in *.
  assert (HA : 0 <= A) by (apply Rle_trans with (2 := HT); apply Rabs_pos).
  assert (Q1 : Rabs (B2R s + B2R p - (T + m)) <= 2 * (I + 1) * u * A + 2 * I * h + (u * X + h)).
  { replace (B2R s + B2R p - (T + m)) with ((B2R s - T) + (B2R p - m)) by ring. apply (Rle_trans _ _ _ (Rabs_triang _ _)). lra. }
  assert (Q2 : Rabs (B2R s + B2R p) <= A + X + (2 * (I + 1) * u * A + 2 * I * h + (u * X + h))).
  { replace (B2R s + B2R p) with ((T + m) + (B2R s + B2R p - (T + m))) by ring. apply (Rle_trans _ _ _ (Rabs_triang _ _)).
    assert (Rabs (T + m) <= A + X) by (apply (Rle_trans _ _ _ (Rabs_triang _ _)); rewrite HX; lra). lra. }
  replace (a - (T + m)) with ((a - (B2R s + B2R p)) + (B2R s + B2R p - (T + m))) by ring. apply (Rle_trans _ _ _ (Rabs_triang _ _)).
  assert (Q3 : u * Rabs (B2R s + B2R p) <= u * (A + X + (2 * (I + 1) * u * A + 2 * I * h + (u * X + h)))) by (apply Rmult_le_compat_l; lra).
  assert (W : 2 * (I + 1) * u <= / 127) by nra.
  assert (W1 : u * (2 * (I + 1) * u * A) <= / 127 * (u * A)) by (replace (u * (2 * (I + 1) * u * A)) with (2 * (I + 1) * u * (u * A)) by ring; apply Rmult_le_compat_r; nra).
  assert (W2 : u * (2 * I * h) <= / 127 * h) by (replace (u * (2 * I * h)) with (2 * I * u * h) by ring; apply Rmult_le_compat_r; nra).
  assert (W5 : 0 <= u * A) by (apply Rmult_le_pos; lra). assert (W6 : 0 <= u * X) by (apply Rmult_le_pos; lra). assert (W7 : 0 <= I * (u * X)) by (apply Rmult_le_pos; assumption).
  assert (W3 : u * (u * X) <= 1 * (u * X)) by (apply Rmult_le_compat_r; lra). assert (W4 : u * h <= / 2 * h) by (apply Rmult_le_compat_r; lra).
  lra.
Qed.

Lemma dot64 : forall (p1 p2 : list b64) i s T A, length p1 = length p2 -> Forall (in_box 480) p1 -> Forall (in_box 480) p2 ->
  (Z.of_nat (i + length p1) <= 2 ^ 45)%Z -> dot_near i s T A ->
  exists r, scalar_loop B64Num p1 p2 s = Ok r /\ dot_near (i + length p1) r (T + dot (reals p1) (reals p2)) (A + adot (reals p1) (reals p2)).
Proof.
  induction p1 as [|x p1 IH]; intros [|y p2] i s T A Hl H1 H2 Hi Hs; try discriminate Hl.
  - exists s. cbn [scalar_loop length]. split; [reflexivity|]. rewrite Nat.add_0_r. replace (T + _) with T by (cbn; lra). replace (A + _) with A by (cbn; lra). exact Hs.
  - inversion H1 as [|? ? X1 Y1]; subst. inversion H2 as [|? ? X2 Y2]; subst. injection Hl as Hl. cbn [length] in Hi.
    pose proof (dot_step i s T A x y ltac:(lia) X1 X2 Hs) as Hs'.
    destruct (IH p2 (S i) _ _ _ Hl Y1 Y2 ltac:(lia) Hs') as (r & R1 & R2).
    exists r. cbn [scalar_loop nmul nadd B64Num]. split; [exact R1|]. cbn [length]. rewrite Nat.add_succ_r.
    unfold adot in *. cbn [reals map]. fold (reals p1) (reals p2). rewrite !dot_cons, <- !Rplus_assoc. exact R2.
Qed.

Lemma scalar64 d (p1 p2 : list b64) : (Z.of_nat d <= 2 ^ 45)%Z -> cos_vec d p1 -> cos_vec d p2 ->
  exists r, scalar_product B64Num p1 p2 = Ok r /\ is_finite r = true /\ Rabs (B2R r) <= bpow radix2 1005 /\
    Rabs (B2R r - dot (reals p1) (reals p2)) <= 2 * (INR d + 2) * uu * (exact_norm p1 * exact_norm p2).
Proof.
  intros Hd [[L1 B1] N1] [[L2 B2] N2].
  assert (Hlen : length (reals p1) = length (reals p2)) by (unfold reals; rewrite !map_length; exact (eq_trans L1 (eq_sym L2))).
  assert (H0 : dot_near 0 (b64_of_Z 0) 0 0).
  { destruct (b64_of_Z_exact 0 ltac:(lia)) as [V F]. split; [exact F|]. rewrite V. cbn [INR]. rewrite Rabs_R0. split; [lra|]. split; [lra|].
    replace (0 - 0) with 0 by lra. rewrite Rabs_R0. lra. }
  destruct (dot64 p1 p2 0 _ 0 0 ltac:(congruence) B1 B2 ltac:(cbn; lia) H0) as (r & R1 & F & B & HT & E).
  cbn [Nat.add] in *. rewrite !Rplus_0_l in *. rewrite L1 in *. exists r. split; [exact R1|]. split; [exact F|].
  assert (Hd' : INR d <= bpow radix2 45) by (rewrite INR_IZR_INZ; change (bpow radix2 45) with (IZR (2 ^ 45)); apply IZR_le; exact Hd).
  split.
  - apply (Rle_trans _ _ _ B). change 1005%Z with (960 + 45)%Z. rewrite bpow_plus. apply Rmult_le_compat_l; [apply bpow_ge_0|exact Hd'].
  - apply (Rle_trans _ _ _ E). pose proof (adot_cs (reals p1) (reals p2) Hlen) as C. fold (exact_norm p1) (exact_norm p2) in C.
    rewrite pow2_bpow in *. assert (P : bpow radix2 (-800) <= exact_norm p1 * exact_norm p2).
    { change (-800)%Z with (-400 + -400)%Z. rewrite bpow_plus. apply Rmult_le_compat; try apply bpow_ge_0; assumption. }
    assert (U : 2 * INR d * eta <= uu * (exact_norm p1 * exact_norm p2)).
    { apply Rle_trans with (bpow radix2 1 * bpow radix2 45 * bpow radix2 (-1075)).
      - change (bpow radix2 1) with 2. apply Rmult_le_compat_r; [apply bpow_ge_0|]. lra.
      - apply Rle_trans with (bpow radix2 (-53) * bpow radix2 (-800)); [rewrite <- !bpow_plus; apply bpow_le; lia|]. apply Rmult_le_compat_l; [apply bpow_ge_0|exact P]. }
    pose proof (pos_INR d) as Hd0. pose proof uu_small as Hu. set (A := adot (reals p1) (reals p2)) in *. set (n := exact_norm p1 * exact_norm p2) in *.
    assert (2 * (INR d + 1) * uu * A <= 2 * (INR d + 1) * uu * n) by (apply Rmult_le_compat_l; [nra|exact C]).
    assert (0 < n) by (apply Rlt_le_trans with (2 := P); apply bpow_gt_0). nra.
Qed.

Lemma norm64 d (p : list b64) : (Z.of_nat d <= 2 ^ 45)%Z -> cos_vec d p ->
  exists r, norm B64Num p = Ok r /\ is_finite r = true /\ Rabs (B2R r - exact_norm p) <= 2 * (INR d + 3) * uu * exact_norm p.
Proof.
  intros Hd Hp. destruct (scalar64 d p p Hd Hp Hp) as (s & S1 & F & B & E). unfold norm. rewrite S1. cbn [obind nsqrt B64Num]. exists (b64_sqrt s). split; [reflexivity|].
  destruct Hp as [_ N]. rewrite pow2_bpow in N. set (n := exact_norm p) in *.
  assert (Hn : n * n = dot (reals p) (reals p)) by (apply sqrt_sqrt, dot_nonneg). rewrite <- Hn in E.
  assert (Hn0 : 0 < n) by (apply Rlt_le_trans with (2 := N); apply bpow_gt_0).
  pose proof (small_u d Hd) as Hs. pose proof (pos_INR d) as Hd0. pose proof uu_small as Hu. set (g := 2 * (INR d + 2) * uu) in *.
  assert (Hg : 0 <= g <= / 127) by (unfold g; nra).
  assert (Hs0 : 0 < B2R s). { apply Rabs_le_inv in E. assert (0 < n * n) by nra. nra. }
  pose proof (Bsqrt_correct prec64 emax64 _ _ mode_NE s) as (V & FF & _). fold (b64_sqrt s) in V, FF.
  assert (Fq : is_finite (b64_sqrt s) = true).
  { rewrite FF. destruct s as [sg|sg| |sg m e q]; cbn in F |- *; try discriminate F; try reflexivity. destruct sg; [|reflexivity]. exfalso.
    assert (F2R (Float radix2 (Z.neg m) e) < 0) by (apply F2R_lt_0; reflexivity). cbn in *. lra. }
  split; [exact Fq|]. rewrite V.
  pose proof (sqrt_near (B2R s) (n * n) g 0 ltac:(lra) ltac:(nra) ltac:(lra) ltac:(lra) ltac:(lra)) as Q. rewrite sqrt_0, Rplus_0_r, sqrt_square in Q by lra.
  pose proof (rnd_err (sqrt (B2R s))) as R. rewrite (Rabs_right (sqrt _)) in R by (apply Rle_ge, sqrt_pos).
  assert (U : bpow radix2 (-1075) <= / 4 * (uu * n)).
  { change (/ 4) with (bpow radix2 (-2)). apply Rle_trans with (bpow radix2 (-2) * (bpow radix2 (-53) * bpow radix2 (-400))); [rewrite <- !bpow_plus; apply bpow_le; lia|].
    apply Rmult_le_compat_l; [apply bpow_ge_0|]. apply Rmult_le_compat_l; [apply bpow_ge_0|exact N]. }
  apply Rabs_le_inv in Q. replace (rnd (sqrt (B2R s)) - n) with ((rnd (sqrt (B2R s)) - sqrt (B2R s)) + (sqrt (B2R s) - n)) by ring.
  apply (Rle_trans _ _ _ (Rabs_triang _ _)). assert (sqrt (B2R s) <= 2 * n) by nra.
  assert (G : 2 * (INR d + 3) * uu = g + 2 * uu) by (unfold g; ring). rewrite G.
  assert (uu * sqrt (B2R s) <= uu * ((1 + g) * n)) by (apply Rmult_le_compat_l; lra). assert (uu * (g * n) <= / 127 * (uu * n)) by nra.
  assert (Rabs (sqrt (B2R s) - n) <= g * n) by (apply Rabs_le; lra). assert (0 <= uu * n) by nra. nra.
Qed.

(** A float64 quotient. *)
Lemma div_near (x y : b64) : is_finite x = true -> is_finite y = true -> 0 < B2R y -> Rabs (B2R x / B2R y) <= bpow radix2 1020 ->
  is_finite (b64_div x y) = true /\ Rabs (B2R (b64_div x y) - B2R x / B2R y) <= uu * Rabs (B2R x / B2R y) + eta.
Proof.
  intros Fx Fy Hy B. assert (Bnd : Rabs (rnd (B2R x / B2R y)) < bpow radix2 emax64).
  { apply Rle_lt_trans with (bpow radix2 1020); [|apply bpow_lt; reflexivity]. apply rnd_le; [apply pow_format; lia|exact B]. }
  pose proof (Bdiv_correct prec64 emax64 _ _ mode_NE x y ltac:(lra)) as HA. fold (b64_div x y) in HA. rewrite Rlt_bool_true in HA by exact Bnd. destruct HA as (V & FF & _).
  split; [rewrite FF; exact Fx|]. rewrite V. apply rnd_err.
Qed.

Lemma quo_near x c al E h : Rabs c <= 1 -> Rabs (x - c) <= E -> 0 <= h <= / 127 -> Rabs (al - 1) <= h -> Rabs (x / al - c) <= 127 / 126 * (E + h).
Proof.
  intros Hc HE Hh Ha. assert (Hal : 126 / 127 <= al) by (apply Rabs_le_inv in Ha; lra). assert (Hi : 0 < / al <= 127 / 126).
  { split; [apply Rinv_0_lt_compat; lra|]. replace (127 / 126) with (/ (126 / 127)) by field. apply Rinv_le; lra. }
  replace (x / al - c) with (((x - c) - c * (al - 1)) * / al) by (field; lra). rewrite Rabs_mult, (Rabs_right (/ al)) by lra. rewrite (Rmult_comm (127 / 126)).
  apply Rmult_le_compat; [apply Rabs_pos|lra| |lra]. apply (Rle_trans _ _ _ (Rabs_triang _ _)). rewrite Rabs_Ropp, Rabs_mult.
  pose proof (Rabs_pos c). pose proof (Rabs_pos (al - 1)). nra.
Qed.

Lemma scaled (y z b e : R) : 0 < b -> Rabs (y - z) <= e * b -> Rabs (y / b - z / b) <= e.
Proof.
  intros Hb H. replace (y / b - z / b) with ((y - z) * / b) by (field; lra). assert (0 < / b) by (apply Rinv_0_lt_compat; exact Hb).
  rewrite Rabs_mult, (Rabs_right (/ b)) by lra. replace e with (e * b * / b) by (field; lra). apply Rmult_le_compat_r; lra.
Qed.

Lemma abs_shift x c E : Rabs c <= 1 -> Rabs (x - c) <= E -> Rabs x <= 1 + E.
Proof. intros Hc H. replace x with (c + (x - c)) by ring. apply (Rle_trans _ _ _ (Rabs_triang _ _)). lra. Qed.

Lemma norm_le d p : (Z.of_nat d <= 2 ^ 45)%Z -> cos_vec d p -> exact_norm p <= bpow radix2 503.
Proof.
  intros Hd [[L B] _]. unfold exact_norm. rewrite <- (sqrt_square (bpow radix2 503)) by apply bpow_ge_0. apply sqrt_le_1_alt. rewrite <- bpow_plus.
  apply Rle_trans with (INR d * bpow radix2 960).
  - clear Hd. revert d L. induction B as [|x p [_ Hx] _ IH]; intros d L; [cbn in *; subst d; cbn [INR]; lra|]. destruct d as [|d]; [discriminate L|]. injection L as L.
    cbn [reals map]. fold (reals p). rewrite dot_cons, S_INR. specialize (IH d L). rewrite pow2_bpow in Hx. apply Rabs_le_inv in Hx.
    assert (B2R x * B2R x <= bpow radix2 960) by (change 960%Z with (480 + 480)%Z; rewrite bpow_plus; set (b := bpow radix2 480) in *; nra). lra.
  - apply Rle_trans with (bpow radix2 45 * bpow radix2 960).
    + apply Rmult_le_compat_r; [apply bpow_ge_0|]. rewrite INR_IZR_INZ. change (bpow radix2 45) with (IZR (2 ^ 45)). apply IZR_le. exact Hd.
    + rewrite <- bpow_plus. apply bpow_le. lia.
Qed.

(** The distance. *)
Lemma cos64 : forall d (p1 p2 : list b64), (Z.of_nat d <= 2 ^ 45)%Z -> cos_vec d p1 -> cos_vec d p2 ->
  0 <= exact_cos_dist p1 p2 <= 2 /\
  exists D, cos_dist B64Num p1 p2 = Ok D /\ is_finite D = true /\ Rabs (B2R D - exact_cos_dist p1 p2) <= cos_err d.
Proof.
  intros d p1 p2 Hd H1 H2. destruct (scalar64 d p1 p2 Hd H1 H2) as (S & S1 & FS & BS & ES). destruct (norm64 d p1 Hd H1) as (A & A1 & FA & EA). destruct (norm64 d p2 Hd H2) as (B & B1 & FB & EB).
  unfold cos_dist, cosinus. rewrite S1, A1, B1. cbn [obind ndiv nsub nof B64Num].
  pose proof (norm_le d p1 Hd H1) as U1. pose proof (norm_le d p2 Hd H2) as U2.
  assert (Hs : Rabs (dot (reals p1) (reals p2)) <= exact_norm p1 * exact_norm p2).
  { apply (Rle_trans _ _ _ (dot_abs _ _)). apply adot_cs. unfold reals. rewrite !map_length. exact (eq_trans (proj1 (proj1 H1)) (eq_sym (proj1 (proj1 H2)))). }
  destruct H1 as [_ N1]. destruct H2 as [_ N2]. rewrite pow2_bpow in *. unfold exact_cos_dist. set (s := dot (reals p1) (reals p2)) in *. set (a := exact_norm p1) in *. set (b := exact_norm p2) in *.
  pose proof (bpow_gt_0 radix2 (-400)) as P400. assert (Ha : 0 < a) by lra. assert (Hb : 0 < b) by lra. assert (Hab : 0 < a * b) by (apply Rmult_lt_0_compat; assumption).
  pose proof (small_u d Hd) as Hsm. pose proof (pos_INR d) as Hd0. pose proof uu_small as Hu. pose proof eta_pos as He.
  set (u := uu) in *. set (g := 2 * (INR d + 2) * u) in *. set (h := 2 * (INR d + 3) * u) in *.
  assert (Hg : 0 <= g <= / 127) by (unfold g; nra). assert (Hh : 0 <= h <= / 127) by (unfold h; nra).
  assert (Hc : Rabs (s / (a * b)) <= 1).
  { unfold Rdiv. rewrite Rabs_mult, (Rabs_right (/ (a * b))) by (apply Rle_ge; left; apply Rinv_0_lt_compat; exact Hab).
    apply Rmult_le_reg_r with (a * b); [exact Hab|]. replace (Rabs s * / (a * b) * (a * b)) with (Rabs s) by (field; lra). lra. }
  split; [apply Rabs_le_inv in Hc; lra|]. eexists. split; [reflexivity|]. set (c := s / (a * b)) in *.
  assert (Bpos : forall z n : R, 0 < n -> Rabs (z - n) <= h * n -> 126 / 127 * n <= z). { intros z n Hn H. apply Rabs_le_inv in H. nra. }
  pose proof (Bpos _ _ Ha EA) as PA. pose proof (Bpos _ _ Hb EB) as PB. assert (HA : 0 < B2R A) by lra. assert (HB : 0 < B2R B) by lra.
  (* normalised values *)
  assert (X0 : Rabs (B2R S / (a * b) - c) <= g) by (apply scaled; assumption).
  assert (TA : Rabs (B2R A / a - 1) <= h). { replace 1 with (a / a) by (field; lra). apply scaled; assumption. }
  assert (TB : Rabs (B2R B / b - 1) <= h). { replace 1 with (b / b) by (field; lra). apply scaled; assumption. }
  pose proof (quo_near _ c _ g h Hc X0 Hh TA) as X1.
  assert (E1 : B2R S / (a * b) / (B2R A / a) = B2R S / B2R A / b) by (field; lra). rewrite E1 in X1.
  pose proof (abs_shift _ c _ Hc X1) as M1. assert (M1' : Rabs (B2R S / B2R A) <= 11 / 10 * b).
  { replace (B2R S / B2R A) with (B2R S / B2R A / b * b) by (field; lra). rewrite Rabs_mult, (Rabs_right b) by lra. apply Rmult_le_compat_r; lra. }
  assert (Q500 : bpow radix2 503 * (11 / 10) <= bpow radix2 1020).
  { apply Rle_trans with (bpow radix2 503 * bpow radix2 1); [apply Rmult_le_compat_l; [apply bpow_ge_0|change (bpow radix2 1) with 2; lra]|]. rewrite <- bpow_plus. apply bpow_le. lia. }
  destruct (div_near S A FS FA HA ltac:(lra)) as [FQ EQ]. set (q := b64_div S A) in *. fold u in EQ.
  assert (He2 : eta <= / 100 * (u * b)).
  { apply Rle_trans with (bpow radix2 (-7) * (bpow radix2 (-53) * bpow radix2 (-400))); [rewrite <- !bpow_plus; apply bpow_le; lia|]. change (bpow radix2 (-7)) with (/ 128).
    fold u. assert (u * bpow radix2 (-400) <= u * b) by (apply Rmult_le_compat_l; lra). assert (0 < u * b) by (apply Rmult_lt_0_compat; lra). lra. }
  assert (He3 : eta <= / 100 * u).
  { apply Rle_trans with (bpow radix2 (-7) * bpow radix2 (-53)); [rewrite <- bpow_plus; apply bpow_le; lia|]. change (bpow radix2 (-7)) with (/ 128). fold u. lra. }
  assert (X2 : Rabs (B2R q / b - c) <= 127 / 126 * (g + h) + 112 / 100 * u).
  { replace (B2R q / b - c) with ((B2R q / b - B2R S / B2R A / b) + (B2R S / B2R A / b - c)) by ring. apply (Rle_trans _ _ _ (Rabs_triang _ _)).
    assert (Rabs (B2R q / b - B2R S / B2R A / b) <= 112 / 100 * u); [|lra]. apply scaled; [exact Hb|]. apply (Rle_trans _ _ _ EQ).
    assert (u * Rabs (B2R S / B2R A) <= u * (11 / 10 * b)) by (apply Rmult_le_compat_l; lra). assert (0 < u * b) by (apply Rmult_lt_0_compat; lra). lra. }
  pose proof (quo_near _ c _ _ h Hc X2 Hh TB) as X3.
  assert (E2 : B2R q / b / (B2R B / b) = B2R q / B2R B) by (field; lra). rewrite E2 in X3.
  pose proof (abs_shift _ c _ Hc X3) as M3. assert (M3' : Rabs (B2R q / B2R B) <= 11 / 10) by lra.
  assert (Q0 : 11 / 10 <= bpow radix2 1020) by (apply Rle_trans with (bpow radix2 1); [change (bpow radix2 1) with 2; lra|apply bpow_le; lia]).
  destruct (div_near q B FQ FB HB ltac:(lra)) as [FR ER]. set (r := b64_div q B) in *. fold u in ER.
  assert (X4 : Rabs (B2R r - c) <= 127 / 126 * (127 / 126 * (g + h) + 112 / 100 * u + h) + 112 / 100 * u).
  { replace (B2R r - c) with ((B2R r - B2R q / B2R B) + (B2R q / B2R B - c)) by ring. apply (Rle_trans _ _ _ (Rabs_triang _ _)).
    assert (u * Rabs (B2R q / B2R B) <= u * (11 / 10)) by (apply Rmult_le_compat_l; lra). lra. }
  pose proof (abs_shift _ c _ Hc X4) as M4. assert (M4' : Rabs (B2R r) <= 11 / 10) by lra.
  destruct (b64_of_Z_exact 1 ltac:(lia)) as [V1 F1].
  pose proof (minus_err (B2R (b64_of_Z 1)) (B2R r) (fmt_B2R _) (fmt_B2R _)) as EM. rewrite V1 in EM. cbn [IZR] in EM.
  assert (M5 : Rabs (1 - B2R r) <= 21 / 10) by (apply Rabs_le_inv in M4'; apply Rabs_le; lra).
  destruct (sub_cases (b64_of_Z 1) r F1 FR) as [(_ & V & FF)|[H _]].
  2: { exfalso. rewrite V1 in H. assert (Rabs (rnd (1 - B2R r)) <= bpow radix2 2) by (apply rnd_le; [apply pow_format; lia|change (bpow radix2 2) with 4; lra]).
       assert (bpow radix2 2 < bpow radix2 emax64) by (apply bpow_lt; reflexivity). lra. }
  split; [exact FF|]. rewrite V, V1.
  replace (rnd (1 - B2R r) - (1 - c)) with ((rnd (1 - B2R r) - (1 - B2R r)) + (c - B2R r)) by ring. apply (Rle_trans _ _ _ (Rabs_triang _ _)).
  rewrite (Rabs_minus_sym c). fold u in EM. assert (u * Rabs (1 - B2R r) <= u * (21 / 10)) by (apply Rmult_le_compat_l; lra).
  assert (Herr : cos_err d = 5 * (INR d + 3) * (2 * u)).
  { unfold cos_err. rewrite pow2_bpow. change (-52)%Z with (1 + -53)%Z. rewrite bpow_plus. reflexivity. }
  rewrite Herr. assert (0 <= INR d * u) by (apply Rmult_le_pos; lra). unfold g, h in X4. lra.
Qed.

Lemma cos_nearest : forall d (c : list (list b64)) (x : list b64), (Z.of_nat d <= 2 ^ 45)%Z -> c <> [] -> Forall (cos_vec d) c -> cos_vec d x ->
  (forall y, In y c -> cos_err d <= exact_cos_dist x y) ->
  exists l cl, assign B64Num (cosinus_space B64Num) c x = Ok (Some cl, Z.of_nat l, sdist (cosinus_space B64Num) x cl) /\ nth_error c l = Some cl /\
    forall y, In y c -> exact_cos_dist x cl <= exact_cos_dist x y + 2 * cos_err d.
Proof.
  intros d c x Hd Hc HC Hx Hfar. rewrite Forall_forall in HC.
  assert (HD : forall y, In y c -> is_finite (sdist (cosinus_space B64Num) x y) = true /\ Rabs (B2R (sdist (cosinus_space B64Num) x y) - exact_cos_dist x y) <= cos_err d).
  { intros y Hy. destruct (cos64 d x y Hd Hx (HC y Hy)) as (_ & D & H & F & E). cbn [sdist cosinus_space]. rewrite H. auto. }
  destruct (cosinus_predict_nonneg c x Hc) as (l & cl & HA & Hl & Hb & _).
  { intros y Hy. destruct (HD y Hy) as [F E]. split.
    - unfold not_nan64. destruct (sdist (cosinus_space B64Num) x y); try discriminate F; reflexivity.
    - destruct (b64_of_Z_exact 0 ltac:(lia)) as [V0 F0]. unfold b64_leb. rewrite (Bleb_correct prec64 emax64 _ _ F0 F). apply Rle_bool_true. rewrite V0.
      apply Rabs_le_inv in E. specialize (Hfar y Hy). lra. }
  exists l, cl. split; [exact HA|]. split; [exact Hl|]. intros y Hy. destruct (In_nth_error _ _ Hy) as [j Hj]. destruct (HD cl (nth_error_In c l Hl)) as [F1 E1]. destruct (HD y Hy) as [F2 E2].
  pose proof (leb_finite _ _ F1 F2 (Hb j y Hj)) as H. apply Rabs_le_inv in E1. apply Rabs_le_inv in E2. lra.
Qed.

(** The hypotheses can be met. *)
Lemma cos_case : let c := [v64 [1; 0]; v64 [0; 1]]%Z in let x := v64 [3; 4]%Z in
  (Z.of_nat 2 <= 2 ^ 45)%Z /\ c <> [] /\ Forall (cos_vec 2) c /\ cos_vec 2 x /\ (forall y, In y c -> cos_err 2 <= exact_cos_dist x y) /\
  exact_cos_dist x (v64 [1; 0])%Z = 2 / 5 /\ exact_cos_dist x (v64 [0; 1])%Z = 1 / 5.
Proof.
  cbv zeta. assert (V : forall a b, (Z.abs a <= 2 ^ 53)%Z -> (Z.abs b <= 2 ^ 53)%Z -> reals (v64 [a; b]) = [IZR a; IZR b]).
  { intros a b Ha Hb. unfold reals, v64. cbn [map]. rewrite (proj1 (b64_of_Z_exact a Ha)), (proj1 (b64_of_Z_exact b Hb)). reflexivity. }
  assert (D : forall a b c d, dot [a; b] [c; d] = a * c + b * d) by (intros; unfold dot, rsum; cbn; ring).
  assert (N1 : exact_norm (v64 [1; 0]%Z) = 1) by (unfold exact_norm; rewrite V, D by lia; replace (1 * 1 + 0 * 0) with 1 by ring; apply sqrt_1).
  assert (N2 : exact_norm (v64 [0; 1]%Z) = 1) by (unfold exact_norm; rewrite V, D by lia; replace (0 * 0 + 1 * 1) with 1 by ring; apply sqrt_1).
  assert (N3 : exact_norm (v64 [3; 4]%Z) = 5) by (unfold exact_norm; rewrite V, D by lia; replace (3 * 3 + 4 * 4) with (5 * 5) by ring; apply sqrt_square; lra).
  assert (S : powerRZ 2 (-400) <= 1) by (rewrite pow2_bpow; change 1 with (bpow radix2 0); apply bpow_le; lia).
  assert (B : forall a b, (Z.abs a <= 8)%Z -> (Z.abs b <= 8)%Z -> box_vec 480 2 (v64 [a; b])).
  { intros a b Ha Hb. split; [reflexivity|]. assert (Q : forall z, (Z.abs z <= 8)%Z -> in_box 480 (b64_of_Z z)).
    { intros z Hz. destruct (b64_of_Z_exact z ltac:(lia)) as [E F]. split; [exact F|]. rewrite E, pow2_bpow, <- abs_IZR. apply Rle_trans with (bpow radix2 3); [|apply bpow_le; lia].
      change (bpow radix2 3) with (IZR 8). apply IZR_le. exact Hz. }
    apply Forall_cons; [apply Q; exact Ha|apply Forall_cons; [apply Q; exact Hb|apply Forall_nil]]. }
  assert (E1 : exact_cos_dist (v64 [3; 4]%Z) (v64 [1; 0]%Z) = 2 / 5) by (unfold exact_cos_dist; rewrite N1, N3, !V, D by lia; field).
  assert (E2 : exact_cos_dist (v64 [3; 4]%Z) (v64 [0; 1]%Z) = 1 / 5) by (unfold exact_cos_dist; rewrite N2, N3, !V, D by lia; field).
  assert (K : cos_err 2 <= 1 / 5).
  { unfold cos_err. rewrite pow2_bpow. cbn [INR]. assert (bpow radix2 (-52) <= bpow radix2 (-10)) by (apply bpow_le; lia). change (bpow radix2 (-10)) with (/ 1024) in H. lra. }
  split; [lia|]. split; [discriminate|]. split.
  { apply Forall_cons; [|apply Forall_cons; [|apply Forall_nil]]; (split; [apply B; lia|]); rewrite ?N1, ?N2; exact S. }
  split; [split; [apply B; lia|rewrite N3; lra]|]. split; [|split; assumption].
  intros y [<-|[<-|[]]]; [rewrite E1|rewrite E2]; lra.
Qed.
