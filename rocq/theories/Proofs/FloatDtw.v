(** The DTW distance in binary64 against the exact one. *)
From Coq Require Import List ZArith Lia Bool Reals Lra Psatz.
From Flocq Require Import Core IEEE754.BinarySingleNaN Relative Plus_error.
From Verif Require Import Base.Go Base.Num Model.Clustering Model.Euclid Model.Dtw Model.DtwSpace Spec.RealSpec Spec.DtwSpec Spec.FloatSpec Spec.FloatDtwSpec Spec.SystemSpec Spec.NearestSpec
  Proofs.GoLemmas Proofs.NumLaws Proofs.RealLemmas Proofs.EuclidProofs Proofs.EuclidFloat Proofs.FloatMean Proofs.FloatKmeans Proofs.FloatDist Proofs.FloatLoss
  Proofs.DtwProofs Proofs.DtwInterp Proofs.DtwMain Proofs.DtwBounded Proofs.AssignMain Proofs.ConfProofs.
Import ListNotations.
Local Open Scope R_scope.

#[local] Existing Instance prec64_gt_0.
#[local] Existing Instance prec64_lt_emax.
#[local] Instance exp64'' : Valid_exp (SpecFloat.fexp prec64 emax64) := fexp_correct prec64 emax64 prec64_gt_0.
#[local] Instance rnd64'' : Valid_rnd (round_mode mode_NE) := valid_rnd_round_mode mode_NE.

(** ** Sums along a path *)
Lemma along_snoc {F} (N : Num F) (d : Z * Z -> F) p c : p <> [] -> sum_along N d (p ++ [c]) = nadd N (sum_along N d p) (d c).
Proof. destruct p as [|x p]; [congruence|]. intros _. cbn. rewrite fold_left_app. reflexivity. Qed.
Lemma wpath_length al c p : wpath al c p -> (Z.of_nat (length p) <= fst c + snd c + 1)%Z.
Proof.
  induction 1 as [H|c p c' H IH S A]; [cbn; lia|]. rewrite app_length. cbn [length]. destruct S as [[? ?]|[[? ?]|[? ?]]]; lia.
Qed.

Definition cell_near (B e a : R) (x : b64) (r : R) : Prop := is_finite x = true /\ 0 <= B2R x <= B /\ 0 <= r /\ Rabs (B2R x - r) <= e * r + a.

Lemma add_near (s x : b64) (T B : R) (j : nat) : is_finite s = true -> is_finite x = true -> 0 <= T -> 0 <= B2R x <= B -> T <= INR j * B -> B <= bpow radix2 600 ->
  INR (j + 1) * bpow radix2 (-52) <= / 2 -> Rabs (B2R s - T) <= INR j * bpow radix2 (-52) * T ->
  is_finite (b64_add s x) = true /\ Rabs (B2R (b64_add s x) - (T + B2R x)) <= INR (j + 1) * bpow radix2 (-52) * (T + B2R x).
Proof.
  intros Fs Fx HT Hx HB Hb Hj HS. assert (H52 : bpow radix2 (-52) = 2 * uu) by (change (-52)%Z with (1 + -53)%Z; rewrite bpow_plus; reflexivity).
  rewrite H52 in *. pose proof uu_small as Hu. pose proof (plus_err (B2R s) (B2R x) (fmt_B2R s) (fmt_B2R x)) as Hp. pose proof (pos_INR j) as Hj0. rewrite plus_INR in *. cbn [INR] in *.
  apply Rabs_le_inv in HS. set (J := INR j) in *. set (u := uu) in *. assert (Hsx : 0 <= B2R s + B2R x) by nra.
  rewrite (Rabs_right (B2R s + B2R x)) in Hp by lra.
  assert (E1 : B2R s + B2R x <= 2 * (T + B2R x)) by nra.
  assert (Bnd : Rabs (rnd (B2R s + B2R x)) < bpow radix2 emax64).
  { apply Rle_lt_trans with (bpow radix2 700); [|apply bpow_lt; reflexivity]. apply rnd_le; [apply pow_format; lia|]. rewrite Rabs_right by lra.
    assert (Jb : J + 1 <= bpow radix2 52). { assert (Q1 : bpow radix2 52 * (2 * u) = 1) by (rewrite <- H52, <- bpow_plus; reflexivity). apply Rmult_le_reg_r with (2 * u); [lra|]. rewrite Q1. lra. }
    apply Rle_trans with (2 * ((J + 1) * B)); [nra|]. apply Rle_trans with (bpow radix2 1 * (bpow radix2 52 * bpow radix2 600)).
    - change (bpow radix2 1) with 2. apply Rmult_le_compat_l; [lra|]. apply Rmult_le_compat; lra.
    - rewrite <- !bpow_plus. apply bpow_le. lia. }
  pose proof (Bplus_correct prec64 emax64 _ _ mode_NE s x Fs Fx) as HA. fold (b64_add s x) in HA. rewrite Rlt_bool_true in HA by exact Bnd. destruct HA as (V & F & _).
  split; [exact F|]. rewrite V. apply Rabs_le_inv in Hp. apply Rabs_le.
  assert (Ju : J * (2 * u) * u * T <= u * T). { assert (J * (2 * u) <= 1) by lra. assert (0 <= u * T) by nra. nra. }
  assert (B2R s <= T + J * (2 * u) * T) by lra. assert (u * (B2R s + B2R x) <= u * (T + J * (2 * u) * T + B2R x)) by (apply Rmult_le_compat_l; lra).
  assert (0 <= J * (2 * u) * B2R x) by (repeat apply Rmult_le_pos; lra).
  assert (0 <= u * B2R x) by nra. split; nra.
Qed.

Lemma path_near (dF : Z * Z -> b64) (dR : Z * Z -> R) al B e a n c p : wpath al c p -> (forall c, In c p -> cell_near B e a (dF c) (dR c)) -> 0 <= B <= bpow radix2 600 -> 0 <= e -> 0 <= a ->
  (length p <= n)%nat -> INR n * bpow radix2 (-52) <= / 2 ->
  let S := sum_along B64Num dF p in let X := sum_along RNum dR p in
  is_finite S = true /\ 0 <= X /\ exists T, 0 <= T <= INR (length p) * B /\ Rabs (B2R S - T) <= INR (length p) * bpow radix2 (-52) * T /\ Rabs (T - X) <= e * X + INR (length p) * a.
Proof.
  intros HP HC HB He Ha. revert HC. induction HP as [H|c p c' HP IH W A]; intros HC Hn Hnu; cbv zeta in *.
  - destruct (HC (0, 0)%Z ltac:(left; reflexivity)) as (F & [P1 P2] & P3 & P4). cbn [sum_along fold_left length INR]. split; [exact F|]. split; [exact P3|].
    exists (B2R (dF (0, 0)%Z)). split; [lra|]. split; [|lra]. replace (B2R (dF (0, 0)%Z) - B2R (dF (0, 0)%Z)) with 0 by ring. rewrite Rabs_R0. pose proof (bpow_ge_0 radix2 (-52)). nra.
  - rewrite app_length in *. cbn [length] in *. assert (Hne : p <> []) by (eapply wpath_ne; eauto).
    destruct IH as (F & X0 & T & [T0 T1] & S1 & S2); [intros x Hx; apply HC; apply in_or_app; left; exact Hx|lia|exact Hnu|].
    rewrite !along_snoc by exact Hne. cbn [nadd B64Num RNum]. destruct (HC c' ltac:(apply in_or_app; right; left; reflexivity)) as (Fc & Bc & Rc & Ec).
    assert (Hl : INR (length p + 1) * bpow radix2 (-52) <= / 2).
    { apply Rle_trans with (2 := Hnu). apply Rmult_le_compat_r; [apply bpow_ge_0|]. apply le_INR. exact Hn. }
    destruct (add_near (sum_along B64Num dF p) (dF c') T B (length p) F Fc T0 Bc T1 ltac:(lra) Hl S1) as [F' E'].
    split; [exact F'|]. split; [lra|]. exists (T + B2R (dF c')). split; [rewrite plus_INR; cbn [INR]; split; [lra|nra]|]. split; [exact E'|].
    apply Rabs_le_inv in S2. apply Rabs_le_inv in Ec. rewrite plus_INR. cbn [INR]. apply Rabs_le. nra.
Qed.

Lemma path_near2 dF dR al B e a n c p : wpath al c p -> (forall c, In c p -> cell_near B e a (dF c) (dR c)) -> 0 <= B <= bpow radix2 600 -> 0 <= e <= 1 -> 0 <= a ->
  (length p <= n)%nat -> INR n * bpow radix2 (-52) <= / 2 ->
  let S := sum_along B64Num dF p in let X := sum_along RNum dR p in
  is_finite S = true /\ 0 <= X /\ Rabs (B2R S - X) <= (e + INR n * bpow radix2 (-51)) * X + 2 * INR n * a.
Proof.
  intros HP HC HB He Ha Hn Hnu S X. destruct (path_near dF dR al B e a n c p HP HC HB ltac:(lra) Ha Hn Hnu) as (F & X0 & T & T0 & S1 & S2). fold S X in F, X0, S1, S2.
  split; [exact F|]. split; [exact X0|]. assert (Hl : INR (length p) <= INR n) by (apply le_INR; exact Hn). pose proof (pos_INR (length p)) as Hp0.
  assert (H51 : bpow radix2 (-51) = 2 * bpow radix2 (-52)) by (change (-51)%Z with (1 + -52)%Z; rewrite bpow_plus; reflexivity). rewrite H51. pose proof (bpow_gt_0 radix2 (-52)) as Hg.
  set (g := bpow radix2 (-52)) in *. set (l := INR (length p)) in *. set (m := INR n) in *. clearbody g l m.
  apply Rabs_le_inv in S1. apply Rabs_le_inv in S2.
  assert (L1 : l * a <= m * a) by nra. assert (G1 : l * g <= m * g) by nra.
  assert (T2 : T <= 2 * X + m * a) by nra. assert (G2 : l * g * T <= m * g * T) by nra. assert (0 <= m * g) by nra.
  assert (G3 : m * g * T <= m * g * (2 * X + m * a)) by nra. assert (0 <= m * a) by nra. assert (G4 : m * g * (m * a) <= m * a) by nra.
  apply Rabs_le. split; nra.
Qed.

(** ** The minimum over the paths *)
Lemma least_near {P} (dF : P -> P -> b64) (dR : P -> P -> R) (s1 s2 : list P) al (B e a : R) (n : nat) v D : s1 <> [] -> s2 <> [] ->
  (forall p q, In p s1 -> In q s2 -> cell_near B e a (dF p q) (dR p q)) -> 0 <= B <= bpow radix2 600 -> 0 <= e <= 1 -> 0 <= a ->
  (length s1 + length s2 <= n)%nat -> e + INR n * bpow radix2 (-51) <= 1 ->
  least_warping B64Num dF s1 s2 al v -> least_warping RNum dR s1 s2 al D ->
  is_finite v = true /\ 0 <= D /\ Rabs (B2R v - D) <= (e + INR n * bpow radix2 (-51)) * D + 2 * INR n * a.
Proof.
  intros E1 E2 HC HB He Ha Hn Hnu HF HR. destruct s1 as [|p0 s1']; [congruence|]. set (s1 := p0 :: s1') in *. destruct (HF p0) as [(p & Hp & Vp) LF]. destruct (HR p0) as [(q & Hq & Vq) LR].
  assert (Hu : INR n * bpow radix2 (-52) <= / 2).
  { assert (H51 : bpow radix2 (-51) = 2 * bpow radix2 (-52)) by (change (-51)%Z with (1 + -52)%Z; rewrite bpow_plus; reflexivity). rewrite H51 in Hnu. lra. }
  assert (K : forall p, wpath al (last_cell s1 s2) p -> is_finite (sum_along B64Num (at_cell dF p0 s1 s2) p) = true /\ 0 <= sum_along RNum (at_cell dR p0 s1 s2) p /\
    Rabs (B2R (sum_along B64Num (at_cell dF p0 s1 s2) p) - sum_along RNum (at_cell dR p0 s1 s2) p) <= (e + INR n * bpow radix2 (-51)) * sum_along RNum (at_cell dR p0 s1 s2) p + 2 * INR n * a).
  { intros r Hr. apply (path_near2 _ _ al B e a n (last_cell s1 s2) r Hr); try assumption.
    - intros c Hc. pose proof (wpath_range al _ _ Hr) as Rr. rewrite Forall_forall in Rr. specialize (Rr c Hc). unfold last_cell in Rr. cbn [fst snd] in Rr.
      apply HC; apply nth_In; lia.
    - pose proof (wpath_length al _ _ Hr) as Lr. unfold last_cell in Lr. cbn [fst snd] in Lr. lia. }
  destruct (K p Hp) as (F1 & X1 & N1). destruct (K q Hq) as (F2 & X2 & N2). rewrite Vp in F1, N1. rewrite Vq in X2, N2. split; [exact F1|]. split; [exact X2|].
  pose proof (leb_finite _ _ F1 F2 (LF q Hq)) as Q1. pose proof (LR p Hp) as Q2. cbn [nleb RNum] in Q2. apply Rleb_true in Q2.
  set (r := e + INR n * bpow radix2 (-51)) in *. set (h := 2 * INR n * a) in *. set (X := sum_along RNum (at_cell dR p0 s1 s2) p) in *.
  apply Rabs_le_inv in N1. apply Rabs_le_inv in N2. apply Rabs_le. split; [|lra]. assert ((1 - r) * D <= (1 - r) * X) by nra. nra.
Qed.

(** ** Euclidean points *)
Lemma sqdist_box k d (p q : list b64) : box_vec k d p -> box_vec k d q -> 0 <= sqdist (reals p) (reals q) <= INR d * bpow radix2 (2 * k + 2).
Proof.
  revert d q. induction p as [|x p IH]; intros d q [L1 B1] [L2 B2].
  - cbn. cbn in L1. subst d. cbn [INR]. lra.
  - destruct q as [|y q]; [cbn in L1, L2; congruence|]. destruct d as [|d]; [discriminate L1|]. injection L1 as L1. injection L2 as L2.
    inversion B1 as [|? ? [X1 X2] Y1]; subst. inversion B2 as [|? ? [X3 X4] Y2]; subst. cbn [reals map]. fold (reals p) (reals q). rewrite sqdist_cons.
    destruct (IH (length p) q (conj eq_refl Y1) (conj L2 Y2)) as [I1 I2]. rewrite S_INR. rewrite !pow2_bpow in *.
    assert (Q : (B2R x - B2R y) * (B2R x - B2R y) <= bpow radix2 (2 * k + 2)).
    { replace (2 * k + 2)%Z with ((k + 1) + (k + 1))%Z by lia. rewrite (bpow_plus radix2 (k + 1)). rewrite (bpow_plus radix2 k). change (bpow radix2 1) with 2.
      apply Rabs_le_inv in X2. apply Rabs_le_inv in X4. set (b := bpow radix2 k) in *. assert (- (b * 2) <= B2R x - B2R y <= b * 2) by lra. nra. }
    assert (0 <= (B2R x - B2R y) * (B2R x - B2R y)) by apply Rle_0_sqr. lra.
Qed.

Lemma box_finite k d s : Forall (box_vec k d) s -> finite_series d s.
Proof. intros H. eapply Forall_impl; [|exact H]. intros p [L B]. split; [exact L|]. eapply Forall_impl; [|exact B]. intros x Hx. apply Hx. Qed.
Lemma nneg_B2R (x : b64) : nneg64 x -> is_finite x = true -> 0 <= B2R x.
Proof. intros [_ H] F. destruct x as [s|s| |s m e H']; cbn in H, F |- *; try discriminate F; try lra. subst s. cbn. apply F2R_ge_0. cbn. lia. Qed.

Lemma point_near k d (p q : list b64) : (-500 <= k <= 480)%Z -> (Z.of_nat d <= 2 ^ 47)%Z -> box_vec k d p -> box_vec k d q ->
  cell_near (bpow radix2 600) (rel_err d) (abs_err d) (edist64 p q) (exact_dist p q).
Proof.
  intros Hk Hd Hp Hq. destruct (dist_main k d p q Hk Hd Hp Hq) as (D & HD & FD & ED).
  assert (Ee : edist64 p q = D) by (unfold edist64; rewrite HD; reflexivity).
  destruct (edist64_ok d [p] [q] p q) as (HN & _); [apply (box_finite k); constructor; [exact Hp|constructor]|apply (box_finite k); constructor; [exact Hq|constructor]|left; reflexivity|left; reflexivity|].
  rewrite Ee in *. pose proof (nneg_B2R D HN FD) as D0. assert (X0 : 0 <= exact_dist p q) by apply sqrt_pos. split; [exact FD|]. split; [split; [exact D0|]|split; [exact X0|exact ED]].
  destruct (sqdist_box k d p q Hp Hq) as [S0 S1]. destruct (rel_small d Hd) as [_ Hr]. pose proof (abs_pos d) as Ha.
  assert (Hiz : INR d <= bpow radix2 47) by (rewrite INR_IZR_INZ; change (bpow radix2 47) with (IZR (2 ^ 47)); apply IZR_le; exact Hd). pose proof (pos_INR d) as Hd0.
  assert (X1 : exact_dist p q <= bpow radix2 506).
  { unfold exact_dist. rewrite <- (sqrt_square (bpow radix2 506)) by apply bpow_ge_0. apply sqrt_le_1_alt. apply (Rle_trans _ _ _ S1). apply Rle_trans with (bpow radix2 47 * bpow radix2 962).
    - apply Rmult_le_compat; [exact Hd0|apply bpow_ge_0|exact Hiz|apply bpow_le; lia].
    - rewrite <- !bpow_plus. apply bpow_le. lia. }
  assert (A1 : abs_err d <= bpow radix2 506).
  { unfold abs_err. rewrite pow2_bpow. apply Rle_trans with (bpow radix2 47 * bpow radix2 (-536)); [apply Rmult_le_compat_r; [apply bpow_ge_0|exact Hiz]|]. rewrite <- bpow_plus. apply bpow_le. lia. }
  apply Rle_trans with (bpow radix2 2 * bpow radix2 506); [|rewrite <- bpow_plus; apply bpow_le; lia]. change (bpow radix2 2) with 4. apply Rabs_le_inv in ED.
  assert (0 <= rel_err d) by (unfold rel_err; rewrite pow2_bpow; apply Rmult_le_pos; [lra|apply bpow_ge_0]). nra.
Qed.

(** ** The statements of C113 *)
Lemma shrunk_box k d a b window t1 t2 : (-1074 <= k <= 970)%Z -> series (box_vec k d) (2 ^ 45) a -> series (box_vec k d) (2 ^ 45) b -> (0 < window)%Z ->
  shrink_longest (scombine (euclid_space B64Num)) a b window = Ok (t1, t2) -> Forall (box_vec k d) t1 /\ Forall (box_vec k d) t2.
Proof.
  intros Hk (A1 & A2 & A3) (B1 & B2 & B3) Hw H. unfold shrink_longest in H.
  assert (HQ : forall a wa b wb, box_vec k d a -> box_vec k d b -> (0 < wa)%Z -> (0 < wb)%Z -> (wa + wb <= 2 ^ 53 - 1)%Z -> box_vec k d (scombine (euclid_space B64Num) a wa b wb)).
  { intros x wa y wb Hx Hy W1 W2 W3. apply box_combine; auto. lia. }
  assert (La := slen_pos a A1). assert (Lb := slen_pos b B1).
  destruct (Z.ltb_spec 0 window); cbn [andb] in H; [|lia]. destruct (Z.ltb_spec (slen b + window) (slen a)).
  - destruct (resize_ok (scombine (euclid_space B64Num)) a (slen b + window)) as (r & Hr & _); [lia|lia|]. rewrite Hr in H. cbn [obind] in H. rewrite points_map in H. cbn [obind] in H. injection H as <- <-.
    split; [|exact B3]. apply (resize_bounded (scombine (euclid_space B64Num)) (box_vec k d) (2 ^ 53 - 1) HQ a (slen b + window)); try assumption; try lia. unfold slen in *. lia.
  - destruct (Z.ltb_spec (slen a + window) (slen b)).
    + destruct (resize_ok (scombine (euclid_space B64Num)) b (slen a + window)) as (r & Hr & _); [lia|lia|]. rewrite Hr in H. cbn [obind] in H. rewrite points_map in H. cbn [obind] in H. injection H as <- <-.
      split; [exact A3|]. apply (resize_bounded (scombine (euclid_space B64Num)) (box_vec k d) (2 ^ 53 - 1) HQ b (slen a + window)); try assumption; try lia. unfold slen in *. lia.
    + injection H as <- <-. auto.
Qed.

Lemma rels d L : (Z.of_nat d <= 2 ^ 47)%Z -> (Z.of_nat L <= 2 ^ 45)%Z -> 0 < rel_err d <= / 31 /\ 0 <= INR (2 * L) * bpow radix2 (-51) <= / 32 /\
  dtw_rel d L = rel_err d + INR (2 * L) * bpow radix2 (-51) /\ dtw_abs d L = 2 * INR (2 * L) * abs_err d.
Proof.
  intros Hd HL. destruct (rel_small d Hd) as [Hr0 Hr]. rewrite pow2_bpow in Hr0. pose proof (bpow_gt_0 radix2 (-50)). split; [lra|]. rewrite mult_INR. change (INR 2) with 2.
  assert (H51 : bpow radix2 (-50) = 2 * bpow radix2 (-51)) by (change (-50)%Z with (1 + -51)%Z; rewrite bpow_plus; reflexivity).
  assert (Hiz : INR L <= bpow radix2 45) by (rewrite INR_IZR_INZ; change (bpow radix2 45) with (IZR (2 ^ 45)); apply IZR_le; exact HL). pose proof (pos_INR L).
  split; [|split; [unfold dtw_rel; rewrite pow2_bpow, H51; ring|unfold dtw_abs; ring]]. pose proof (bpow_gt_0 radix2 (-51)). split; [nra|].
  apply Rle_trans with (bpow radix2 1 * bpow radix2 45 * bpow radix2 (-51)); [change (bpow radix2 1) with 2; nra|]. rewrite <- !bpow_plus. change (/ 32) with (bpow radix2 (-5)). apply bpow_le. lia.
Qed.

Lemma dtw_accurate : forall k d L window (a b : list (list b64)), (-500 <= k <= 480)%Z -> (Z.of_nat d <= 2 ^ 47)%Z -> (Z.of_nat L <= 2 ^ 45)%Z -> (0 < window)%Z ->
  series (box_vec k d) (Z.of_nat L) a -> series (box_vec k d) (Z.of_nat L) b ->
  exists v, dtw_dist B64Num b64_inf edist64 (scombine (euclid_space B64Num)) window a b = Ok v /\ is_finite v = true /\ 0 <= B2R v /\ (exists D, exact_dtw window a b D) /\
    forall D, exact_dtw window a b D -> 0 <= D /\ Rabs (B2R v - D) <= dtw_rel d L * D + dtw_abs d L.
Proof.
  intros k d L window a b Hk Hd HL Hw Sa Sb. pose proof Sa as (A1 & A2 & A3). pose proof Sb as (B1 & B2 & B3).
  assert (La := slen_pos a A1). assert (Lb := slen_pos b B1).
  destruct (shrink_longest_ok (scombine (euclid_space B64Num)) a b window La Lb) as (t1 & t2 & Hsh & L1 & L2 & _ & Hdiff & T1 & T2 & T3 & T4 & T5).
  destruct (shrunk_box k d a b window t1 t2 ltac:(lia)) as [X1 X2]; [split; [exact A1|split; [lia|exact A3]]|split; [exact B1|split; [lia|exact B3]]|exact Hw|exact Hsh|].
  assert (E1 : t1 <> []) by (intros ->; cbn in L1; lia). assert (E2 : t2 <> []) by (intros ->; cbn in L2; lia).
  assert (Hnn : forall p q, In p t1 -> In q t2 -> nneg64 (edist64 p q)).
  { intros p q Hp Hq. apply (edist64_ok d t1 t2); auto; eapply box_finite; eauto. }
  destruct (dist_is_least _ edist64 t1 t2 window Hnn E1 E2 Hw ltac:(auto)) as (dd & D1 & D2).
  destruct (dist_is_least_exact _ exact_dist t1 t2 window ltac:(intros; apply sqrt_pos) E1 E2 Hw ltac:(auto)) as (de & D & _ & _ & D3).
  destruct (rels d L Hd HL) as (R1 & R2 & R3 & R4). pose proof (abs_pos d) as Ha.
  assert (Hlen : (length t1 + length t2 <= 2 * L)%nat).
  { unfold slen in *. destruct (Z_le_gt_dec (Z.of_nat (length a)) (Z.of_nat (length b))).
    - rewrite (T1 ltac:(lia)) in *. destruct (Z_le_gt_dec (Z.of_nat (length b)) (Z.of_nat (length a) + window)); [destruct T5 as [_ ->]; lia|]. specialize (T4 Hw ltac:(lia)). lia.
    - rewrite (T2 ltac:(lia)) in *. destruct (Z_le_gt_dec (Z.of_nat (length a)) (Z.of_nat (length b) + window)); [destruct T5 as [-> _]; lia|]. specialize (T3 Hw ltac:(lia)). lia. }
  assert (K : forall D, least_warping RNum exact_dist t1 t2 (within window) D -> is_finite (d_dist dd) = true /\ 0 <= D /\ Rabs (B2R (d_dist dd) - D) <= dtw_rel d L * D + dtw_abs d L).
  { intros D' HD'. rewrite R3, R4. apply (least_near edist64 exact_dist t1 t2 (within window) (bpow radix2 600)); try assumption; try lra.
    - intros p q Hp Hq. rewrite Forall_forall in X1, X2. apply (point_near k); auto.
    - split; [apply bpow_ge_0|lra]. }
  exists (d_dist dd). unfold dtw_dist. rewrite Hsh. cbn [obind fst snd]. rewrite D1. cbn [obind]. split; [reflexivity|]. destruct (K D D3) as (F & _ & _). split; [exact F|]. split.
  - apply nneg_B2R; [|exact F]. destruct (dist_window _ edist64 (scombine (euclid_space B64Num)) a b t1 t2 window A1 B1 Hw Hsh) as (v & V1 & _ & V2).
    { intros p q Hp Hq. destruct (edist64_ok d t1 t2 p q) as (Z1 & Z2 & _); auto; eapply box_finite; eauto. }
    unfold dtw_dist in V1. rewrite Hsh in V1. cbn [obind fst snd] in V1. rewrite D1 in V1. injection V1 as <-. exact V2.
  - split; [exists D; exists t1, t2; auto|]. intros D' (u1 & u2 & Hu & _ & HD'). rewrite Hsh in Hu. injection Hu as <- <-. destruct (K D' HD') as (_ & P1 & P2). auto.
Qed.

Lemma dtw_nearest : forall k d L window (c : list (list (list b64))) (x : list (list b64)), (-500 <= k <= 480)%Z -> (Z.of_nat d <= 2 ^ 47)%Z -> (Z.of_nat L <= 2 ^ 45)%Z -> (0 < window)%Z ->
  c <> [] -> Forall (series (box_vec k d) (Z.of_nat L)) c -> series (box_vec k d) (Z.of_nat L) x ->
  let Sp := dtw_space B64Num b64_inf edist64 (scombine (euclid_space B64Num)) window in
  exists l cl, assign B64Num Sp c x = Ok (Some cl, Z.of_nat l, sdist Sp x cl) /\ nth_error c l = Some cl /\
    forall y D D', In y c -> exact_dtw window x cl D -> exact_dtw window x y D' -> D <= (1 + 3 * dtw_rel d L) * D' + 3 * dtw_abs d L.
Proof.
  intros k d L window c x Hk Hd HL Hw Hc HC Hx Sp. rewrite Forall_forall in HC.
  assert (K : forall y, In y c -> is_finite (sdist Sp x y) = true /\ 0 <= B2R (sdist Sp x y) /\ forall D, exact_dtw window x y D -> 0 <= D /\ Rabs (B2R (sdist Sp x y) - D) <= dtw_rel d L * D + dtw_abs d L).
  { intros y Hy. destruct (dtw_accurate k d L window x y Hk Hd HL Hw Hx (HC y Hy)) as (v & V1 & V2 & V3 & _ & V4). unfold Sp. cbn [sdist dtw_space]. rewrite V1. auto. }
  destruct (assign_float64 _ Sp c x Hc) as (l & cl & HA & Hl & Hb & _).
  { intros y Hy. destruct (K y Hy) as (F & P & _). split; [unfold not_nan64; destruct (sdist Sp x y); (discriminate F || reflexivity)|].
    unfold b64_leb. rewrite (Bleb_correct prec64 emax64 (b64_of_Z 0) (sdist Sp x y) eq_refl F). apply Rle_bool_true. replace (B2R (b64_of_Z 0)) with 0; [exact P|]. symmetry. apply (ConfProofs.b64_of_Z_exact 0). lia. }
  exists l, cl. split; [exact HA|]. split; [exact Hl|]. intros y D D' Hy HD HD'. destruct (K cl (nth_error_In c l Hl)) as (F1 & _ & K1). destruct (K y Hy) as (F2 & _ & K2).
  destruct (K1 D HD) as [P1 N1]. destruct (K2 D' HD') as [P2 N2]. apply In_nth_error in Hy as [j Hj]. pose proof (leb_finite _ _ F1 F2 (Hb j y Hj)) as H.
  destruct (rels d L Hd HL) as (R1 & R2 & R3 & R4). pose proof (abs_pos d) as Ha. assert (0 <= dtw_abs d L) by (unfold dtw_abs; pose proof (pos_INR L); nra).
  assert (0 < dtw_rel d L <= / 15) by lra. set (r := dtw_rel d L) in *. set (h := dtw_abs d L) in *. apply Rabs_le_inv in N1. apply Rabs_le_inv in N2.
  assert (Q : (1 - r) * D <= (1 + r) * D' + 2 * h) by lra. apply (Rmult_le_reg_l (1 - r)); [lra|]. apply (Rle_trans _ _ _ Q).
  assert (Q' : 1 + r <= (1 - r) * (1 + 3 * r)) by nra. assert (2 * h <= (1 - r) * (3 * h)) by nra.
  assert ((1 + r) * D' <= (1 - r) * (1 + 3 * r) * D') by (apply Rmult_le_compat_r; assumption). lra.
Qed.
