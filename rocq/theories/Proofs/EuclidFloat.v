(** Euclidean distance in IEEE binary64 (C12). *)
From Coq Require Import List ZArith Lia Bool Reals Lra Psatz.
From Flocq Require Import Core IEEE754.BinarySingleNaN.
From Verif Require Import Base.Go Base.Num Model.Clustering Model.Euclid Proofs.GoLemmas Proofs.NumLaws.
Import ListNotations.
Local Open Scope R_scope.

Definition nonneg64 (x : b64) : Prop := not_nan64 x /\ Bsign x = false.

#[local] Existing Instance prec64_gt_0.
#[local] Existing Instance prec64_lt_emax.
Notation rnd := (round radix2 (SpecFloat.fexp prec64 emax64) (round_mode mode_NE)).

Lemma overflow_NE s : binary_overflow prec64 emax64 mode_NE s = SpecFloat.S754_infinity s.
Proof. reflexivity. Qed.

Lemma B2SF_inf (x : b64) s : B2SF x = SpecFloat.S754_infinity s -> x = B754_infinity s.
Proof. destruct x; cbn; intros H; try discriminate. injection H as ->. reflexivity. Qed.

(** Cases of a product. *)
Lemma mul_cases (x y : b64) : is_finite x = true -> is_finite y = true ->
  (Rabs (rnd (B2R x * B2R y)) < bpow radix2 emax64 /\
   B2R (b64_mul x y) = rnd (B2R x * B2R y) /\ is_finite (b64_mul x y) = true /\
   Bsign (b64_mul x y) = xorb (Bsign x) (Bsign y)) \/
  (bpow radix2 emax64 <= Rabs (rnd (B2R x * B2R y)) /\ b64_mul x y = B754_infinity (xorb (Bsign x) (Bsign y))).
Proof.
  intros Hx Hy. pose proof (Bmult_correct prec64 emax64 _ _ mode_NE x y) as H. fold (b64_mul x y) in H.
  destruct (Rlt_bool_spec (Rabs (rnd (B2R x * B2R y))) (bpow radix2 emax64)) as [Hlt|Hge].
  - left. destruct H as (H1 & H2 & H3). rewrite Hx, Hy in H2. cbn in H2.
    split; [exact Hlt|]. split; [exact H1|]. split; [exact H2|]. apply H3.
    destruct (b64_mul x y); cbn in *; congruence.
  - right. split; [exact Hge|]. apply B2SF_inf. exact H.
Qed.

Lemma sub_cases (x y : b64) : is_finite x = true -> is_finite y = true ->
  (Rabs (rnd (B2R x - B2R y)) < bpow radix2 emax64 /\
   B2R (b64_sub x y) = rnd (B2R x - B2R y) /\ is_finite (b64_sub x y) = true) \/
  (bpow radix2 emax64 <= Rabs (rnd (B2R x - B2R y)) /\ exists s, b64_sub x y = B754_infinity s).
Proof.
  intros Hx Hy. pose proof (Bminus_correct prec64 emax64 _ _ mode_NE x y Hx Hy) as H. fold (b64_sub x y) in H.
  destruct (Rlt_bool_spec (Rabs (rnd (B2R x - B2R y))) (bpow radix2 emax64)) as [Hlt|Hge].
  - left. destruct H as (H1 & H2 & H3). auto.
  - right. split; [exact Hge|]. destruct H as [H _]. exists (Bsign x). apply B2SF_inf. exact H.
Qed.

(** The square of a finite or infinite value. *)
Lemma square_nonneg (v : b64) : is_nan v = false -> nonneg64 (b64_mul v v).
Proof.
  intros Hv. destruct (is_finite v) eqn:Hf.
  - destruct (mul_cases v v Hf Hf) as [(H1 & H2 & H3 & H4)|[_ H]].
    + split; [|rewrite H4; apply xorb_nilpotent]. unfold not_nan64. destruct (b64_mul v v); cbn in *; congruence.
    + rewrite H. split; [reflexivity|]. cbn. apply xorb_nilpotent.
  - destruct v as [s|s| |s m e p]; cbn in *; try discriminate. destruct s; split; reflexivity.
Qed.

Lemma square_eq (v w : b64) : is_finite v = true -> is_finite w = true -> B2R w = - B2R v ->
  b64_mul v v = b64_mul w w.
Proof.
  intros Hv Hw H.
  assert (Hp : B2R w * B2R w = B2R v * B2R v) by (rewrite H; ring).
  destruct (mul_cases v v Hv Hv) as [(H1 & H2 & H3 & H4)|[H1 H2]];
  destruct (mul_cases w w Hw Hw) as [(G1 & G2 & G3 & G4)|[G1 G2]]; rewrite Hp in *; try lra.
  - apply B2R_Bsign_inj; [assumption|assumption|congruence|]. rewrite H4, G4, !xorb_nilpotent. reflexivity.
  - rewrite H2, G2, !xorb_nilpotent. reflexivity.
Qed.

Lemma sub_not_nan (x y : b64) : is_finite x = true -> is_finite y = true -> is_nan (b64_sub x y) = false.
Proof.
  intros Hx Hy. destruct (sub_cases x y Hx Hy) as [(_ & _ & H)|[_ [s ->]]]; [|reflexivity].
  destruct (b64_sub x y); cbn in *; congruence.
Qed.

Lemma sqdiff_sym (x y : b64) : is_finite x = true -> is_finite y = true ->
  b64_mul (b64_sub x y) (b64_sub x y) = b64_mul (b64_sub y x) (b64_sub y x).
Proof.
  intros Hx Hy.
  assert (Hr : rnd (B2R y - B2R x) = - rnd (B2R x - B2R y)).
  { replace (B2R y - B2R x) with (- (B2R x - B2R y)) by ring. apply round_NE_opp. }
  destruct (sub_cases x y Hx Hy) as [(H1 & H2 & H3)|[H1 [s H2]]];
  destruct (sub_cases y x Hy Hx) as [(G1 & G2 & G3)|[G1 [t G2]]]; rewrite Hr in *; rewrite ?Rabs_Ropp in *; try lra.
  - apply square_eq; [assumption|assumption|]. rewrite H2, G2. reflexivity.
  - rewrite H2, G2. destruct s, t; reflexivity.
Qed.

Lemma nonneg_R (x : b64) : nonneg64 x -> is_finite x = true -> 0 <= B2R x.
Proof.
  intros [_ Hs] Hf. destruct x as [s|s| |s m e p]; cbn in *; try discriminate; try lra.
  subst s. apply F2R_ge_0. cbn. lia.
Qed.

Lemma add_nonneg (x y : b64) : nonneg64 x -> nonneg64 y -> nonneg64 (b64_add x y).
Proof.
  intros Hx Hy. destruct (is_finite x) eqn:Fx, (is_finite y) eqn:Fy.
  - pose proof (Bplus_correct prec64 emax64 _ _ mode_NE x y Fx Fy) as H. fold (b64_add x y) in H.
    pose proof (nonneg_R x Hx Fx) as Px. pose proof (nonneg_R y Hy Fy) as Py.
    destruct (Rlt_bool_spec (Rabs (rnd (B2R x + B2R y))) (bpow radix2 emax64)) as [Hlt|Hge].
    + destruct H as (H1 & H2 & H3). split.
      * unfold not_nan64. destruct (b64_add x y); cbn in *; congruence.
      * rewrite H3. destruct Hx as [_ Sx], Hy as [_ Sy]. rewrite Sx, Sy.
        destruct (Rcompare_spec (B2R x + B2R y) 0); [lra|reflexivity|reflexivity].
    + destruct H as [H _]. rewrite overflow_NE in H. apply B2SF_inf in H. rewrite H. destruct Hx as [_ Sx]. rewrite Sx.
      split; reflexivity.
  - destruct Hy as [Ny Sy]. destruct y as [s|s| |s m e p]; cbn in *; try discriminate.
    subst s. destruct x as [s|s| |s m e p]; cbn in *; try discriminate; split; reflexivity.
  - destruct Hx as [Nx Sx]. destruct x as [s|s| |s m e p]; cbn in *; try discriminate.
    subst s. destruct y as [s|s| |s m e p]; cbn in *; try discriminate; split; reflexivity.
  - destruct Hx as [Nx Sx], Hy as [Ny Sy].
    destruct x as [s|s| |s m e p]; cbn in *; try discriminate.
    destruct y as [t|t| |t m e p]; cbn in *; try discriminate. subst. split; reflexivity.
Qed.

Lemma sqrt_nonneg (x : b64) : nonneg64 x -> nonneg64 (b64_sqrt x).
Proof.
  intros [Nx Sx]. pose proof (Bsqrt_correct prec64 emax64 _ _ mode_NE x) as H. fold (b64_sqrt x) in H.
  destruct H as (_ & H2 & H3).
  assert (Hn : is_nan (b64_sqrt x) = false).
  { destruct x as [s|s| |s m e p]; cbn [Bsign] in *; try discriminate; subst.
    - reflexivity.
    - reflexivity.
    - destruct (b64_sqrt (B754_finite false m e p)); cbn in *; congruence. }
  split; [exact Hn|]. rewrite (H3 Hn). exact Sx.
Qed.

Lemma zero_nonneg : nonneg64 (b64_of_Z 0).
Proof. split; reflexivity. Qed.

Definition finite_vec (v : list b64) : Prop := Forall (fun x => is_finite x = true) v.

Lemma sqsum_nonneg p1 : forall p2 s, finite_vec p1 -> finite_vec p2 -> (length p1 <= length p2)%nat -> nonneg64 s ->
  exists r, sqsum_loop B64Num p1 p2 s = Ok r /\ nonneg64 r.
Proof.
  induction p1 as [|x p1 IH]; intros [|y p2] s H1 H2 Hl Hs; cbn [sqsum_loop length] in *; try lia; eauto.
  inversion H1; subst. inversion H2; subst. apply IH; auto; [lia|].
  apply add_nonneg; [exact Hs|]. apply square_nonneg. apply sub_not_nan; assumption.
Qed.

Lemma sqsum_sym p1 : forall p2 s, finite_vec p1 -> finite_vec p2 -> length p1 = length p2 ->
  sqsum_loop B64Num p1 p2 s = sqsum_loop B64Num p2 p1 s.
Proof.
  induction p1 as [|x p1 IH]; intros [|y p2] s H1 H2 Hl; cbn [sqsum_loop length] in *; try discriminate; auto.
  inversion H1; subst. inversion H2; subst.
  cbn [nsub nmul nadd B64Num]. rewrite (sqdiff_sym x y) by assumption. apply IH; auto.
Qed.

Lemma sub_self_sq (x : b64) : is_finite x = true -> b64_mul (b64_sub x x) (b64_sub x x) = B754_zero false.
Proof.
  intros Hx. pose proof (Bminus_correct prec64 emax64 _ _ mode_NE x x Hx Hx) as H. fold (b64_sub x x) in H.
  replace (B2R x - B2R x) with 0 in H by ring. rewrite round_0 in H; [|apply valid_rnd_N].
  rewrite Rabs_R0, Rlt_bool_true in H by (apply bpow_gt_0). destruct H as (H1 & H2 & _).
  assert (Hz : exists s, b64_sub x x = B754_zero s).
  { destruct (b64_sub x x) as [s|s| |s m e p]; cbn in *; try discriminate; eauto.
    exfalso. apply (F2R_neq_0 radix2 (Float radix2 (SpecFloat.cond_Zopp s (Z.pos m)) e)); [|exact H1].
    cbn. destruct s; discriminate. }
  destruct Hz as [s ->]. destruct s; reflexivity.
Qed.

Lemma sqsum_self p : finite_vec p -> sqsum_loop B64Num p p (B754_zero false) = Ok (B754_zero false).
Proof.
  induction p as [|x p IH]; intros H; cbn [sqsum_loop]; [reflexivity|]. inversion H; subst.
  cbn [nsub nmul nadd B64Num]. rewrite sub_self_sq by assumption. apply IH. assumption.
Qed.

Lemma nonneg_leb (x : b64) : nonneg64 x -> b64_leb (b64_of_Z 0) x = true.
Proof.
  intros [Hn Hs]. destruct x as [s|s| |s m e p]; cbn [Bsign] in *; subst; try reflexivity. discriminate.
Qed.

Lemma euclid_float_main : forall p1 p2 : list b64,
  finite_vec p1 -> finite_vec p2 -> length p1 = length p2 ->
  exists d, point_dist B64Num p1 p2 = Ok d /\ point_dist B64Num p2 p1 = Ok d /\
    not_nan64 d /\ b64_leb (b64_of_Z 0) d = true /\
    point_dist B64Num p1 p1 = Ok (b64_of_Z 0).
Proof.
  intros p1 p2 H1 H2 Hl.
  destruct (sqsum_nonneg p1 p2 (b64_of_Z 0) H1 H2 ltac:(lia) zero_nonneg) as (r & Hr & Hn).
  exists (b64_sqrt r). unfold point_dist. cbn [nof B64Num].
  rewrite <- (sqsum_sym p1 p2) by assumption. rewrite Hr. cbn [obind nsqrt B64Num].
  split; [reflexivity|]. split; [reflexivity|]. pose proof (sqrt_nonneg r Hn) as Hs.
  split; [apply Hs|]. split; [apply nonneg_leb; exact Hs|].
  rewrite b64_zero, sqsum_self by assumption. reflexivity.
Qed.
