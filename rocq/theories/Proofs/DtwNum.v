(** Float64 and exact arithmetic satisfy what the DTW computation needs. *)
From Coq Require Import List ZArith Lia Bool Reals Lra.
From Flocq Require Import Core IEEE754.BinarySingleNaN.
From Verif Require Import Base.Go Base.Num Proofs.NumLaws Proofs.EuclidFloat Spec.DtwSpec Proofs.DtwProofs.
Local Open Scope R_scope.

#[local] Existing Instance prec64_gt_0.
#[local] Existing Instance prec64_lt_emax.

Lemma inf_or_finite (x : b64) : nneg64 x -> is_finite x = true \/ x = b64_inf.
Proof.
  intros [Hn Hs]. destruct x as [s|s| |s m e p]; cbn in *; try discriminate; auto.
  subst s. right. reflexivity.
Qed.

Lemma add_key (x d : b64) : nneg64 x -> nneg64 d -> is_finite x = true -> is_finite d = true ->
  key64 (b64_add x d) = Rmin (rnd (B2R x + B2R d)) (bpow radix2 emax64).
Proof.
  intros Hx Hd Fx Fd.
  pose proof (nonneg_R x Hx Fx) as Px. pose proof (nonneg_R d Hd Fd) as Pd.
  assert (Hr : 0 <= rnd (B2R x + B2R d)).
  { rewrite <- (round_0 radix2 (SpecFloat.fexp prec64 emax64) (round_mode mode_NE)). apply round_le.
    - apply FLT_exp_valid. reflexivity.
    - apply valid_rnd_round_mode.
    - lra. }
  pose proof (Bplus_correct prec64 emax64 _ _ mode_NE x d Fx Fd) as H. fold (b64_add x d) in H.
  rewrite Rabs_pos_eq in H by exact Hr.
  destruct (Rlt_bool_spec (rnd (B2R x + B2R d)) (bpow radix2 emax64)) as [Hlt|Hge].
  - destruct H as (H1 & H2 & _). rewrite finite_key64 by exact H2. rewrite H1, Rmin_left by lra. reflexivity.
  - destruct H as [H _]. rewrite overflow_NE in H. apply B2SF_inf in H. rewrite H. destruct Hx as [_ ->].
    rewrite Rmin_right by lra. reflexivity.
Qed.

Lemma add_inf_l (d : b64) : nneg64 d -> b64_add b64_inf d = b64_inf.
Proof. intros [Hn Hs]. destruct d as [s|s| |s m e p]; cbn in *; try discriminate; try reflexivity. subst s. reflexivity. Qed.
Lemma add_inf_r (d : b64) : nneg64 d -> b64_add d b64_inf = b64_inf.
Proof. intros [Hn Hs]. destruct d as [s|s| |s m e p]; cbn in *; try discriminate; try reflexivity. subst s. reflexivity. Qed.

Lemma key_le_inf (x : b64) : nneg64 x -> key64 x <= bpow radix2 emax64.
Proof.
  intros Hx. destruct (inf_or_finite x Hx) as [F| ->]; [|cbn; lra].
  rewrite finite_key64 by exact F. pose proof (finite_bound64 x F). lra.
Qed.

Lemma leb_iff x y : nneg64 x -> nneg64 y -> (b64_leb x y = true <-> key64 x <= key64 y).
Proof. intros [Hx _] [Hy _]. rewrite b64_leb_key by assumption. apply Rle_bool_iff. Qed.

Lemma B64CostNum : CostNum B64Num b64_inf nneg64.
Proof.
  constructor; cbn [nof nadd nleb B64Num].
  - split; reflexivity.
  - split; reflexivity.
  - exact add_nonneg.
  - exact nonneg_leb.
  - intros x Hx. apply leb_iff; [exact Hx|split; reflexivity|]. apply (key_le_inf x Hx).
  - intros x y [Hx _] [Hy _]. apply (leb_total _ _ B64NumOrd); assumption.
  - intros x y z [Hx _] [Hy _] [Hz _]. apply (leb_trans _ _ B64NumOrd); assumption.
  - intros x y Hx Hy. rewrite !leb_iff by assumption. intros H1 H2. assert (E : key64 x = key64 y) by lra. clear H1 H2.
    destruct (inf_or_finite x Hx) as [Fx| ->], (inf_or_finite y Hy) as [Fy| ->].
    + rewrite !finite_key64 in E by assumption. apply B2R_Bsign_inj; try assumption.
      destruct Hx as [_ ->], Hy as [_ ->]. reflexivity.
    + rewrite finite_key64 in E by assumption. pose proof (finite_bound64 x Fx). cbn in E, H. lra.
    + rewrite (finite_key64 y) in E by assumption. pose proof (finite_bound64 y Fy). cbn in E, H. lra.
    + reflexivity.
  - intros x y d Hx Hy Hd. pose proof (add_nonneg x d Hx Hd) as Sx. pose proof (add_nonneg y d Hy Hd) as Sy.
    change (nneg64 (b64_add x d)) in Sx. change (nneg64 (b64_add y d)) in Sy.
    rewrite !leb_iff by assumption. intros Hle.
    destruct (inf_or_finite d Hd) as [Fd|Ed]; [|subst d; rewrite !add_inf_r by assumption; lra].
    destruct (inf_or_finite y Hy) as [Fy|Ey].
    + destruct (inf_or_finite x Hx) as [Fx|Ex].
      * rewrite !add_key by assumption. rewrite !finite_key64 in Hle by assumption.
        apply Rle_min_compat_r. apply round_le; [apply FLT_exp_valid; reflexivity|apply valid_rnd_round_mode|lra].
      * subst x. rewrite (finite_key64 y) in Hle by assumption. pose proof (finite_bound64 y Fy).
        cbn [key64 b64_inf] in Hle. lra.
    + subst y. rewrite (add_inf_l d Hd). apply key_le_inf. exact Sx.
  - reflexivity.
Qed.

Lemma ECostNum : CostNum ENum None enneg.
Proof.
  constructor; cbn [nof nadd nleb ENum].
  - exact I.
  - cbn. lra.
  - intros [x|] [y|] Hx Hy; cbn in *; try exact I. lra.
  - intros [x|] Hx; cbn in *; [|reflexivity]. apply Rleb_true. exact Hx.
  - intros [x|] _; reflexivity.
  - intros [x|] [y|] _ _; cbn; auto. rewrite !Rleb_true. lra.
  - intros [x|] [y|] [z|] _ _ _; cbn; try discriminate; auto. rewrite !Rleb_true. lra.
  - intros [x|] [y|] _ _; cbn; try discriminate; auto. rewrite !Rleb_true. intros. f_equal. lra.
  - intros [x|] [y|] [d|] _ _ _; cbn; try discriminate; auto. rewrite !Rleb_true. lra.
  - cbn. f_equal. lra.
Qed.
