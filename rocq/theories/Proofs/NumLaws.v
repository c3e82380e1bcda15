(** Comparison laws of the two number systems. *)
From Coq Require Import ZArith Bool Reals Lra Lia.
From Flocq Require Import Core IEEE754.BinarySingleNaN.
From Verif Require Import Base.Num.

(** ** Reals *)
Lemma Rltb_true x y : Rltb x y = true <-> (x < y)%R.
Proof. unfold Rltb; destruct (Rlt_dec x y); split; intros; try discriminate; auto; contradiction. Qed.
Lemma Rltb_false x y : Rltb x y = false <-> (y <= x)%R.
Proof.
  unfold Rltb; destruct (Rlt_dec x y); split; intros; try discriminate; auto; lra.
Qed.
Lemma Rleb_true x y : Rleb x y = true <-> (x <= y)%R.
Proof. unfold Rleb; destruct (Rle_dec x y); split; intros; try discriminate; auto; contradiction. Qed.
Lemma Rleb_false x y : Rleb x y = false <-> (y < x)%R.
Proof. unfold Rleb; destruct (Rle_dec x y); split; intros; try discriminate; auto; lra. Qed.
Lemma Reqb_true x y : Reqb x y = true <-> x = y.
Proof. unfold Reqb; destruct (Req_EM_T x y); split; intros; try discriminate; auto; contradiction. Qed.
Lemma Reqb_false x y : Reqb x y = false <-> x <> y.
Proof. unfold Reqb; destruct (Req_EM_T x y); split; intros; try discriminate; auto; contradiction. Qed.

Lemma RNumOrd : NumOrd RNum (fun _ => True).
Proof.
  constructor; simpl; auto.
  - intros x y _ _. unfold Rltb, Rleb. destruct (Rlt_dec x y), (Rle_dec y x); simpl; auto; lra.
  - intros x _. apply Rleb_true; lra.
  - intros x y _ _. destruct (Rle_dec x y); [left|right]; apply Rleb_true; lra.
  - intros x y z _ _ _ H1 H2. rewrite Rleb_true in *. lra.
  - apply Rltb_true. lra.
Qed.

(** ** binary64 *)
Definition key64 (x : b64) : R :=
  match x with
  | B754_infinity false => bpow radix2 emax64
  | B754_infinity true => (- bpow radix2 emax64)%R
  | _ => B2R x
  end.

Lemma finite_key64 (x : b64) : is_finite x = true -> key64 x = B2R x.
Proof. destruct x as [s|[|]| |s m e H]; simpl; intros; try discriminate; reflexivity. Qed.

Lemma finite_bound64 (x : b64) :
  is_finite x = true -> (- bpow radix2 emax64 < B2R x < bpow radix2 emax64)%R.
Proof. intros _. apply Rabs_lt_inv. apply abs_B2R_lt_emax. Qed.

Lemma Rcompare_key (x y : b64) :
  not_nan64 x -> not_nan64 y -> Bcompare x y = Some (Rcompare (key64 x) (key64 y)).
Proof.
  unfold not_nan64. intros Hx Hy.
  assert (Hp : (0 < bpow radix2 emax64)%R) by apply bpow_gt_0.
  destruct (is_finite x) eqn:Fx, (is_finite y) eqn:Fy.
  - rewrite Bcompare_correct by assumption. rewrite !finite_key64 by assumption. reflexivity.
  - rewrite finite_key64 by assumption. pose proof (finite_bound64 x Fx) as Hb.
    destruct y as [sy|[|]| |sy my ey Hby]; try discriminate; cbn [key64].
    + rewrite Rcompare_Gt by lra. destruct x as [s|s| |[|] m e H]; try discriminate; reflexivity.
    + rewrite Rcompare_Lt by lra. destruct x as [s|s| |[|] m e H]; try discriminate; reflexivity.
  - rewrite (finite_key64 y) by assumption. pose proof (finite_bound64 y Fy) as Hb.
    destruct x as [sx|[|]| |sx mx ex Hbx]; try discriminate; cbn [key64].
    + rewrite Rcompare_Lt by lra. destruct y as [s|s| |[|] m e H]; try discriminate; reflexivity.
    + rewrite Rcompare_Gt by lra. destruct y as [s|s| |[|] m e H]; try discriminate; reflexivity.
  - destruct x as [sx|[|]| |sx mx ex Hbx]; try discriminate;
    destruct y as [sy|[|]| |sy my ey Hby]; try discriminate; cbn [key64].
    + rewrite Rcompare_Eq by reflexivity; reflexivity.
    + rewrite Rcompare_Lt by lra; reflexivity.
    + rewrite Rcompare_Gt by lra; reflexivity.
    + rewrite Rcompare_Eq by reflexivity; reflexivity.
Qed.

Lemma b64_ltb_key x y :
  not_nan64 x -> not_nan64 y -> b64_ltb x y = Rlt_bool (key64 x) (key64 y).
Proof.
  intros Hx Hy. unfold b64_ltb, Bltb, SpecFloat.SFltb.
  change (SpecFloat.SFcompare (B2SF x) (B2SF y)) with (Bcompare x y).
  rewrite Rcompare_key by assumption. unfold Rlt_bool. destruct Rcompare; reflexivity.
Qed.

Lemma b64_leb_key x y :
  not_nan64 x -> not_nan64 y -> b64_leb x y = Rle_bool (key64 x) (key64 y).
Proof.
  intros Hx Hy. unfold b64_leb, Bleb, SpecFloat.SFleb.
  change (SpecFloat.SFcompare (B2SF x) (B2SF y)) with (Bcompare x y).
  rewrite Rcompare_key by assumption. unfold Rle_bool. destruct Rcompare; reflexivity.
Qed.

Lemma b64_eqb_key x y :
  not_nan64 x -> not_nan64 y -> b64_eqb x y = Req_bool (key64 x) (key64 y).
Proof.
  intros Hx Hy. unfold b64_eqb, Beqb, SpecFloat.SFeqb.
  change (SpecFloat.SFcompare (B2SF x) (B2SF y)) with (Bcompare x y).
  rewrite Rcompare_key by assumption. unfold Req_bool. destruct Rcompare; reflexivity.
Qed.

Lemma b64_of_Z_not_nan z : not_nan64 (b64_of_Z z).
Proof. unfold not_nan64, b64_of_Z. apply is_nan_binary_normalize. Qed.

Lemma b64_zero : b64_of_Z 0 = B754_zero false.
Proof. reflexivity. Qed.

Lemma key64_zero : key64 (b64_of_Z 0) = 0%R.
Proof. reflexivity. Qed.

Lemma Rle_bool_iff x y : Rle_bool x y = true <-> (x <= y)%R.
Proof. destruct (Rle_bool_spec x y); split; intros; auto; try discriminate; lra. Qed.
Lemma Rlt_bool_iff x y : Rlt_bool x y = true <-> (x < y)%R.
Proof. destruct (Rlt_bool_spec x y); split; intros; auto; try discriminate; lra. Qed.

Lemma B64NumOrd : NumOrd B64Num not_nan64.
Proof.
  constructor; cbn [B64Num nof nltb nleb].
  - apply b64_of_Z_not_nan.
  - intros x y Hx Hy. rewrite b64_ltb_key, b64_leb_key by assumption.
    destruct (Rlt_bool_spec (key64 x) (key64 y)), (Rle_bool_spec (key64 y) (key64 x)); simpl; auto; lra.
  - intros x Hx. rewrite b64_leb_key by assumption. apply Rle_bool_iff. lra.
  - intros x y Hx Hy. rewrite !b64_leb_key, !Rle_bool_iff by assumption. lra.
  - intros x y z Hx Hy Hz. rewrite !b64_leb_key, !Rle_bool_iff by assumption. lra.
  - reflexivity.
Qed.

(** Generic consequences. *)
Section Laws.
Context {F : Type} (N : Num F) (good : F -> Prop) (HN : NumOrd N good).

Lemma ltb_true_leb x y : good x -> good y -> nltb N x y = true -> nleb N x y = true.
Proof.
  intros Hx Hy H. rewrite (ltb_nleb N good HN) in H by assumption.
  destruct (leb_total N good HN x y Hx Hy) as [|H2]; [assumption|].
  rewrite H2 in H; discriminate.
Qed.

Lemma ltb_false_leb x y : good x -> good y -> nltb N x y = false -> nleb N y x = true.
Proof.
  intros Hx Hy H. rewrite (ltb_nleb N good HN) in H by assumption.
  destruct (nleb N y x); [reflexivity|discriminate].
Qed.

Lemma ltb_leb_trans x y z :
  good x -> good y -> good z -> nltb N x y = true -> nleb N y z = true -> nltb N x z = true.
Proof.
  intros Hx Hy Hz H1 H2. rewrite (ltb_nleb N good HN) in * by assumption.
  destruct (nleb N z x) eqn:H3; [|reflexivity]. simpl.
  rewrite (leb_trans N good HN y z x) in H1 by assumption. discriminate.
Qed.

Lemma leb_ltb_trans x y z :
  good x -> good y -> good z -> nleb N x y = true -> nltb N y z = true -> nltb N x z = true.
Proof.
  intros Hx Hy Hz H1 H2. rewrite (ltb_nleb N good HN) in * by assumption.
  destruct (nleb N z x) eqn:H3; [|reflexivity]. simpl.
  rewrite (leb_trans N good HN z x y) in H2 by assumption. discriminate.
Qed.

Lemma ltb_irrefl x : good x -> nltb N x x = false.
Proof. intros Hx. rewrite (ltb_nleb N good HN), (leb_refl N good HN) by assumption. reflexivity. Qed.
End Laws.
