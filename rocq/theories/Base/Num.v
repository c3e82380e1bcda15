(** Number systems. The float64 code of the repository is modelled once, polymorphic in a record
    of operations; two instances are provided: the reals (exact arithmetic) and IEEE-754 binary64
    with rounding to nearest even (Flocq), which is Go's float64 without fused multiply-add. *)
From Coq Require Import ZArith Bool Reals Lra.
From Flocq Require Import Core IEEE754.BinarySingleNaN.

Record Num (F : Type) : Type := mkNum {
  nof : Z -> F;                 (* float64(i) of an int, and integer-valued literals *)
  nadd : F -> F -> F;
  nsub : F -> F -> F;
  nmul : F -> F -> F;
  ndiv : F -> F -> F;
  nsqrt : F -> F;               (* math.Sqrt *)
  nltb : F -> F -> bool;        (* x < y  (y > x) *)
  nleb : F -> F -> bool;        (* x <= y (y >= x) *)
  neqb : F -> F -> bool         (* x == y *)
}.
Arguments mkNum {F}.
Arguments nof {F}. Arguments nadd {F}. Arguments nsub {F}. Arguments nmul {F}.
Arguments ndiv {F}. Arguments nsqrt {F}. Arguments nltb {F}. Arguments nleb {F}.
Arguments neqb {F}.

(** ** Exact arithmetic *)
Definition Rltb (x y : R) : bool := if Rlt_dec x y then true else false.
Definition Rleb (x y : R) : bool := if Rle_dec x y then true else false.
Definition Reqb (x y : R) : bool := if Req_EM_T x y then true else false.

Definition RNum : Num R :=
  mkNum IZR Rplus Rminus Rmult Rdiv sqrt Rltb Rleb Reqb.

(** ** IEEE-754 binary64, round to nearest even *)
Definition prec64 : Z := 53.
Definition emax64 : Z := 1024.
Lemma prec64_gt_0 : FLX.Prec_gt_0 prec64. Proof. reflexivity. Qed.
Lemma prec64_lt_emax : Prec_lt_emax prec64 emax64. Proof. reflexivity. Qed.

Definition b64 : Type := binary_float prec64 emax64.
Definition b64_of_Z (z : Z) : b64 :=
  @binary_normalize prec64 emax64 prec64_gt_0 prec64_lt_emax mode_NE z 0 false.
Definition b64_add : b64 -> b64 -> b64 := @Bplus prec64 emax64 prec64_gt_0 prec64_lt_emax mode_NE.
Definition b64_sub : b64 -> b64 -> b64 := @Bminus prec64 emax64 prec64_gt_0 prec64_lt_emax mode_NE.
Definition b64_mul : b64 -> b64 -> b64 := @Bmult prec64 emax64 prec64_gt_0 prec64_lt_emax mode_NE.
Definition b64_div : b64 -> b64 -> b64 := @Bdiv prec64 emax64 prec64_gt_0 prec64_lt_emax mode_NE.
Definition b64_sqrt : b64 -> b64 := @Bsqrt prec64 emax64 prec64_gt_0 prec64_lt_emax mode_NE.
Definition b64_ltb : b64 -> b64 -> bool := @Bltb prec64 emax64.
Definition b64_leb : b64 -> b64 -> bool := @Bleb prec64 emax64.
Definition b64_eqb : b64 -> b64 -> bool := @Beqb prec64 emax64.

Definition B64Num : Num b64 :=
  mkNum b64_of_Z b64_add b64_sub b64_mul b64_div b64_sqrt b64_ltb b64_leb b64_eqb.

(** [math.Inf(1)] *)
Definition b64_inf : b64 := B754_infinity false.

(** ** Comparison laws
    [good] singles out the values that comparisons order totally (all reals; all float64 but NaN). *)
Record NumOrd {F : Type} (N : Num F) (good : F -> Prop) : Prop := mkNumOrd {
  good_of : forall z, good (nof N z);
  ltb_nleb : forall x y, good x -> good y -> nltb N x y = negb (nleb N y x);
  leb_refl : forall x, good x -> nleb N x x = true;
  leb_total : forall x y, good x -> good y -> nleb N x y = true \/ nleb N y x = true;
  leb_trans : forall x y z, good x -> good y -> good z ->
    nleb N x y = true -> nleb N y z = true -> nleb N x z = true;
  leb_m1_0 : nltb N (nof N (-1)) (nof N 0) = true
}.

Definition not_nan64 (x : b64) : Prop := is_nan x = false.
