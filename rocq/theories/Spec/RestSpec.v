(** Specification vocabulary: float64 values that keep their value when few of them are averaged. *)
From Coq Require Import List ZArith Reals.
From Flocq Require Import Core IEEE754.BinarySingleNaN.
From Verif Require Import Base.Num.
Import ListNotations.
Local Open Scope R_scope.

(** [x] = z * 2^e where n * |z| has at most 53 bits: integers below 2^53 / n, for example. *)
Definition few_bits (n : Z) (x : b64) : Prop :=
  is_finite x = true /\ exists z e : Z, (-1074 <= e <= 970)%Z /\ (Z.abs z * n < 2 ^ 53)%Z /\ B2R x = IZR z * powerRZ 2 e.
