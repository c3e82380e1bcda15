(** Vocabulary for sums of float64 numbers in any order and for the square of a distance. *)
From Coq Require Import List ZArith Reals Permutation.
From Flocq Require Import Core IEEE754.BinarySingleNaN.
From Verif Require Import Base.Num Spec.FloatSpec.
Import ListNotations.
Local Open Scope R_scope.

(** [s] is a float64 sum of the numbers [l]: the additions are made in any order and with any
    grouping, and an accumulator may start from zero. *)
Inductive summed : list b64 -> b64 -> Prop :=
| summed_none : summed [] (b64_of_Z 0)
| summed_one : forall x, summed [x] x
| summed_add : forall l l1 l2 a b, Permutation l (l1 ++ l2) -> summed l1 a -> summed l2 b -> summed l (b64_add a b).

(** [pow] computes the squares of float64 numbers up to two units in the last place (about Go's math.Pow). *)
Definition squares (pow : b64 -> b64 -> b64) : Prop :=
  forall x, is_finite x = true -> Rabs (B2R x) <= powerRZ 2 511 ->
    let y := pow x (b64_of_Z 2) in
    is_finite y = true /\ 0 <= B2R y /\ Rabs (B2R y - B2R x * B2R x) <= powerRZ 2 (-52) * (B2R x * B2R x) + powerRZ 2 (-1074).

(** Relative and absolute errors of the loss of [n] elements of dimension [d]. *)
Definition loss_rel (d n : nat) : R := 5 * rel_err d + INR n * powerRZ 2 (-51).
Definition loss_abs (d n : nat) : R := 2 * INR n * (powerRZ 2 52 * (abs_err d * abs_err d) + powerRZ 2 (-1074)).

(** Every float64 sum of these losses is close to [L]. *)
Definition close_total (d n : nat) (L : R) (losses : list b64) : Prop :=
  forall s, summed losses s -> is_finite s = true /\ Rabs (B2R s - L) <= loss_rel d n * L + loss_abs d n.
