(** Vocabulary for the float64 cosinus distance. *)
From Coq Require Import List ZArith Reals.
From Flocq Require Import Core IEEE754.BinarySingleNaN.
From Verif Require Import Base.Num Spec.RealSpec Spec.FloatSpec.
Import ListNotations.
Local Open Scope R_scope.

(** The exact norm of the vector that a float64 vector denotes, and the exact cosinus distance of two of them. *)
Definition exact_norm (v : list b64) : R := sqrt (dot (reals v) (reals v)).
Definition exact_cos_dist (a b : list b64) : R := 1 - dot (reals a) (reals b) / (exact_norm a * exact_norm b).

(** A vector of dimension [d] whose coordinates are at most 2^480 and whose norm is at least 2^-400. *)
Definition cos_vec (d : nat) (v : list b64) : Prop := box_vec 480 d v /\ powerRZ 2 (-400) <= exact_norm v.

(** Rounding error of the cosinus distance in dimension [d]. *)
Definition cos_err (d : nat) : R := 5 * (INR d + 3) * powerRZ 2 (-52).
