(** Specification vocabulary for float64 vectors. *)
From Coq Require Import List ZArith Reals.
From Flocq Require Import Core IEEE754.BinarySingleNaN.
From Verif Require Import Base.Num Spec.RealSpec.
Import ListNotations.
Local Open Scope R_scope.

(** [x] is a finite float64 between -2^k and 2^k. *)
Definition in_box (k : Z) (x : b64) : Prop := is_finite x = true /\ Rabs (B2R x) <= powerRZ 2 k.

(** A float64 vector of dimension [d] with coordinates in that box. *)
Definition box_vec (k : Z) (d : nat) (v : list b64) : Prop := length v = d /\ Forall (in_box k) v.

(** The real vector that a float64 vector denotes. *)
Definition reals (v : list b64) : list R := map B2R v.

(** The exact distance between the vectors that two float64 vectors denote. *)
Definition exact_dist (a b : list b64) : R := sqrt (sqdist (reals a) (reals b)).

(** [l] is the exact k-means loss: the sum of the squared exact distances to an exactly nearest centroid. *)
Definition exact_loss (c data : list (list b64)) (l : R) : Prop :=
  exists near : list b64 -> list b64,
    (forall x, In x data -> In (near x) c /\ forall y, In y c -> exact_dist x (near x) <= exact_dist x y) /\
    l = rsum (map (fun x => exact_dist x (near x) * exact_dist x (near x)) data).

(** Rounding errors in dimension [d]. *)
Definition rel_err (d : nat) : R := (INR d + 4) * powerRZ 2 (-52).
Definition abs_err (d : nat) : R := INR d * powerRZ 2 (-536).
