(** Specification vocabulary for the DTW distance in float64. *)
From Coq Require Import List ZArith Reals.
From Verif Require Import Base.Go Base.Num Model.Clustering Model.Euclid Model.Dtw Spec.DtwSpec Spec.FloatSpec.
Import ListNotations.
Local Open Scope R_scope.

(** [D] is the exact DTW distance, with exact distances between points, of the series that are aligned: those given, the
    longest one resized when their lengths differ by more than the window. *)
Definition exact_dtw (window : Z) (a b : list (list b64)) (D : R) : Prop :=
  exists t1 t2, shrink_longest (scombine (euclid_space B64Num)) a b window = Ok (t1, t2) /\
    ((Z.abs (Z.of_nat (length a) - Z.of_nat (length b)) <= window)%Z -> t1 = a /\ t2 = b) /\
    least_warping RNum exact_dist t1 t2 (within window) D.

(** Rounding errors in dimension [d] for series of at most [n] points. *)
Definition dtw_rel (d n : nat) : R := rel_err d + INR n * powerRZ 2 (-50).
Definition dtw_abs (d n : nat) : R := 4 * INR n * abs_err d.
