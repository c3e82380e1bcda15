(** C115: the float64 cosinus distance is accurate, and so is the choice of a centroid that is not parallel to the element. *)
From Coq Require Import List ZArith Reals.
From Flocq Require Import IEEE754.BinarySingleNaN.
From Verif Require Import Base.Go Base.Num Model.Clustering Model.Cosinus Spec.NearestSpec Spec.FloatCosSpec Proofs.FloatCos.
Import ListNotations.
Local Open Scope R_scope.

Theorem C115_distance : forall d (p1 p2 : list b64), (Z.of_nat d <= 2 ^ 45)%Z -> cos_vec d p1 -> cos_vec d p2 ->
  0 <= exact_cos_dist p1 p2 <= 2 /\
  exists D, cos_dist B64Num p1 p2 = Ok D /\ is_finite D = true /\ Rabs (B2R D - exact_cos_dist p1 p2) <= cos_err d.
Proof. exact cos64. Qed.
Print Assumptions C115_distance.

(** When no centroid is almost parallel to the element no computed distance is negative (C15) and the choice is accurate. *)
Theorem C115_nearest : forall d (c : list (list b64)) (x : list b64), (Z.of_nat d <= 2 ^ 45)%Z -> c <> [] -> Forall (cos_vec d) c -> cos_vec d x ->
  (forall y, In y c -> cos_err d <= exact_cos_dist x y) ->
  exists l cl, assign B64Num (cosinus_space B64Num) c x = Ok (Some cl, Z.of_nat l, sdist (cosinus_space B64Num) x cl) /\ nth_error c l = Some cl /\
    forall y, In y c -> exact_cos_dist x cl <= exact_cos_dist x y + 2 * cos_err d.
Proof. exact cos_nearest. Qed.
Print Assumptions C115_nearest.

Example C115_case : let c := [v64 [1; 0]; v64 [0; 1]]%Z in let x := v64 [3; 4]%Z in
  (Z.of_nat 2 <= 2 ^ 45)%Z /\ c <> [] /\ Forall (cos_vec 2) c /\ cos_vec 2 x /\ (forall y, In y c -> cos_err 2 <= exact_cos_dist x y) /\
  exact_cos_dist x (v64 [1; 0])%Z = 2 / 5 /\ exact_cos_dist x (v64 [0; 1])%Z = 1 / 5.
Proof. exact cos_case. Qed.
