(** Specification vocabulary for the initializers. *)
From Coq Require Import List Reals.
From Verif Require Import Model.Clustering.
Import ListNotations.
Local Open Scope R_scope.

(** Each centroid is (a copy of) an element which is at a positive distance of all the previous
    centroids; the first one is an element itself. *)
Definition spread {E} (Sp : Space E R) (elemts : list E) (found : list E) : Prop :=
  forall i c, nth_error found i = Some c ->
    exists x, In x elemts /\ (i = 0%nat -> c = x) /\ (i <> 0%nat -> c = scopy Sp x) /\
      forall j y, (j < i)%nat -> nth_error found j = Some y -> 0 < sdist Sp x y.
