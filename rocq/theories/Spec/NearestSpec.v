(** Specification vocabulary for the nearest centroid. *)
From Coq Require Import List ZArith.
From Coq Require SpecFloat.
From Flocq Require IEEE754.BinarySingleNaN.
From Verif Require Import Base.Num Model.Clustering.

(** In float64: [cl], stored at label [l] of [c], is a nearest centroid of [x], and the first one. *)
Definition first_nearest64 {E : Type} (Sp : Space E b64) (c : list E) (x : E) (l : nat) (cl : E) : Prop :=
  nth_error c l = Some cl /\
  (forall j cj, nth_error c j = Some cj -> b64_leb (sdist Sp x cl) (sdist Sp x cj) = true) /\
  (forall j cj, nth_error c j = Some cj -> j < l -> b64_ltb (sdist Sp x cl) (sdist Sp x cj) = true).

(** The same over the reals. *)
Definition first_nearest {E : Type} (Sp : Space E Rdefinitions.R) (c : list E) (x : E) (l : nat) (cl : E) : Prop :=
  nth_error c l = Some cl /\
  (forall j cj, nth_error c j = Some cj -> Rdefinitions.Rle (sdist Sp x cl) (sdist Sp x cj)) /\
  (forall j cj, nth_error c j = Some cj -> j < l -> Rdefinitions.Rlt (sdist Sp x cl) (sdist Sp x cj)).

(** Float64 vectors with integer coordinates, for the concrete cases. *)
Definition v64 (l : list Z) : list b64 := map b64_of_Z l.

(** Float64 values without their range proof, so that they can be compared by computation. *)
Definition show64 (x : b64) : SpecFloat.spec_float := BinarySingleNaN.B2SF x.
