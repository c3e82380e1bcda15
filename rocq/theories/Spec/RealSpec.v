(** Specification vocabulary over the reals. *)
From Coq Require Import List ZArith Reals.
Import ListNotations.
Local Open Scope R_scope.

Definition rsum (l : list R) : R := fold_right Rplus 0 l.

(** Sum of (a_i - b_i)^2 and of a_i*b_i. *)
Definition sqdist (a b : list R) : R := rsum (map (fun p => (fst p - snd p) * (fst p - snd p)) (combine a b)).
Definition dot (a b : list R) : R := rsum (map (fun p => fst p * snd p) (combine a b)).

(** Coordinate [j] of a vector. *)
Definition coord (j : nat) (v : list R) : R := nth j v 0.

(** All vectors have dimension [d]. *)
Definition all_dim (d : nat) (vs : list (list R)) : Prop := Forall (fun v => length v = d) vs.

(** [m] is the arithmetic mean of [vs]: coordinate-wise sum divided by the count. *)
Definition is_mean (d : nat) (m : list R) (vs : list (list R)) : Prop :=
  length m = d /\
  forall j, (j < d)%nat -> coord j m = rsum (map (coord j) vs) / INR (length vs).

(** [m] is the mean of [vs] weighted by the integers [ws]. *)
Definition is_weighted_mean (d : nat) (m : list R) (vs : list (list R)) (ws : list Z) : Prop :=
  length m = d /\
  forall j, (j < d)%nat ->
    coord j m = rsum (map (fun p => coord j (fst p) * IZR (snd p)) (combine vs ws)) / rsum (map IZR ws).
