(** Specification vocabulary for clusters: which elements belong to a label. *)
From Coq Require Import List ZArith.
Import ListNotations.

(** Elements of [xs], in order, to which [lab] gives label [i]. *)
Definition members {E : Type} (lab : E -> Z) (i : nat) (xs : list E) : list E :=
  filter (fun x => Z.eqb (lab x) (Z.of_nat i)) xs.

(** Elements of [xs], in order, that carry label [i] in the parallel list [labels]. *)
Definition labelled {E : Type} (i : nat) (labels : list Z) (xs : list E) : list E :=
  map snd (filter (fun lx => Z.eqb (fst lx) (Z.of_nat i)) (combine labels xs)).

(** Sum of a list of integers. *)
Definition zsum (l : list Z) : Z := fold_right Z.add 0%Z l.
