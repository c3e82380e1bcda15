(** Specification vocabulary for the streaming algorithm. *)
From Coq Require Import List ZArith.
From Verif Require Import Model.Streaming.
Import ListNotations.

(** Elements whose push was accepted, in order. *)
Fixpoint accepted {E F} (ops : list (sop E F)) (rs : list (sres E)) : list E :=
  match ops, rs with
  | SPush x :: ops', RPush false :: rs' => x :: accepted ops' rs'
  | _ :: ops', _ :: rs' => accepted ops' rs'
  | _, _ => []
  end.

(** Number of successful initializations and of iterations that returned centers. *)
Definition takes {E} (r : sres E) : nat :=
  match r with RInit (Some _) | RIterate (Some _) => 1 | _ => 0 end.
Definition taken {E} (rs : list (sres E)) : nat := list_sum (map takes rs).

Definition zsum (l : list Z) : Z := fold_right Z.add 0%Z l.

(** Every iteration that processes an element comes after a successful initialization (what
    core/ctrl.go does: run starts after init). *)
Definition init_first {E} (rs : list (sres E)) : Prop :=
  forall pre c post, rs = pre ++ RIterate (Some c) :: post -> exists c', In (RInit (Some c')) pre.
