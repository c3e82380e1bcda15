(** Specification vocabulary for the data buffer. *)
From Coq Require Import List ZArith.
From Verif Require Import Model.Buffer.
Import ListNotations.

(** Elements pushed synchronously, resp. asynchronously, by a list of operations, in order. *)
Fixpoint sync_pushed {E} (ops : list (bop E)) : list E :=
  match ops with [] => [] | PushSync x :: r => x :: sync_pushed r | _ :: r => sync_pushed r end.
Fixpoint async_pushed {E} (ops : list (bop E)) : list E :=
  match ops with [] => [] | PushAsync x :: r => x :: async_pushed r | _ :: r => async_pushed r end.

(** A history is cut in rounds ended by an Apply, and a last round without Apply. *)
Definition no_apply {E} (ops : list (bop E)) : Prop := ~ In Apply ops.
Definition history {E} (rounds : list (list (bop E))) (last : list (bop E)) : list (bop E) :=
  concat (map (fun r => r ++ [Apply]) rounds) ++ last.

(** All the elements stored by a history, in their order of storage: in each round the synchronous
    pushes, then at its Apply the asynchronous ones. *)
Definition stored {E} (initial : list E) (rounds : list (list (bop E))) (last : list (bop E)) : list E :=
  initial ++ concat (map (fun r => sync_pushed r ++ async_pushed r) rounds) ++ sync_pushed last.

(** The [n] last elements of a list (all of them when there are fewer). *)
Definition last_n {E} (n : nat) (l : list E) : list E := skipn (length l - n) l.

(** [l] is [l'] up to a rotation. *)
Definition rotation {E} (l l' : list E) : Prop :=
  exists p, p <= length l /\ skipn p l ++ firstn p l = l'.

(** Elements sent, resp. number of receives, in a fine-grain execution. *)
Fixpoint sent {E} (acts : list (bact E)) : list E :=
  match acts with [] => [] | ASend x :: r => x :: sent r | _ :: r => sent r end.
