(** Specification vocabulary for slices returned to callers. *)
From Coq Require Import List ZArith.
From Verif Require Import Model.Streaming Model.Heap.
Import ListNotations.

(** Number of elements processed. *)
Definition htakes (r : hres) : nat :=
  match r with HInit (Some _) | HIterate (Some _) => 1 | _ => 0 end.
Definition htaken (rs : list hres) : nat := list_sum (map htakes rs).

(** The same result, seen through memory. *)
Definition same_result {E} (m : mem E) (r : sres E) (r' : hres) : Prop :=
  match r, r' with
  | RPush b, HPush b' => b = b'
  | RInit None, HInit None | RIterate None, HIterate None => True
  | RInit (Some l), HInit (Some s) | RIterate (Some l), HIterate (Some s) => read m s = map Some l
  | _, _ => False
  end.
