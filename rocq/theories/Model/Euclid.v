(** Model of euclid/vectors.go; vectors are lists of numbers. *)
From Coq Require Import List ZArith Bool.
From Verif Require Import Base.Go Base.Num Model.Clustering.
Import ListNotations.
Local Open Scope Z_scope.

Section Euclid.
Context {F : Type} (N : Num F).

(** euclid/vectors.go:27-31, the summation loop: panics when point2 is shorter than point1. *)
Fixpoint sqsum_loop (p1 p2 : list F) (sum : F) : outcome F :=
  match p1, p2 with
  | [], _ => Ok sum
  | x :: p1', y :: p2' =>
      let v := nsub N x y in sqsum_loop p1' p2' (nadd N sum (nmul N v v))
  | _ :: _, [] => Panic
  end.

(** euclid/vectors.go:26-33 *)
Definition point_dist (p1 p2 : list F) : outcome F :=
  let* sum := sqsum_loop p1 p2 (nof N 0) in Ok (nsqrt N sum).

(** euclid/vectors.go:50-52 *)
Fixpoint combine_loop (p1 : list F) (w1 : F) (p2 : list F) (w2 t : F) : outcome (list F) :=
  match p1, p2 with
  | [], _ => Ok []
  | x :: p1', y :: p2' =>
      let* r := combine_loop p1' w1 p2' w2 t in
      Ok (ndiv N (nadd N (nmul N x w1) (nmul N y w2)) t :: r)
  | _ :: _, [] => Panic
  end.

(** euclid/vectors.go:44-54 *)
Definition point_combine (p1 : list F) (weight1 : Z) (p2 : list F) (weight2 : Z)
  : outcome (list F) :=
  let w1 := nof N weight1 in
  let w2 := nof N weight2 in
  combine_loop p1 w1 p2 w2 (nadd N w1 w2).

(** euclid/vectors.go:63-67: a fresh slice with the same values. *)
Definition point_copy (p : list F) : list F := p.

(** euclid/vectors.go:70-76 *)
Definition euclid_dim (data : list (list F)) : Z :=
  match data with [] => 0 | p :: _ => slen p end.

(** euclid/vectors.go:19-23, 36-41, 57-60 as a core.Space. A panic cannot be expressed in a Space;
    it is replaced by an arbitrary value here and excluded by the common-dimension hypothesis of the
    theorems (see C16 for the exact panic condition). *)
Definition euclid_space : Space (list F) F :=
  mkSpace
    (fun a b => match point_dist a b with Ok d => d | Panic => nof N 0 end)
    (fun a wa b wb => match point_combine a wa b wb with Ok r => r | Panic => [] end)
    point_copy
    euclid_dim.

End Euclid.
