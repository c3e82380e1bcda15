(** Model of cosinus/cosinus.go. *)
From Coq Require Import List ZArith Bool.
From Verif Require Import Base.Go Base.Num Model.Clustering Model.Euclid.
Import ListNotations.
Local Open Scope Z_scope.

Section Cosinus.
Context {F : Type} (N : Num F).

(** cosinus/cosinus.go:72-77: panics when v2 is shorter than v1. *)
Fixpoint scalar_loop (v1 v2 : list F) (product : F) : outcome F :=
  match v1, v2 with
  | [], _ => Ok product
  | x :: v1', y :: v2' => scalar_loop v1' v2' (nadd N product (nmul N x y))
  | _ :: _, [] => Panic
  end.
Definition scalar_product (v1 v2 : list F) : outcome F := scalar_loop v1 v2 (nof N 0).

(** cosinus/cosinus.go:67-69 *)
Definition norm (v : list F) : outcome F :=
  let* s := scalar_product v v in Ok (nsqrt N s).

(** cosinus/cosinus.go:61-64 *)
Definition cosinus (v1 v2 : list F) : outcome F :=
  let* s := scalar_product v1 v2 in
  let* n1 := norm v1 in
  let* n2 := norm v2 in
  Ok (ndiv N (ndiv N s n1) n2).

(** cosinus/cosinus.go:31-33 *)
Definition cos_dist (p1 p2 : list F) : outcome F :=
  let* c := cosinus p1 p2 in Ok (nsub N (nof N 1) c).

(** cosinus/cosinus.go:24-28, 36-38, 46-48, 56-58 as a core.Space (same convention as
    [euclid_space] for panics). *)
Definition cosinus_space : Space (list F) F :=
  mkSpace
    (fun a b => match cos_dist a b with Ok d => d | Panic => nof N 0 end)
    (scombine (euclid_space N))
    (scopy (euclid_space N))
    (sdim (euclid_space N)).

End Cosinus.
