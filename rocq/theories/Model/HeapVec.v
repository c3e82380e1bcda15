(** Vectors in memory: which arrays the functions of euclid/vectors.go and dtw/series.go allocate and write. *)
From Coq Require Import List ZArith Bool Arith.
From Verif Require Import Base.Go Base.Num.
Import ListNotations.

Section HeapVec.
Context {F : Type} (N : Num F).

(** The arrays of float64, by address; a []float64 is a whole array here (no two slices of one array). *)
Definition vmem : Type := list (list F).
Definition vec (m : vmem) (a : nat) : list F := nth a m [].
(** make([]float64, n): a new array of zeros. *)
Definition vmake (m : vmem) (n : nat) : vmem * nat := (m ++ [repeat (nof N 0) n], length m).
(** v[i] *)
Definition vget (m : vmem) (a i : nat) : outcome F := match nth_error (vec m a) i with Some x => Ok x | None => Panic end.
(** v[i] = x *)
Definition vset (m : vmem) (a i : nat) (x : F) : outcome vmem :=
  if (i <? length (vec m a))%nat then Ok (upd m a (upd (vec m a) i x)) else Panic.

(** euclid/vectors.go:44-54: every read and every write of the loop goes to memory. *)
Definition hpoint_combine (m : vmem) (a : nat) (weight1 : Z) (b : nat) (weight2 : Z) : outcome (vmem * nat) :=
  let dim := length (vec m a) in
  let w1 := nof N weight1 in
  let w2 := nof N weight2 in
  let t := nadd N w1 w2 in
  let (m1, r) := vmake m dim in
  let* m2 := ofold (fun m' i =>
      let* x := vget m' a i in
      let* y := vget m' b i in
      vset m' r i (ndiv N (nadd N (nmul N x w1) (nmul N y w2)) t)) (seq 0 dim) m1 in
  Ok (m2, r).

(** The builtin copy(dst, src), for two distinct arrays. *)
Definition vcopy (m : vmem) (dst src : nat) : outcome vmem :=
  ofold (fun m' i => let* x := vget m' src i in vset m' dst i x) (seq 0 (Nat.min (length (vec m dst)) (length (vec m src)))) m.
(** euclid/vectors.go:63-67 *)
Definition hpoint_copy (m : vmem) (a : nat) : outcome (vmem * nat) :=
  let (m1, r) := vmake m (length (vec m a)) in
  let* m2 := vcopy m1 r a in
  Ok (m2, r).

(** dtw/series.go:42-50; a series is the list of the addresses of its points, kept by value (the outer slice is made
    by Copy too). *)
Fixpoint hseries_copy (m : vmem) (s : list nat) : outcome (vmem * list nat) :=
  match s with
  | [] => Ok (m, [])
  | a :: s' =>
      let* p := hpoint_copy m a in
      let* q := hseries_copy (fst p) s' in
      Ok (fst q, snd p :: snd q)
  end.
End HeapVec.
