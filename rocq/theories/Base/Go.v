(** Go semantics helpers: run-time panics as values, slices as lists, bounds-checked accesses. *)
From Coq Require Import List ZArith Lia Bool.
Import ListNotations.

(** Result of a Go expression that may panic (index out of range, nil type assertion,
    integer division by zero, ...). *)
Inductive outcome (A : Type) : Type :=
| Ok (a : A)
| Panic.
Arguments Ok {A} a.
Arguments Panic {A}.

Definition obind {A B : Type} (m : outcome A) (f : A -> outcome B) : outcome B :=
  match m with Ok a => f a | Panic => Panic end.

Notation "'let*' p ':=' m 'in' k" := (obind m (fun p => k))
  (at level 200, p pattern, m at level 100, k at level 200, right associativity).

(** [len(s)] *)
Definition slen {A : Type} (l : list A) : Z := Z.of_nat (length l).

(** [s[i]]: panics when the index is out of range. *)
Definition sget {A : Type} (l : list A) (i : Z) : outcome A :=
  if (i <? 0)%Z then Panic
  else match nth_error l (Z.to_nat i) with Some a => Ok a | None => Panic end.

(** Functional update of position [n]; identity out of range. *)
Fixpoint upd {A : Type} (l : list A) (n : nat) (a : A) : list A :=
  match l, n with
  | [], _ => []
  | _ :: l', O => a :: l'
  | b :: l', S n' => b :: upd l' n' a
  end.

(** [s[i] = a]: panics when the index is out of range. *)
Definition sset {A : Type} (l : list A) (i : Z) (a : A) : outcome (list A) :=
  if (i <? 0)%Z then Panic
  else if Nat.ltb (Z.to_nat i) (length l) then Ok (upd l (Z.to_nat i) a) else Panic.

(** [s[a:b]] for a slice whose capacity is its length: panics unless 0 <= a <= b <= len(s). *)
Definition sslice {A : Type} (l : list A) (a b : Z) : outcome (list A) :=
  if ((a <? 0) || (b <? a) || (slen l <? b))%Z then Panic
  else Ok (firstn (Z.to_nat (b - a)) (skipn (Z.to_nat a) l)).

(** [make([]T, n)]: panics for a negative length; entries are the zero value. *)
Definition smake {A : Type} (z : A) (n : Z) : outcome (list A) :=
  if (n <? 0)%Z then Panic else Ok (repeat z (Z.to_nat n)).

(** Go integer division and remainder: truncated, panic on zero. *)
Definition idiv (a b : Z) : outcome Z := if (b =? 0)%Z then Panic else Ok (Z.quot a b).
Definition imod (a b : Z) : outcome Z := if (b =? 0)%Z then Panic else Ok (Z.rem a b).

(** Left-to-right loop over a list with an accumulator that may panic:
    [for _, x := range l { st = f(st, x) }]. *)
Fixpoint ofold {A S : Type} (f : S -> A -> outcome S) (l : list A) (s : S) : outcome S :=
  match l with
  | [] => Ok s
  | x :: l' => let* s' := f s x in ofold f l' s'
  end.

(** Left-to-right map whose body may panic. *)
Fixpoint omap {A B : Type} (f : A -> outcome B) (l : list A) : outcome (list B) :=
  match l with
  | [] => Ok []
  | x :: l' => let* y := f x in let* ys := omap f l' in Ok (y :: ys)
  end.
