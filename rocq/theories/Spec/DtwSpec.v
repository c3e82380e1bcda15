(** Specification vocabulary for dynamic time warping. *)
From Coq Require Import List ZArith Bool Reals.
From Flocq Require Import Core IEEE754.BinarySingleNaN.
From Verif Require Import Base.Go Base.Num Model.Clustering Model.Euclid Spec.NearestSpec.
Import ListNotations.
Local Open Scope Z_scope.

(** One step of a warping path: forward by one in one of the series or in both. *)
Definition wstep (c c' : Z * Z) : Prop :=
  (fst c' = fst c + 1 /\ snd c' = snd c) \/
  (fst c' = fst c /\ snd c' = snd c + 1) \/
  (fst c' = fst c + 1 /\ snd c' = snd c + 1).

(** [wpath allowed c p]: p is a warping path from (0,0) to c through allowed cells. *)
Inductive wpath (allowed : Z * Z -> Prop) : Z * Z -> list (Z * Z) -> Prop :=
| wp_start : allowed (0, 0) -> wpath allowed (0, 0) [(0, 0)]
| wp_step c p c' : wpath allowed c p -> wstep c c' -> allowed c' -> wpath allowed c' (p ++ [c']).

(** The cells at most w away from the diagonal. *)
Definition within (w : Z) (c : Z * Z) : Prop := Z.abs (fst c - snd c) <= w.
Definition anywhere (c : Z * Z) : Prop := True.

(** Sum of the distances along a path, in the order of the path. *)
Definition sum_along {F : Type} (N : Num F) (d : Z * Z -> F) (p : list (Z * Z)) : F :=
  match p with
  | [] => nof N 0
  | c :: p' => fold_left (fun acc c => nadd N acc (d c)) p' (d c)
  end.

(** Distance between the points designated by a cell; p0 is only used out of range. *)
Definition at_cell {P F : Type} (pdist : P -> P -> F) (p0 : P) (s1 s2 : list P) (c : Z * Z) : F :=
  pdist (nth (Z.to_nat (fst c)) s1 p0) (nth (Z.to_nat (snd c)) s2 p0).

Definition last_cell {P : Type} (s1 s2 : list P) : Z * Z := (Z.of_nat (length s1) - 1, Z.of_nat (length s2) - 1).

(** [v] is the least sum of distances over the warping paths through allowed cells. *)
Definition least_warping {P F : Type} (N : Num F) (pdist : P -> P -> F) (s1 s2 : list P)
    (allowed : Z * Z -> Prop) (v : F) : Prop :=
  forall p0 : P,
  (exists p, wpath allowed (last_cell s1 s2) p /\ sum_along N (at_cell pdist p0 s1 s2) p = v) /\
  (forall p, wpath allowed (last_cell s1 s2) p -> nleb N v (sum_along N (at_cell pdist p0 s1 s2) p) = true).

(** Non-negative float64, +Inf included, NaN and -0 excluded. *)
Definition nneg64 (x : b64) : Prop := is_nan x = false /\ Bsign x = false.

(** Exact arithmetic with an infinity (None): only addition and comparison are meaningful. *)
Definition enadd (x y : option R) : option R :=
  match x, y with Some a, Some b => Some (a + b)%R | _, _ => None end.
Definition enleb (x y : option R) : bool :=
  match x, y with _, None => true | Some a, Some b => Rleb a b | None, Some _ => false end.
Definition lift2 (f : R -> R -> R) (x y : option R) : option R :=
  match x, y with Some a, Some b => Some (f a b) | _, _ => None end.
Definition ENum : Num (option R) :=
  mkNum (fun z => Some (IZR z)) enadd (lift2 Rminus) (lift2 Rmult) (lift2 Rdiv)
        (option_map R_sqrt.sqrt) (fun x y => negb (enleb y x)) enleb (fun x y => enleb x y && enleb y x).
Definition enneg (x : option R) : Prop := match x with Some r => (0 <= r)%R | None => True end.

(** Point of a resized series: at position x/f of the original indexes idx. *)
Definition interpolated {P : Type} (pcombine : P -> Z -> P -> Z -> P) (s : list P) (idx : list Z)
    (x : Z) (p : P) : Prop :=
  (exists j, nth_error idx j = Some x /\ nth_error s j = Some p) \/
  (exists j a b ia ib, nth_error idx j = Some ia /\ nth_error idx (S j) = Some ib /\
     nth_error s j = Some a /\ nth_error s (S j) = Some b /\ ia < x < ib /\
     p = pcombine a (ib - x) b (x - ia)).

(** ** The Euclidean point space *)
(** euclid/vectors.go:26 as a point distance (dtw/point_space.go); points of different dimensions do not occur below. *)
Definition edist64 (p q : list b64) : b64 := match point_dist B64Num p q with Ok d => d | Panic => b64_inf end.
(** Series of points of dimension d with finite coordinates. *)
Definition finite_series (d : nat) (s : list (list b64)) : Prop :=
  Forall (fun p => length p = d /\ Forall (fun x => BinarySingleNaN.is_finite x = true) p) s.
(** Series of one-dimensional points with integer coordinates. *)
Definition series64 (l : list Z) : list (list b64) := map (fun z => [b64_of_Z z]) l.
(** A combination that is not used in the concrete cases where it appears. *)
Definition keep (p : list b64) (_ : Z) (_ : list b64) (_ : Z) : list b64 := p.
Definition show_o (o : outcome b64) : option SpecFloat.spec_float :=
  match o with Ok v => Some (show64 v) | Panic => None end.
(** euclid/vectors.go:44 in exact arithmetic. *)
Definition rcombine (a : list R) (wa : Z) (b : list R) (wb : Z) : list R := scombine (euclid_space RNum) a wa b wb.
(** All coordinates between those of lo and hi. *)
Definition in_box (lo hi p : list R) : Prop :=
  length p = length lo /\ length p = length hi /\
  forall j, (j < length p)%nat -> (nth j lo 0 <= nth j p 0 <= nth j hi 0)%R.
