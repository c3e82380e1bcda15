(** Specification vocabulary for the generators that algorithms hold. *)
From Coq Require Import List ZArith.
From Verif Require Import Base.Go Model.Generators.
Import ListNotations.

Definition held (pt : pointers) : list nat := [pt_conf pt; pt_impl pt; pt_law pt].

Definition target {E} (o : @gop E) : nat := match o with GInit i => i | GIterate i => i | GPush i _ => i | GCopy i _ => i end.
Definition is_copy {E} (o : @gop E) : bool := match o with GCopy _ _ => true | _ => false end.
Definition is_init {E} (o : @gop E) : bool := match o with GInit _ => true | _ => false end.

(** The calls on algorithm [i] alone, without the copies made of it. *)
Definition own_calls {E} (i : nat) (os : list (@gop E)) : list (@gop E) :=
  filter (fun o => andb (Nat.eqb (target o) i) (negb (is_copy o))) os.

(** No other algorithm holds a generator of algorithm [i], which holds [pt]: neither those that exist nor,
    as they are not copies of [i] and are given other generators, those made by the calls. *)
Definition apart {E I} (i : nat) (pt : pointers) (l : list (@galgo E I)) (os : list (@gop E)) : Prop :=
  (forall j a, j <> i -> nth_error l j = Some a -> forall p, In p (held (ga_pt a)) -> ~ In p (held pt)) /\
  (forall j p, In (GCopy j p) os -> j <> i /\ ~ In p (held pt)).

(** A computation that uses and changes only the generators [ps]. *)
Definition only_uses {S A} (ps : list nat) (f : gcomp S A) : Prop :=
  (forall m x m', f m = Ok (x, m') -> forall q, ~ In q ps -> m' q = m q) /\
  (forall m n x m', (forall q, In q ps -> m q = n q) -> f m = Ok (x, m') ->
     exists n', f n = Ok (x, n') /\ forall q, In q ps -> m' q = n' q).

(** Centroids() of algorithm [i] after the calls. *)
Definition centroids_after {E I S} (im : gimplem E I S) (st : list (@galgo E I) * gmem S) (os : list (@gop E)) (i : nat)
  : option (list (option E)) :=
  match gsteps im st os with
  | Some (l, _) => match nth_error l i with Some a => Some (ga_centroids a) | None => None end
  | None => None
  end.

(** A generator that returns the numbers of a list, tenths of them for Float64. *)
Definition list_gen {F} (of_tenths : Z -> F) : generator F unit (list Z) := mkGenerator
  (fun s => (of_tenths (hd 0%Z s), tl s)) (fun n s => (Z.modulo (hd 0%Z s) n, tl s)) (fun s => (tt, tl s)).
