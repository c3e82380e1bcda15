(** Vocabulary for the slices of mcmc in memory. *)
From Coq Require Import List ZArith.
From Verif Require Import Base.Go Model.KmeansInit Model.Mcmc Model.Heap Model.HeapMcmc.
Import ListNotations.

(** A slice that exists in the memory. *)
Definition valid {E} (m : mem E) (t : slice) : Prop := sl_arr t < length m /\ sl_len t <= length (array m (sl_arr t)).
(** Every slice of [m] is as it was in [m']. *)
Definition extends {E} (m m' : mem E) : Prop := length m <= length m' /\ forall t, valid m t -> valid m' t /\ read m' t = read m t.

(** An initializer in memory that gives the centroids of [initializer] and writes to no slice that exists, as long as the
    slices of [m0] are as they are there. *)
Definition initializer_in {E I} (m0 : mem E) (initializer : I -> Z -> list E -> outcome (list (option E) * option init_error))
  (hinitializer : I -> mem E -> Z -> list E -> outcome (mem E * slice * option init_error)) : Prop :=
  forall i m k data, extends m0 m ->
    match initializer i k data with
    | Panic => hinitializer i m k data = Panic
    | Ok (l, err) => exists m' s, hinitializer i m k data = Ok (m', s, err) /\ extends m m' /\ valid m' s /\ read m' s = l
    end.

(** kmeans/init.go: the centroids in a new slice. *)
Definition in_new_slice {E I} (initializer : I -> Z -> list E -> outcome (list (option E) * option init_error))
  (i : I) (m : mem E) (k : Z) (data : list E) : outcome (mem E * slice * option init_error) :=
  let* r := initializer i k data in Ok (m ++ [fst r], mkSlice (length m) (length (fst r)), snd r).

(** core/clustering.go, Clust.Initializer: the slice of the client. *)
Definition the_slice {E} (t : slice) (_ : unit) (m : mem E) (_ : Z) (_ : list E) : outcome (mem E * slice * option init_error) :=
  Ok (m, t, None).
Definition the_elements {E} (l : list (option E)) (_ : unit) (_ : Z) (_ : list E) : outcome (list (option E) * option init_error) :=
  Ok (l, None).

(** The event without the order in which the goroutines work. *)
Definition event_of {E F G I} (e : hmevent E F G I) : @mevent E F G I :=
  match e with
  | HEvPush x alive => EvPush x alive
  | HEvInit i => EvInit i
  | HEvIterate dr _ => EvIterate dr
  end.
