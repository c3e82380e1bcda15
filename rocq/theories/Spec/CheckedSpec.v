(** Vocabulary of the statements about elements of different dimensions. *)
From Coq Require Import List ZArith.
From Verif Require Import Base.Go Base.Num Model.Clustering Model.Streaming Model.Checked.
Import ListNotations.

(** On elements satisfying [P] the operations do not panic and are those of [Sp]. *)
Definition agrees {E F} (K : checked E F) (Sp : Space E F) (P : E -> Prop) : Prop :=
  (forall a b, P a -> P b -> kdist K a b = Ok (sdist Sp a b)) /\
  (forall a n b m, P a -> P b -> kcombine K a n b m = Ok (scombine Sp a n b m) /\ P (scombine Sp a n b m)) /\
  (forall a, P a -> kcopy K a = scopy Sp a /\ P (scopy Sp a)).

(** The vectors of dimension [d]. *)
Definition of_dim {F} (d : nat) (v : list F) : Prop := length v = d.

(** Dist and Combine panic when the second element is smaller; Combine and Copy keep the size of the first. *)
Definition sized {E F} (K : checked E F) (sz : E -> nat) : Prop :=
  (forall a b d, kdist K a b = Ok d -> (sz a <= sz b)%nat) /\
  (forall a n b m r, kcombine K a n b m = Ok r -> (sz a <= sz b)%nat /\ sz r = sz a) /\
  (forall a, sz (kcopy K a) = sz a).

(** A process that nothing can happen to any more. *)
Definition stuck {E F} (K : checked E F) (c : list E) (p : procs E) : Prop := forall p', ~ pstep K c p p'.
(** The process of [p] is bound to be ended by the run-time system, and can be at any moment after a panic. *)
Definition fatal {E F} (K : checked E F) (c : list E) (p : procs E) : Prop :=
  forall p', psteps K c p p' ->
    (exists p'', psteps K c p' p'' /\ p_dead p'' = true) /\ (stuck K c p' -> p_dead p' = true).

(** An iteration of streaming that processed an element. *)
Definition absorbed {E} (r : outcome (sres E)) : Prop := match r with Ok (RIterate (Some _)) => True | _ => False end.
(** The elements pushed satisfy [P]. *)
Definition stream_pushes {E F} (P : E -> Prop) (ops : list (sop E F)) : Prop := forall x, In (SPush x) ops -> P x.
