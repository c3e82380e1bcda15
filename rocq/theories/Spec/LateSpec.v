(** Specification vocabulary for LateDistrib. *)
From Coq Require Import List ZArith Bool Arith.
From Verif Require Import Base.Go Model.LateDistrib.
Import ListNotations.

(** Two goroutines are about to access the same field, one of them to write it: nothing orders the
    two accesses. *)
Definition data_race {E Dist} (s : lstate E Dist) : Prop :=
  exists t1 t2 g1 g2 f w,
    t1 <> t2 /\ nth_error (s_gos s) t1 = Some g1 /\ nth_error (s_gos s) t2 = Some g2 /\
    access (g_pc g1) = Some (f, true) /\ access (g_pc g2) = Some (f, w).

(** No call of the builder has panicked so far. *)
Definition builder_fine {E Dist} (s : lstate E Dist) : Prop :=
  forall g, In g (s_gos s) -> g_pc g <> Crashed /\ g_pc g <> AtUnlockPanic.
