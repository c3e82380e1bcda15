(** Vocabulary of the statements about the controller at call granularity. *)
From Coq Require Import List ZArith Bool.
From Verif Require Import Base.Num Model.Status Model.Finish Model.CtrlLang Model.CtrlCode Model.CtrlSeq Spec.CtrlSpec.
Import ListNotations.
Local Open Scope list_scope.

(** [q] is reached from a new Algo by calls of one client that return and progress between them. *)
Definition seq_reachable {C} (cf : cconf) (q : seq_st C) : Prop := exists xs, acts cf xs seq0 = Some q.

(** Number of pushes since the last automatic start, that is a start inside a push; the second
    component tells whether the last event is inside a push. *)
Definition count_event {C} (x : Z * bool) (e : event C) : Z * bool :=
  match e with
  | EvPushed => ((fst x + 1)%Z, true)
  | EvStatus _ s => if snd x && status_eqb (st_value s) Running then (0%Z, false) else x
  | EvReturn _ _ => (fst x, false)
  | _ => x
  end.
Fixpoint count_of {C} (log : list (event C)) : Z * bool :=
  match log with [] => (0%Z, false) | e :: log' => count_event (count_of log') e end.
Definition pushes_since_start {C} (log : list (event C)) : Z := fst (count_of log).

(** Some run was started between [q] and [q']. *)
Definition started {C} (q q' : seq_st C) : Prop :=
  exists l t, q_log q' = l ++ q_log q /\ In (EvStatus t (new_status Running)) l.

(** The iteration budget of the configuration, given the number of pushes. *)
Definition budget (cf : cconf) (pushed : Z) : Z := (cf_iter cf + pushed * cf_ipd cf)%Z.
(** The budget is the only finishing condition. *)
Definition only_budget (cf : cconf) : Prop :=
  cf_fin cf = None /\ (0 <= cf_iter cf)%Z /\ (0 <= cf_ipd cf)%Z /\ (0 < cf_iter cf \/ 0 < cf_ipd cf)%Z.
Definition no_budget (cf : cconf) : Prop := cf_fin cf = None /\ cf_iter cf = 0%Z /\ cf_ipd cf = 0%Z.

(** The counters are exact as float64 up to 2^53. *)
Definition exact_counts {C} (q : seq_st C) : Prop :=
  (iterations_saved (q_log q) <= 2 ^ 53 /\ pushes (q_log q) <= 2 ^ 53)%Z.

(** Iterate returns the error [n] or panics with [n]. *)
Definition failing {C} (r : iter_result C) (n : nat) : Prop :=
  match r with IterRes _ _ (Some m) | IterPanic m => m = n | _ => False end.
