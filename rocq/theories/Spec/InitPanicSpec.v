(** Goroutines that do nothing as long as the status is Initializing. *)
From Coq Require Import List ZArith Bool.
From Verif Require Import Base.Go Model.Status Model.CtrlLang Model.CtrlCode Spec.CtrlSpec.
Import ListNotations.
Local Open Scope list_scope.

(** On no path of the statement, the tests of the status being those of Initializing, is the status
    set, a goroutine started, a timer armed, or the centroids or the number of iterations changed. *)
Fixpoint inert_i (i : instr) : bool :=
  match i with
  | ISetStatus _ | ISpawn _ _ | IStartTimer _ | IDefer _ => false
  | IModel MReset | IModel MCentroids | IModel MSave => false
  | IIf (CStatus Initializing) p _ => forallb inert_i p
  | IIf (CStatus _) _ q => forallb inert_i q
  | IIf _ p q => forallb inert_i p && forallb inert_i q
  | ILoop _ p | ITryAck p => forallb inert_i p
  | _ => true
  end.
Definition inert (p : list instr) : bool := forallb inert_i p.

(** Every goroutine but [t] is inert and has deferred nothing. *)
Definition others_inert {C : Type} (t : nat) (st : state C) : Prop :=
  forall u th, u <> t -> nth_error (s_th st) u = Some th -> inert (th_code th) = true /\ th_defer th = None.
