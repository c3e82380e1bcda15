(** Vocabulary of the comparison of the two models of the controller: the history of an execution
    without the goroutine numbers and the notifications, which the model at call granularity does
    not represent, and the calls of a sequence of actions. *)
From Coq Require Import List ZArith.
From Verif Require Import Model.Status Model.CtrlLang Model.CtrlCode Model.CtrlSeq.
Import ListNotations.
Local Open Scope list_scope.

Fixpoint unnumbered {C} (log : list (event C)) : list (event C) :=
  match log with
  | [] => []
  | EvStatus _ v :: log' => EvStatus 0 v :: unnumbered log'
  | EvNotified _ _ :: log' => unnumbered log'
  | EvReturn _ e :: log' => EvReturn 0 e :: unnumbered log'
  | e :: log' => e :: unnumbered log'
  end.

Fixpoint calls_of {C} (xs : list (action C)) : list dcall :=
  match xs with
  | [] => []
  | ACall c _ :: xs' => c :: calls_of xs'
  | AProgress _ :: xs' => calls_of xs'
  end.

(** A Wait that may go on for ever, whatever the run does, is one on a condition of the client and
    without a deadline. *)
Definition bounded_wait (c : dcall) : Prop := match c with DWait (Some _) d => (0 < d)%Z | _ => True end.

(** An execution of the client that makes the calls [cs] on a new Algo in which all of them returned;
    [st]: where it stops. *)
Definition all_returned {C} (cf : cconf) (cs : list dcall) (st : state C) : Prop :=
  (exists ms, exec cf ms (start [client_code cf cs]) = Some st) /\ sh_crashed (s_sh st) = false /\
  exists th, nth_error (s_th st) 0 = Some th /\ th_code th = [].
