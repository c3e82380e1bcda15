(** What a goroutine of the controller does around the iterations of the implementation: the tests
    of the loop condition, the results of Iterate, the iterations saved and the statuses set, in the
    order of the goroutine, read off the statements an execution goes through. *)
From Coq Require Import List ZArith Bool.
From Verif Require Import Base.Go Base.Num Model.Status Model.Finish Model.CtrlLang Model.CtrlCode Spec.CtrlSpec.
Import ListNotations.
Local Open Scope list_scope.

(** [TTest m]: the finishing conditions were evaluated on [m]; [TIter r]: Iterate was called and
    gave [r]; [TSave c f]: an iteration was saved with these centroids and figures; [TStatus s]: the
    status was set. *)
Inductive tevent (C : Type) : Type :=
| TTest (m : fin_model)
| TIter (r : iter_result C)
| TSave (c : option C) (f : option figures)
| TStatus (s : oc_status).
Arguments TTest {C}.
Arguments TIter {C}.
Arguments TSave {C}.
Arguments TStatus {C}.

Section Trace.
  Context {C : Type}.
  Variable cf : cconf.

  (** The event of goroutine [t] if it makes its next step in [st], the implementation answering [o]. *)
  Definition step_event (t : nat) (o : oracle C) (st : state C) : list (tevent C) :=
    match nth_error (s_th st) t with
    | None => []
    | Some th =>
        match th_code th with
        | IGet GTest2 :: _ => [TTest (the_model (s_sh st))]
        | IImplIterate :: _ => [TIter (o_iter o)]
        | IModel MSave :: _ => [TSave (l_cent (th_loc th)) (l_figs (th_loc th))]
        | ISetStatus e :: _ => [TStatus (eval_st e (th_loc th))]
        | _ => []
        end
    end.
  Definition move_event (t : nat) (m : move C) (st : state C) : list (tevent C) :=
    match m with Solo u o => if Nat.eqb t u then step_event t o st else [] | Comm _ _ => [] end.

  (** The events of goroutine [t] in the execution [ms] from [st], oldest first. *)
  Fixpoint events (t : nat) (ms : list (move C)) (st : state C) : list (tevent C) :=
    match ms with
    | [] => []
    | m :: ms' =>
        move_event t m st ++ match do_move cf m st with None => [] | Some st' => events t ms' st' end
    end.

  (** Neither the budget nor the finishing condition of the configuration is reached. *)
  Definition goes_on (m : fin_model) : Prop :=
    is_finished (Some (FIter (cf_iter cf) (cf_ipd cf))) m = false /\
    forall g, cf_fin cf = Some g -> is_finished (Some g) m = false.

  (** The error of a failed call of Iterate, and the centroids of a successful one. *)
  Definition failure (r : iter_result C) : option algo_error :=
    match r with
    | IterRes _ _ (Some e) => Some (ErrImpl e)
    | IterRes _ _ None => None
    | IterPanic n => Some (ErrImpl n)
    end.
  Definition success (r : iter_result C) : option (C * option figures) :=
    match r with IterRes (Some c) f None => Some (c, f) | _ => None end.

  (** The goroutine still has to save the result of Iterate, or to set the status of its failure. *)
  Definition due (a : tevent C) : Prop :=
    match a with TIter r => success r <> None \/ failure r <> None | _ => False end.

  (** [b] may come just after [a]. *)
  Definition may_follow (a b : tevent C) : Prop :=
    match b with
    | TTest _ => ~ due a
    | TIter _ => exists m, a = TTest m /\ goes_on m
    | TSave c f => exists r c', a = TIter r /\ success r = Some (c', f) /\ c = Some c'
    | TStatus s =>
        match a with
        | TIter r => success r = None /\ forall e, failure r = Some e -> s = mkStatus Finished (Some e)
        | _ => True
        end
    end.
  (** [b] may come first. *)
  Definition may_begin (b : tevent C) : Prop :=
    match b with TTest _ | TStatus _ => True | TIter _ | TSave _ _ => False end.
End Trace.
