(** A panic of the initializer. impl.Init runs in the goroutine that called Init, Play or Batch
    (core/ctrl.go:85), outside the deferred recover of a run (core/ctrl.go:206): the panic goes
    through the call to the client. Model/CtrlLang.v has no such panic; here it is a step of its own
    of a client that recovers it and goes on with its next call. *)
From Coq Require Import List ZArith Bool.
From Verif Require Import Base.Go Model.Status Model.CtrlLang Model.CtrlCode.
Import ListNotations.
Local Open Scope list_scope.

(** core/ctrl.go:86-93: what init executes after impl.Init. *)
Definition after_init : list instr :=
  [ILock MModel; IModel MCentroids; IUnlock MModel]
  ++ [IIf CErrNil (set_status (XValue Ready) false) (set_status (XError SrcErr) false)].

(** core/ctrl.go:61-63, :110-126 and :49-56: what Init, Play and Batch execute after impl.Init. *)
Definition after_call (c : dcall) : list instr :=
  let play := after_init ++ [IIf CInitFailed [ILeak MStatus] (IGet (GErr None) :: play_ready)] in
  match c with
  | DInit => after_init ++ [IUnlock MStatus]
  | DPlay => play
  | DBatch => play ++ [IIf CErrNil (wait_call None 0 ++ [IIf CErrNil (stop_call ++ [IGet (GErr None)]) []]) []]
  | _ => []
  end.

Section InitPanic.
  Context {C : Type}.
  Variable cf : cconf.

  (** Client [t] is about to call impl.Init within [c]; its next calls are [cs]. *)
  Definition in_init (t : nat) (c : dcall) (cs : list dcall) (th : thread C) (st : state C) : Prop :=
    nth_error (s_th st) t = Some th /\
    th_code th = IImplInit :: after_call c ++ IReturn true :: client_code cf cs.

  (** impl.Init panics within Init: the unlock deferred at core/ctrl.go:62 is executed, nothing
      else; the client recovers and goes on. *)
  Definition init_panics (t : nat) (cs : list dcall) (st st' : state C) : Prop :=
    exists th, in_init t DInit cs th st /\
      st' = mkState (s_sh st)
              (upd (s_th st) t (mkThread (th_kind th) (IUnlock MStatus :: client_code cf cs) (th_loc th) None)).

  (** impl.Init panics within Play, called by the client or by Batch: nothing is deferred
      (core/ctrl.go:101-132). The mutex stays locked by a call that is over. *)
  Definition play_panics (t : nat) (c : dcall) (cs : list dcall) (st st' : state C) : Prop :=
    (c = DPlay \/ c = DBatch) /\
    exists th, in_init t c cs th st /\
      st' = mkState (set_lock MStatus (mkRw HLeaked (rw_pending (sh_lock_s (s_sh st))) (rw_readers (sh_lock_s (s_sh st)))) (s_sh st))
              (upd (s_th st) t (mkThread (th_kind th) (client_code cf cs) (th_loc th) None)).
End InitPanic.
