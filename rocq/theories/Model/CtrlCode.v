(** The functions of core/ctrl.go, core/algo.go, core/model.go and core/timeout.go in the language
    of Model/CtrlLang.v. *)
From Coq Require Import List ZArith Bool.
From Verif Require Import Model.Status Model.Finish Model.CtrlLang.
Import ListNotations.
Local Open Scope list_scope.

(** core/algo.go:61-70 *)
Definition set_status (e : stexp) (safe : bool) : list instr :=
  (if safe then [ILock MStatus; ISetStatus e; IUnlock MStatus] else [ISetStatus e])
  ++ [ISend FldNotif e].

(** The value true sent on ackChannel is not used; any status stands for it. *)
Definition send_ack : list instr := [ISend FldAck (XValue Running)].

(** core/algo.go:73-77 *)
Definition receive_status : list instr := IRecv FldStatus :: set_status XRecv true ++ send_ack.

(** core/algo.go:80-84 *)
Definition send_status (e : stexp) : list instr := [ISend FldStatus e; IRecv FldAck].

(** core/model.go:49-53 *)
Definition status_code : list instr := [IRLock MStatus; IGet GStatus; IRUnlock MStatus].

(** core/model.go:14-46: Centroids, Space, Conf and Impl: the value read is not used here. *)
Definition model_code : list instr := [IRLock MModel; IRUnlock MModel].

(** core/algo.go:86-103. [user] is the code of the notifier. notifChannel is never closed. *)
Definition notification_loop (user : option (list instr)) : list instr :=
  [ILoop CLoop
     (IRecv FldNotif :: model_code ++
      match user with Some p => p | None => [] end)].

(** core/ctrl.go:83-93. kmeans.Impl.Init and mcmc.Impl.Init call Conf() and Space() of the algo
    (kmeans/impl.go:21-23, mcmc/impl.go:44-45); streaming.Impl.Init calls none of them. *)
Definition init_common : list instr :=
  set_status (XValue Initializing) false
  ++ model_code ++ model_code ++ [IImplInit]
  ++ [ILock MModel; IModel MCentroids; IUnlock MModel]
  ++ [IIf CErrNil (set_status (XValue Ready) false) (set_status (XError SrcErr) false)].

Section Code.
  Variable cf : cconf.

  (** core/ctrl.go:66-98 *)
  Definition init_code : list instr :=
    [IIf (CStatus Finished)
       ([ILock MModel; IModel MReset; IUnlock MModel] ++ init_common)
       [IIf (CStatus Created)
          ([IMakeNotif; ISpawn KNotifier (notification_loop (cf_notifier cf))] ++ init_common)
          [IGet (GErr (Some ErrAlreadyCreated))]]].

  (** core/ctrl.go:60-64 *)
  Definition init_call : list instr :=
    [IGet (GErr None); ILock MStatus] ++ init_code ++ [IUnlock MStatus].

  (** core/ctrl.go:176-193. *)
  Definition interrupt_code (e : option algo_error) : list instr :=
    let send := IUnlock MStatus :: send_status (XError (SrcConst e)) ++ [IGet GStatusErr] in
    [IGet (GErr None); ILock MStatus;
     IIf (CStatus Ready) (set_status (XError (SrcConst e)) false ++ [IUnlock MStatus])
       [IIf (CStatus Idle) send
          [IIf (CStatus Running) send
             [IUnlock MStatus; IGet (GErr (Some ErrNotAlive))]]]].

  (** core/ctrl.go:196-198 *)
  Definition stop_call : list instr := interrupt_code None.

  (** core/timeout.go:54-59 *)
  Definition timer_code : list instr := [IIf CEnabled (interrupt_code (Some ErrTimeout)) []].

  (** core/ctrl.go:207-239. The unlock deferred at line 209 is the last statement: the statements
      before it do not panic (Proofs/CtrlCheck.v shows the channel closed at line 237 is open). *)
  Definition recover_code : list instr :=
    [IEndDefer; ILock MStatus; IIf CPanic (set_status (XError SrcPanic) false) []]
    ++ [ILock MModel; IModel MDuration; IUnlock MModel]
    ++ [ITryStatus; IIf COk (set_status XRecv false) []]
    ++ [ITryAck [ICloseAck]; IUnlock MStatus].

  (** The loop condition of core/ctrl.go:269. RuntimeFigures() of core/finish.go:64 locks the model
      mutex; the map it returns is read after the mutex is released (core/finish.go:65-66). *)
  Definition loop_test : list instr :=
    [IGet GTest0; IGet GTest1; IIf CGo (model_code ++ [IGet GTest2]) []].

  (** core/ctrl.go:270-302 *)
  Definition loop_body : list instr :=
    [ITryStatus;
     IIf CGot
       (set_status XRecv true ++ [IIf CGotIdle (send_ack ++ receive_status) []])
       [IGet GModel; IIterBegin; IImplIterate;
        IIf CSaved [ILock MModel; IModel MSave; IUnlock MModel] []]].

  (** core/ctrl.go:304-310 *)
  Definition run_end : list instr :=
    [IIf CErrNil
       [IIf (CStatus Running) (set_status (XValue Ready) true) []]
       (set_status (XError SrcErr) true)].

  (** core/ctrl.go:242-311. *)
  Definition run_code : list instr :=
    [IMakeAck; IGet GModel; IDefer recover_code] ++ receive_status ++ loop_test
    ++ [ILoop CGo (loop_body ++ loop_test)]
    ++ run_end ++ recover_code.

  (** core/ctrl.go:116-126 *)
  Definition play_ready : list instr :=
    [ISpawn KRunner run_code; IUnlock MStatus] ++ send_status (XValue Running)
    ++ [IIf CHasTimeout [IDisable] []] ++ model_code
    ++ [IIf CConfTimeout [IStartTimer timer_code] []].

  (** core/ctrl.go:109-113: the return of line 112 leaves statusMutex locked. *)
  Definition play_init : list instr :=
    init_code ++ [IIf CInitFailed [ILeak MStatus] (IGet (GErr None) :: play_ready)].

  (** core/ctrl.go:101-132. No case of the switch matches Initializing: the mutex stays locked. *)
  Definition play_call : list instr :=
    [IGet (GErr None); ILock MStatus;
     IIf (CStatus Idle) (IUnlock MStatus :: send_status (XValue Running))
       [IIf (CStatus Finished) play_init
          [IIf (CStatus Created) play_init
             [IIf (CStatus Ready) play_ready
                [IIf (CStatus Running)
                   [IUnlock MStatus; IGet (GErr (Some ErrRunning))]
                   [ILeak MStatus]]]]]].

  (** core/ctrl.go:135-147 *)
  Definition pause_call : list instr :=
    [IGet (GErr None); ILock MStatus;
     IIf (CStatus Running)
       (IUnlock MStatus :: send_status (XValue Idle)
        ++ [IIf CAckNo [IGet (GErr (Some ErrNotRunning))] []])
       [IGet (GErr (Some ErrNotRunning)); IUnlock MStatus]].

  (** core/timeout.go:69-88. A poll reads the status and the figures, whatever part of them the
      finishing condition reads. *)
  Definition wait_poll (f : option finishing) (d : Z) : list instr :=
    status_code ++ [IRLock MModel; IGet GFigures; IRUnlock MModel; IGet (GWait f d)].
  Definition wait_code (f : option finishing) (d : Z) : list instr :=
    IGet (GDeadline d) :: wait_poll f d ++ [ILoop CGo (wait_poll f d)]
    ++ status_code ++ [IGet GWaitErr].

  (** core/ctrl.go:156-173 *)
  Definition wait_call (f : option finishing) (d : Z) : list instr :=
    IGet (GErr None) :: status_code ++
    [IIf (CVal Running)
       (model_code ++ [IIf (CNever f d) [IGet (GErr (Some ErrNeverFinish))] (wait_code f d)])
       [IIf (CVal Idle) [IGet (GErr (Some ErrIdle))]
          [IIf (CVal Ready) []
             [IIf (CVal Finished) [] [IGet (GErr (Some ErrNotRunning))]]]]].

  (** core/ctrl.go:22-44. The Push of the implementations reads the status first (kmeans/impl.go:35,
      mcmc/impl.go:80; streaming/impl.go does not). The error of Play at line 40 is dropped; the
      error returned is nil. *)
  Definition push_call : list instr :=
    IGet (GErr None) :: status_code ++
    [IImplPush;
     IIf CErrNil
       ([ILock MModel; IModel MPushed] ++ status_code ++ [IModel MNewData; IModel MFigures; IUnlock MModel]
        ++ [IRLock MModel; IGet GNewZero; IIf CNewZero play_call []; IGet (GErr None); IRUnlock MModel])
       []].

  (** core/ctrl.go:47-57. *)
  Definition batch_call : list instr :=
    stop_call ++ play_call ++
    [IIf CErrNil (wait_call None 0 ++ [IIf CErrNil (stop_call ++ [IGet (GErr None)]) []]) []].

  (** The calls of core/ctrl.go:9-19 and core/model.go:4-11 a client makes; [DModel] is any of
      Centroids, Conf, Impl, Space, RuntimeFigures, Predict and Copy: they only read model fields
      under the model mutex. *)
  Inductive dcall : Type :=
  | DInit | DPlay | DPause | DStop | DWait (f : option finishing) (d : Z) | DPush | DBatch
  | DStatus | DModel.

  Definition call_code (c : dcall) : list instr :=
    match c with
    | DInit => init_call
    | DPlay => play_call
    | DPause => pause_call
    | DStop => stop_call
    | DWait f d => wait_call f d
    | DPush => push_call
    | DBatch => batch_call
    | DStatus => status_code
    | DModel => model_code
    end.
  (** Only the controller calls return an error. *)
  Definition returns_error (c : dcall) : bool :=
    match c with DStatus | DModel => false | _ => true end.

  Definition client_code (cs : list dcall) : list instr :=
    flat_map (fun c => call_code c ++ [IReturn (returns_error c)]) cs.
End Code.
