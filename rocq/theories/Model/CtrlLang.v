(** The controller of core/ctrl.go, core/algo.go, core/model.go and core/timeout.go as concurrent
    code: a small language for the statements these files use (mutexes, unbuffered channels,
    goroutines, reads and writes of the fields of Algo) and its interleaving semantics. The
    transcription of the functions is in Model/CtrlCode.v.

    Simplifications. One step executes one statement of the language, in any interleaving of the
    goroutines (sequential consistency). Sleeping takes no step. The centroids are opaque values;
    the implementation is an oracle: at each call of it any result may be returned. *)
From Coq Require Import List ZArith Bool String.
From Verif Require Import Base.Go Base.Num Model.Status Model.Finish.
Import ListNotations.
Local Open Scope list_scope.

(** core/algo.go:35-36 *)
Inductive mutex : Type := MStatus | MModel.

Definition mutex_eqb (a b : mutex) : bool :=
  match a, b with MStatus, MStatus | MModel, MModel => true | _, _ => false end.

(** sync.RWMutex. [rw_pending] is the writer that announced itself and waits for the active
    readers to leave: new readers wait for it, as in Go. [HLeaked] is a mutex locked for writing by
    a goroutine that has returned without unlocking it. Simplification: Go admits the readers
    blocked by a writer before the next writer; here the next writer may also overtake them. *)
Inductive holder : Type := HFree | HBy (t : nat) | HLeaked.
Record rwlock : Type := mkRw {
  rw_holder : holder;
  rw_pending : option nat;
  rw_readers : list nat
}.
Definition rw_free : rwlock := mkRw HFree None [].

(** The status expressions given to setStatus and sendStatus: NewOCStatus(v), NewOCStatusError(e)
    where e is a constant, the local err or the recovered panic, and the status received from
    statusChannel. *)
Inductive err_src : Type := SrcConst (e : option algo_error) | SrcErr | SrcPanic.
Inductive stexp : Type := XValue (v : clust_status) | XError (s : err_src) | XRecv.

(** The channel fields of Algo (core/algo.go:24-26), and the channels: statusChannel is made once
    by NewAlgo, notifChannel once by the first init, ackChannel by NewAlgo and by every run. *)
Inductive chfield : Type := FldStatus | FldAck | FldNotif.
Inductive channel : Type := ChStatus | ChNotif | ChAck (n : nat).

Definition chan_eqb (a b : channel) : bool :=
  match a, b with
  | ChStatus, ChStatus | ChNotif, ChNotif => true
  | ChAck n, ChAck m => Nat.eqb n m
  | _, _ => false
  end.

(** Updates of the model fields:
    [MReset] core/ctrl.go:70-75, [MCentroids] :87, [MPushed] :26-27, [MNewData] :29-33,
    [MFigures] :34 and :313-317, [MSave] :289-292 and :319-327, [MDuration] :220-222. *)
Inductive mop : Type := MReset | MCentroids | MPushed | MNewData | MFigures | MSave | MDuration.

(** Reads of shared fields into locals and local assignments:
    [GStatus] a read of the status (core/model.go:52), [GStatusErr] core/ctrl.go:187,
    [GErr e] err = e, [GNewZero] algo.newData == 0 (core/ctrl.go:39),
    [GTest0], [GTest1], [GTest2] the three operands of the loop condition of core/ctrl.go:269,
    [GModel] the arguments of Iterate (core/ctrl.go:281-283),
    [GFigures] the figures map read by a Wait, [GDeadline d] core/timeout.go:71, [GWait f d]
    core/timeout.go:74-81 with finishing [f] and duration [d]; [GWaitErr] core/timeout.go:84-86. *)
Inductive getter : Type :=
| GStatus | GStatusErr | GErr (e : option algo_error) | GNewZero
| GTest0 | GTest1 | GTest2 | GModel | GFigures
| GDeadline (d : Z) | GWait (f : option finishing) (d : Z) | GWaitErr.

(** Conditions: [CStatus v] algo.status.Value == v; [CVal v] the result of Status() has value v;
    [CErrNil] err == nil; [CInitFailed] core/ctrl.go:111; [CSaved] err == nil and centroids != nil
    (core/ctrl.go:286-287); [CPanic] recovery != nil; [COk] the select received a status and there
    is no recovery (core/ctrl.go:227-228); [CGot] the select received a status (core/ctrl.go:271);
    [CGotIdle] core/ctrl.go:273; [CGo] the loop condition; [CNewZero] core/ctrl.go:39; [CAckNo] the
    acknowledgement was not ok (core/ctrl.go:139); [CHasTimeout] core/ctrl.go:120; [CConfTimeout]
    core/ctrl.go:124; [CEnabled] core/timeout.go:56; [CNever f d] core/ctrl.go:152; [CNotifier]
    core/algo.go:90; [CLoop] true. *)
Inductive cond : Type :=
| CStatus (v : clust_status) | CVal (v : clust_status)
| CErrNil | CInitFailed | CSaved | CPanic | COk | CGot | CGotIdle | CGo | CNewZero | CAckNo
| CHasTimeout | CConfTimeout | CEnabled | CNever (f : option finishing) (d : Z) | CNotifier | CLoop.

Inductive kind : Type := KClient | KRunner | KNotifier | KTimer.

(** Statements. [ILock] announces the writer and becomes [IAcquire], which waits for the readers;
    [ISend] evaluates the channel and the value and becomes [ISending], parked on the channel; the
    same for [IRecv]. [ITryStatus] is the select of core/ctrl.go:225-232 and :270-277 with default;
    [ITryAck p] is the select of core/ctrl.go:234-238 with default [p]. [ILeak] does nothing: it
    marks a return that leaves the mutex locked. [ISpawn] is a go statement; [IDefer p] registers
    the deferred call [p], [IEndDefer] begins it; [IStartTimer p] core/timeout.go:31-39, [IDisable]
    :90-94. *)
Inductive instr : Type :=
| ILock (m : mutex) | IAcquire (m : mutex) | IUnlock (m : mutex)
| IRLock (m : mutex) | IRUnlock (m : mutex) | ILeak (m : mutex)
| ISetStatus (e : stexp)
| IModel (op : mop)
| IGet (g : getter)
| ISend (f : chfield) (e : stexp) | ISending (c : channel) (v : oc_status)
| IRecv (f : chfield) | IReceiving (c : channel)
| ITryStatus
| ITryAck (p : list instr)
| IMakeAck | IMakeNotif | ICloseAck
| ISpawn (k : kind) (p : list instr)
| IIf (c : cond) (p q : list instr)
| ILoop (c : cond) (p : list instr)
| IImplInit | IIterBegin | IImplIterate | IImplPush
| IDefer (p : list instr) | IEndDefer
| IStartTimer (p : list instr) | IDisable
| IReturn (e : bool).

(** The parts of the configuration the controller reads (core/conf.go:10-20): the iteration budget,
    DataPerIter, whether Timeout > 0, Finishing, and the StatusNotifier as the code it executes. *)
Record cconf : Type := mkCConf {
  cf_iter : Z;
  cf_ipd : Z;
  cf_dpi : Z;
  cf_timeout : bool;
  cf_fin : option finishing;
  cf_notifier : option (list instr)
}.

(** Assignment rf[key] = v of a map. *)
Definition set_figure (rf : figures) (key : string) (v : b64) : figures :=
  (key, v) :: filter (fun kv => negb (String.eqb (fst kv) key)) rf.

Section Lang.
  Context {C : Type}.
  Variable cf : cconf.

  (** The model fields of Algo (core/algo.go:22, :27-32); durations are numbers of nanoseconds. *)
  Record model_st : Type := mkModel {
    m_centroids : option C;
    m_figs : figures;
    m_new : Z;
    m_pushed : Z;
    m_iter : Z;
    m_duration : Z;
    m_last : Z
  }.

  (** Results of the implementation: Init returns centroids and an error, Push an error; Iterate
      returns centroids, figures and an error, or panics. [o_time] is the clock or the elapsed
      duration read by the statement. *)
  Inductive iter_result : Type :=
  | IterRes (c : option C) (f : option figures) (err : option nat)
  | IterPanic (n : nat).
  Record oracle : Type := mkOracle {
    o_init : option C * option nat;
    o_iter : iter_result;
    o_push : option nat;
    o_time : Z
  }.

  (** Local variables of the goroutine. *)
  Record locals : Type := mkLocals {
    l_recv : oc_status;
    l_note : oc_status;
    l_val : oc_status;
    l_got : bool;
    l_ok : bool;
    l_go : bool;
    l_zero : bool;
    l_err : option algo_error;
    l_panic : option algo_error;
    l_cent : option C;
    l_figs : option figures;
    l_timer : nat;
    l_deadline : Z
  }.
  Definition locals0 : locals :=
    mkLocals (new_status Running) (new_status Created) (new_status Created) false false false false
      None None None None 0 0%Z.

  Definition set_recv l x := mkLocals x (l_note l) (l_val l) (l_got l) (l_ok l) (l_go l) (l_zero l) (l_err l) (l_panic l) (l_cent l) (l_figs l) (l_timer l) (l_deadline l).
  Definition set_note l x := mkLocals (l_recv l) x (l_val l) (l_got l) (l_ok l) (l_go l) (l_zero l) (l_err l) (l_panic l) (l_cent l) (l_figs l) (l_timer l) (l_deadline l).
  Definition set_val l x := mkLocals (l_recv l) (l_note l) x (l_got l) (l_ok l) (l_go l) (l_zero l) (l_err l) (l_panic l) (l_cent l) (l_figs l) (l_timer l) (l_deadline l).
  Definition set_got l x := mkLocals (l_recv l) (l_note l) (l_val l) x (l_ok l) (l_go l) (l_zero l) (l_err l) (l_panic l) (l_cent l) (l_figs l) (l_timer l) (l_deadline l).
  Definition set_ok l x := mkLocals (l_recv l) (l_note l) (l_val l) (l_got l) x (l_go l) (l_zero l) (l_err l) (l_panic l) (l_cent l) (l_figs l) (l_timer l) (l_deadline l).
  Definition set_go l x := mkLocals (l_recv l) (l_note l) (l_val l) (l_got l) (l_ok l) x (l_zero l) (l_err l) (l_panic l) (l_cent l) (l_figs l) (l_timer l) (l_deadline l).
  Definition set_zero l x := mkLocals (l_recv l) (l_note l) (l_val l) (l_got l) (l_ok l) (l_go l) x (l_err l) (l_panic l) (l_cent l) (l_figs l) (l_timer l) (l_deadline l).
  Definition set_err l x := mkLocals (l_recv l) (l_note l) (l_val l) (l_got l) (l_ok l) (l_go l) (l_zero l) x (l_panic l) (l_cent l) (l_figs l) (l_timer l) (l_deadline l).
  Definition set_panic l x := mkLocals (l_recv l) (l_note l) (l_val l) (l_got l) (l_ok l) (l_go l) (l_zero l) (l_err l) x (l_cent l) (l_figs l) (l_timer l) (l_deadline l).
  Definition set_cent l x := mkLocals (l_recv l) (l_note l) (l_val l) (l_got l) (l_ok l) (l_go l) (l_zero l) (l_err l) (l_panic l) x (l_figs l) (l_timer l) (l_deadline l).
  Definition set_figs l x := mkLocals (l_recv l) (l_note l) (l_val l) (l_got l) (l_ok l) (l_go l) (l_zero l) (l_err l) (l_panic l) (l_cent l) x (l_timer l) (l_deadline l).
  Definition set_timer l x := mkLocals (l_recv l) (l_note l) (l_val l) (l_got l) (l_ok l) (l_go l) (l_zero l) (l_err l) (l_panic l) (l_cent l) (l_figs l) x (l_deadline l).
  Definition set_deadline l x := mkLocals (l_recv l) (l_note l) (l_val l) (l_got l) (l_ok l) (l_go l) (l_zero l) (l_err l) (l_panic l) (l_cent l) (l_figs l) (l_timer l) x.

  (** History of an execution, for the statements only: the status was set; the notification loop
      took the notification of goroutine [t]; the fields were reset; an iteration was saved with these figures; a push
      was counted; a call returned this error. *)
  Inductive event : Type :=
  | EvStatus (t : nat) (s : oc_status)
  | EvNotified (t : nat) (s : oc_status)
  | EvReset
  | EvSaved (c : option C) (f : option figures)
  | EvPushed
  | EvReturn (t : nat) (e : option algo_error).

  Record thread : Type := mkThread {
    th_kind : kind;
    th_code : list instr;
    th_loc : locals;
    th_defer : option (list instr)
  }.

  (** Fields of Algo shared by the goroutines, the closed channels, the timers (enabled or not) and
      the history (last event first). [sh_crashed]: a panic was not recovered. *)
  Record shared : Type := mkShared {
    sh_status : oc_status;
    sh_lock_s : rwlock;
    sh_lock_m : rwlock;
    sh_model : model_st;
    sh_notif : bool;
    sh_ack : nat;
    sh_nack : nat;
    sh_closed : list nat;
    sh_timeout : option nat;
    sh_timers : list bool;
    sh_log : list event;
    sh_crashed : bool
  }.
  Record state : Type := mkState { s_sh : shared; s_th : list thread }.

  Definition lock_of (m : mutex) (s : shared) : rwlock :=
    match m with MStatus => sh_lock_s s | MModel => sh_lock_m s end.
  Definition set_lock (m : mutex) (l : rwlock) (s : shared) : shared :=
    match m with
    | MStatus => mkShared (sh_status s) l (sh_lock_m s) (sh_model s) (sh_notif s) (sh_ack s) (sh_nack s) (sh_closed s) (sh_timeout s) (sh_timers s) (sh_log s) (sh_crashed s)
    | MModel => mkShared (sh_status s) (sh_lock_s s) l (sh_model s) (sh_notif s) (sh_ack s) (sh_nack s) (sh_closed s) (sh_timeout s) (sh_timers s) (sh_log s) (sh_crashed s)
    end.
  Definition set_status_ s x := mkShared x (sh_lock_s s) (sh_lock_m s) (sh_model s) (sh_notif s) (sh_ack s) (sh_nack s) (sh_closed s) (sh_timeout s) (sh_timers s) (sh_log s) (sh_crashed s).
  Definition set_model s x := mkShared (sh_status s) (sh_lock_s s) (sh_lock_m s) x (sh_notif s) (sh_ack s) (sh_nack s) (sh_closed s) (sh_timeout s) (sh_timers s) (sh_log s) (sh_crashed s).
  Definition set_notif s x := mkShared (sh_status s) (sh_lock_s s) (sh_lock_m s) (sh_model s) x (sh_ack s) (sh_nack s) (sh_closed s) (sh_timeout s) (sh_timers s) (sh_log s) (sh_crashed s).
  Definition make_ack s := mkShared (sh_status s) (sh_lock_s s) (sh_lock_m s) (sh_model s) (sh_notif s) (sh_nack s) (S (sh_nack s)) (sh_closed s) (sh_timeout s) (sh_timers s) (sh_log s) (sh_crashed s).
  Definition close_ack s := mkShared (sh_status s) (sh_lock_s s) (sh_lock_m s) (sh_model s) (sh_notif s) (sh_ack s) (sh_nack s) (sh_ack s :: sh_closed s) (sh_timeout s) (sh_timers s) (sh_log s) (sh_crashed s).
  Definition set_timers s x y := mkShared (sh_status s) (sh_lock_s s) (sh_lock_m s) (sh_model s) (sh_notif s) (sh_ack s) (sh_nack s) (sh_closed s) x y (sh_log s) (sh_crashed s).
  Definition add_log s x := mkShared (sh_status s) (sh_lock_s s) (sh_lock_m s) (sh_model s) (sh_notif s) (sh_ack s) (sh_nack s) (sh_closed s) (sh_timeout s) (sh_timers s) (x :: sh_log s) (sh_crashed s).
  Definition crash s := mkShared (sh_status s) (sh_lock_s s) (sh_lock_m s) (sh_model s) (sh_notif s) (sh_ack s) (sh_nack s) (sh_closed s) (sh_timeout s) (sh_timers s) (sh_log s) true.

  (** core/ctrl.go:313-317 *)
  Definition update_figures (m : model_st) (rf : figures) : figures :=
    set_figure (set_figure (set_figure rf "iterations" (b64_of_Z (m_iter m)))
      "pushedData" (b64_of_Z (m_pushed m))) "lastDataTime" (b64_of_Z (m_last m)).

  (** core/ctrl.go:70-75 *)
  Definition model_reset (m : model_st) : model_st :=
    let m := mkModel (m_centroids m) [] (m_new m) 0 0 0 0 in
    mkModel (m_centroids m) (update_figures m []) (m_new m) (m_pushed m) (m_iter m) (m_duration m) (m_last m).

  (** core/ctrl.go:26-27 *)
  Definition model_pushed (m : model_st) (now : Z) : model_st :=
    mkModel (m_centroids m) (m_figs m) (m_new m) (m_pushed m + 1) (m_iter m) (m_duration m) now.

  (** core/ctrl.go:29-33 *)
  Definition model_new_data (m : model_st) (st : clust_status) : model_st :=
    let n := if status_eqb st Ready && (0 <? cf_dpi cf)%Z && (cf_dpi cf <=? m_new m)%Z
             then 0%Z else (m_new m + 1)%Z in
    mkModel (m_centroids m) (m_figs m) n (m_pushed m) (m_iter m) (m_duration m) (m_last m).

  (** core/ctrl.go:34 *)
  Definition model_figures (m : model_st) : model_st :=
    mkModel (m_centroids m) (update_figures m (m_figs m)) (m_new m) (m_pushed m) (m_iter m) (m_duration m) (m_last m).

  (** core/ctrl.go:87 *)
  Definition model_centroids (m : model_st) (c : option C) : model_st :=
    mkModel c (m_figs m) (m_new m) (m_pushed m) (m_iter m) (m_duration m) (m_last m).

  (** core/ctrl.go:289-292 and :319-327 *)
  Definition model_save (m : model_st) (c : option C) (rf : option figures) (duration : Z) : model_st :=
    let rf := match rf with None => [] | Some rf => rf end in
    let rf := set_figure rf "duration" (b64_of_Z (m_duration m + duration)) in
    let m := mkModel c rf (m_new m) (m_pushed m) (m_iter m + 1) (m_duration m) (m_last m) in
    model_figures m.

  (** core/ctrl.go:220-222 *)
  Definition model_duration (m : model_st) (d : Z) : model_st :=
    let d := (m_duration m + d)%Z in
    mkModel (m_centroids m) (set_figure (m_figs m) "duration" (b64_of_Z d)) (m_new m) (m_pushed m) (m_iter m) d (m_last m).

  Definition mop_model (op : mop) (l : locals) (now : Z) (m : model_st) : model_st :=
    match op with
    | MReset => model_reset m
    | MCentroids => model_centroids m (l_cent l)
    | MPushed => model_pushed m now
    | MNewData => model_new_data m (st_value (l_val l))
    | MFigures => model_figures m
    | MSave => model_save m (l_cent l) (l_figs l) now
    | MDuration => model_duration m now
    end.
  Definition mop_log (op : mop) (l : locals) (s : shared) : shared :=
    match op with
    | MReset => add_log s EvReset
    | MPushed => add_log s EvPushed
    | MSave => add_log s (EvSaved (l_cent l) (l_figs l))
    | _ => s
    end.

  Definition eval_err (e : err_src) (l : locals) : option algo_error :=
    match e with SrcConst e => e | SrcErr => l_err l | SrcPanic => l_panic l end.
  (** core/status.go:47-57 *)
  Definition eval_st (e : stexp) (l : locals) : oc_status :=
    match e with
    | XValue v => mkStatus v None
    | XError s => mkStatus Finished (eval_err s l)
    | XRecv => l_recv l
    end.

  (** core/ctrl.go:260-263 *)
  Definition run_finishing : option finishing :=
    match cf_fin cf with
    | None => Some (FIter (cf_iter cf) (cf_ipd cf))
    | Some g => Some (FOr [Some (FIter (cf_iter cf) (cf_ipd cf)); Some g])
    end.
  Definition the_model (s : shared) : fin_model := mkFinModel (sh_status s) (m_figs (sh_model s)).

  (** core/timeout.go:43-45 *)
  Definition wait_finishing (f : option finishing) : option finishing :=
    match f with None => Some (FStatus [Ready; Idle; Finished] true) | Some _ => f end.

  Definition eval_get (g : getter) (now : Z) (s : shared) (l : locals) : locals :=
    match g with
    | GStatus => set_val l (sh_status s)
    | GStatusErr => set_err l (st_error (sh_status s))
    | GErr e => set_err l e
    | GNewZero => set_zero l (m_new (sh_model s) =? 0)%Z
    | GTest0 => set_go l (match l_err l with None => true | Some _ => false end)
    | GTest1 => set_go l (l_go l && status_eqb (st_value (sh_status s)) Running)
    | GTest2 => set_go l (l_go l && negb (is_finished run_finishing (the_model s)))
    | GModel => l
    | GFigures => set_figs l (Some (m_figs (sh_model s)))
    | GDeadline d => set_deadline l (now + d)%Z
    | GWait f d =>
        let m := mkFinModel (l_val l) (match l_figs l with Some rf => rf | None => [] end) in
        if is_finished (wait_finishing f) m then set_err (set_go l false) None
        else if (0 <? d)%Z && (l_deadline l <? now)%Z then set_err (set_go l false) (Some ErrTimeout)
        else set_go l true
    | GWaitErr => match l_err l with None => set_err l (st_error (l_val l)) | Some _ => l end
    end.

  Definition eval_cond (c : cond) (s : shared) (l : locals) : bool :=
    match c with
    | CStatus v => status_eqb (st_value (sh_status s)) v
    | CVal v => status_eqb (st_value (l_val l)) v
    | CErrNil => match l_err l with None => true | Some _ => false end
    | CInitFailed => match l_err l with None | Some ErrAlreadyCreated => false | Some _ => true end
    | CSaved => match l_err l, l_cent l with None, Some _ => true | _, _ => false end
    | CPanic => match l_panic l with None => false | Some _ => true end
    | COk => l_got l && match l_panic l with None => true | Some _ => false end
    | CGot => l_got l
    | CGotIdle => status_eqb (st_value (l_recv l)) Idle
    | CGo => l_go l
    | CNewZero => l_zero l
    | CAckNo => negb (l_ok l)
    | CHasTimeout => match sh_timeout s with None => false | Some _ => true end
    | CConfTimeout => cf_timeout cf
    | CEnabled => nth (l_timer l) (sh_timers s) false
    | CNever f d =>
        match f with None => true | Some _ => false end && (d <=? 0)%Z &&
        match cf_fin cf with None => true | Some _ => false end && negb (cf_timeout cf) &&
        (cf_iter cf =? 0)%Z && (cf_ipd cf =? 0)%Z
    | CNotifier => match cf_notifier cf with None => false | Some _ => true end
    | CLoop => true
    end.

  Definition mem (n : nat) (l : list nat) : bool := existsb (Nat.eqb n) l.
  Fixpoint remove1 (n : nat) (l : list nat) : list nat :=
    match l with
    | [] => []
    | m :: l' => if Nat.eqb n m then l' else m :: remove1 n l'
    end.

  (** The channel a field designates; None is a nil channel. *)
  Definition channel_of (f : chfield) (s : shared) : option channel :=
    match f with
    | FldStatus => Some ChStatus
    | FldAck => Some (ChAck (sh_ack s))
    | FldNotif => if sh_notif s then Some ChNotif else None
    end.
  Definition closed (c : channel) (s : shared) : bool :=
    match c with ChAck n => mem n (sh_closed s) | _ => false end.

  Definition head (th : thread) : option instr := hd_error (th_code th).
  (** Some goroutine is parked on a send on [c]. *)
  Definition sender_parked (c : channel) (ths : list thread) : bool :=
    existsb (fun th => match head th with Some (ISending c' _) => chan_eqb c c' | _ => false end) ths.

  (** A panic runs the deferred call of the goroutine or, without one, crashes the program.
      core/ctrl.go:212: the error is the text of the panic. *)
  Definition do_panic (t n : nat) (th : thread) (st : state) : state :=
    match th_defer th with
    | Some d =>
        mkState (s_sh st) (upd (s_th st) t (mkThread (th_kind th) d (set_panic (th_loc th) (Some (ErrImpl n))) None))
    | None => mkState (crash (s_sh st)) (upd (s_th st) t (mkThread (th_kind th) [] (th_loc th) None))
    end.
  (** The text of the run-time panics of Go: here of a send on a closed channel. *)
  Definition closed_panic : nat := 0.

  Definition go_on (t : nat) (th : thread) (k : list instr) (l : locals) (s : shared) (ths : list thread) : state :=
    mkState s (upd ths t (mkThread (th_kind th) k l (th_defer th))).

  (** One step of goroutine [t], alone. *)
  Definition step (t : nat) (o : oracle) (st : state) : option state :=
    match nth_error (s_th st) t with
    | None => None
    | Some th =>
        let s := s_sh st in let l := th_loc th in let ths := s_th st in
        match th_code th with
        | [] => None
        | i :: k =>
            match i with
            | ILock m =>
                let r := lock_of m s in
                match rw_holder r, rw_pending r with
                | HFree, None =>
                    Some (go_on t th (IAcquire m :: k) l
                            (set_lock m (mkRw HFree (Some t) (rw_readers r)) s) ths)
                | _, _ => None
                end
            | IAcquire m =>
                let r := lock_of m s in
                match rw_holder r, rw_pending r, rw_readers r with
                | HFree, Some t', [] =>
                    if Nat.eqb t t' then Some (go_on t th k l (set_lock m (mkRw (HBy t) None []) s) ths)
                    else None
                | _, _, _ => None
                end
            | IUnlock m =>
                let r := lock_of m s in
                match rw_holder r with
                | HFree => Some (mkState (crash s) ths)
                | _ => Some (go_on t th k l (set_lock m (mkRw HFree (rw_pending r) (rw_readers r)) s) ths)
                end
            | IRLock m =>
                let r := lock_of m s in
                match rw_holder r, rw_pending r with
                | HFree, None => Some (go_on t th k l (set_lock m (mkRw HFree None (t :: rw_readers r)) s) ths)
                | _, _ => None
                end
            | IRUnlock m =>
                let r := lock_of m s in
                match rw_readers r with
                | [] => Some (mkState (crash s) ths)
                | t' :: rs =>
                    let rs := if mem t (rw_readers r) then remove1 t (rw_readers r) else rs in
                    Some (go_on t th k l (set_lock m (mkRw (rw_holder r) (rw_pending r) rs) s) ths)
                end
            | ILeak m =>
                let r := lock_of m s in
                match rw_holder r with
                | HFree => Some (go_on t th k l s ths)
                | _ => Some (go_on t th k l (set_lock m (mkRw HLeaked (rw_pending r) (rw_readers r)) s) ths)
                end
            | ISetStatus e =>
                let v := eval_st e l in
                Some (go_on t th k l (add_log (set_status_ s v) (EvStatus t v)) ths)
            | IModel op =>
                Some (go_on t th k l (mop_log op l (set_model s (mop_model op l (o_time o) (sh_model s)))) ths)
            | IGet g => Some (go_on t th k (eval_get g (o_time o) s l) s ths)
            | ISend f e =>
                match channel_of f s with
                | None => None
                | Some c =>
                    if closed c s then Some (do_panic t closed_panic th st)
                    else Some (go_on t th (ISending c (eval_st e l) :: k) l s ths)
                end
            | ISending c v => if closed c s then Some (do_panic t closed_panic th st) else None
            | IRecv f =>
                match channel_of f s with
                | None => None
                | Some c => Some (go_on t th (IReceiving c :: k) l s ths)
                end
            | IReceiving c => if closed c s then Some (go_on t th k (set_ok l false) s ths) else None
            | ITryStatus =>
                if sender_parked ChStatus ths then None
                else Some (go_on t th k (set_got l false) s ths)
            | ITryAck p =>
                let c := ChAck (sh_ack s) in
                if closed c s then Some (go_on t th k l s ths)
                else if sender_parked c ths then None
                else Some (go_on t th (p ++ k) l s ths)
            | IMakeAck => Some (go_on t th k l (make_ack s) ths)
            | IMakeNotif => Some (go_on t th k l (set_notif s true) ths)
            | ICloseAck =>
                if closed (ChAck (sh_ack s)) s then Some (do_panic t closed_panic th st)
                else Some (go_on t th k l (close_ack s) ths)
            | ISpawn kd p =>
                Some (go_on t th k l s (ths ++ [mkThread kd p locals0 None]))
            | IIf c p q => Some (go_on t th ((if eval_cond c s l then p else q) ++ k) l s ths)
            | ILoop c p =>
                Some (go_on t th (if eval_cond c s l then p ++ ILoop c p :: k else k) l s ths)
            | IImplInit =>
                let (c, e) := o_init o in
                Some (go_on t th k (set_err (set_cent l c) (option_map ErrImpl e)) s ths)
            | IIterBegin => Some (go_on t th k l s ths)
            | IImplIterate =>
                match o_iter o with
                | IterRes c f e =>
                    Some (go_on t th k (set_err (set_figs (set_cent l c) f) (option_map ErrImpl e)) s ths)
                | IterPanic n => Some (do_panic t n th st)
                end
            | IImplPush => Some (go_on t th k (set_err l (option_map ErrImpl (o_push o))) s ths)
            | IDefer p => Some (mkState s (upd ths t (mkThread (th_kind th) k l (Some p))))
            | IEndDefer => Some (mkState s (upd ths t (mkThread (th_kind th) k l None)))
            | IStartTimer p =>
                let n := List.length (sh_timers s) in
                Some (go_on t th k l (set_timers s (Some n) (sh_timers s ++ [true]))
                        (ths ++ [mkThread KTimer p (set_timer locals0 n) None]))
            | IDisable =>
                match sh_timeout s with
                | None => Some (go_on t th k l s ths)
                | Some n => Some (go_on t th k l (set_timers s (Some n) (upd (sh_timers s) n false)) ths)
                end
            | IReturn b => Some (go_on t th k l (add_log s (EvReturn t (if b then l_err l else None))) ths)
            end
        end
    end.

  (** A value sent on [c] reaches the locals of its receiver. *)
  Definition deliver (c : channel) (v : oc_status) (l : locals) : locals :=
    match c with
    | ChStatus => set_got (set_recv l v) true
    | ChNotif => set_note l v
    | ChAck _ => set_ok l true
    end.
  Definition deliver_log (t : nat) (c : channel) (v : oc_status) (s : shared) : shared :=
    match c with ChNotif => add_log s (EvNotified t v) | _ => s end.

  (** The continuation of a goroutine that can receive from [c] now. *)
  Definition receiver (c : channel) (s : shared) (code : list instr) : option (list instr) :=
    match code with
    | IReceiving c' :: k => if chan_eqb c c' then Some k else None
    | ITryStatus :: k => if chan_eqb c ChStatus then Some k else None
    | ITryAck _ :: k => if chan_eqb c (ChAck (sh_ack s)) then Some k else None
    | _ => None
    end.

  (** A parked sender [t] and a receiver [r] exchange a value. *)
  Definition comm (t r : nat) (st : state) : option state :=
    if Nat.eqb t r then None else
    match nth_error (s_th st) t, nth_error (s_th st) r with
    | Some th, Some thr =>
        match th_code th with
        | ISending c v :: k =>
            if closed c (s_sh st) then None else
            match receiver c (s_sh st) (th_code thr) with
            | Some kr =>
                let ths := upd (s_th st) t (mkThread (th_kind th) k (th_loc th) (th_defer th)) in
                Some (mkState (deliver_log t c v (s_sh st))
                        (upd ths r (mkThread (th_kind thr) kr (deliver c v (th_loc thr)) (th_defer thr))))
            | None => None
            end
        | _ => None
        end
    | _, _ => None
    end.

  Inductive move : Type := Solo (t : nat) (o : oracle) | Comm (t r : nat).
  Definition do_move (m : move) (st : state) : option state :=
    if sh_crashed (s_sh st) then None else
    match m with Solo t o => step t o st | Comm t r => comm t r st end.

  Fixpoint exec (ms : list move) (st : state) : option state :=
    match ms with
    | [] => Some st
    | m :: ms' => match do_move m st with None => None | Some st' => exec ms' st' end
    end.

  (** core/algo.go:41-55: a new Algo. *)
  Definition shared0 : shared :=
    mkShared (new_status Created) rw_free rw_free (mkModel None [] 0 0 0 0 0)
      false 0 1 [] None [] [] false.
  Definition client_thread (p : list instr) : thread := mkThread KClient p locals0 None.
  (** The goroutines of the clients of a new Algo. *)
  Definition start (ps : list (list instr)) : state := mkState shared0 (map client_thread ps).
End Lang.
Arguments model_st : clear implicits.
Arguments locals : clear implicits.
Arguments thread : clear implicits.
Arguments shared : clear implicits.
Arguments state : clear implicits.
Arguments oracle : clear implicits.
Arguments move : clear implicits.
Arguments event : clear implicits.
Arguments iter_result : clear implicits.
