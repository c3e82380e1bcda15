(** The controller used by one client, at call granularity: core/ctrl.go, core/algo.go,
    core/timeout.go when, at every call, the run goroutine is over, or at the select of its loop
    (core/ctrl.go:270), or waiting for a status in receiveStatus (core/algo.go:74). Between two calls
    the run goroutine may do any number of turns of its loop and the timer may fire. The races inside
    calls are in Model/CtrlLang.v and Model/CtrlCode.v, whose updates of the model fields are used
    here. Goroutine numbers of the events are always 0; notifications are not represented. *)
From Coq Require Import List ZArith Bool.
From Verif Require Import Base.Num Model.Status Model.Finish Model.CtrlLang Model.CtrlCode.
Import ListNotations.
Local Open Scope list_scope.

(** core/timeout.go:69-88, for any state observed at the polls; [prog] is what happens between a
    poll and the next one, or the read of the status at line 85. None: still waiting. *)
Section Wait.
  Context {S P : Type}.
  Variable obs : S -> fin_model.
  Variable prog : P -> S -> S.
  Fixpoint wait_loop (f : option finishing) (d deadline : Z) (ps : list (Z * P)) (s : S) : option (S * option algo_error) :=
    match ps with
    | [] => None
    | (now, p) :: ps' =>
        let s' := prog p s in
        if is_finished f (obs s) then Some (s', st_error (fm_status (obs s')))
        else if (0 <? d)%Z && (deadline <? now)%Z then Some (s', Some ErrTimeout)
        else wait_loop f d deadline ps' s'
    end.
  (** core/timeout.go:42-52 and :71 *)
  Definition wait_timeout (f : option finishing) (d start : Z) (ps : list (Z * P)) (s : S) : option (S * option algo_error) :=
    wait_loop (wait_finishing f) d (start + d) ps s.
End Wait.

Section Seq.
  Context {C : Type}.
  Variable cf : cconf.

  (** Where the run goroutine is; [AtTest]: before the condition of its loop, without error. *)
  Inductive runner : Type := NoRun | AtTest | AtSelect | AtWait.

  (** The fields of Algo; [q_timer]: the last timer has not fired and is enabled; [q_locked]:
      statusMutex was left locked (core/ctrl.go:112); [q_log]: the history, last event first. *)
  Record seq_st : Type := mkSeq {
    q_status : oc_status;
    q_model : model_st C;
    q_run : runner;
    q_timer : bool;
    q_locked : bool;
    q_log : list (event C)
  }.
  Definition q_set (q : seq_st) (v : oc_status) : seq_st :=
    mkSeq v (q_model q) (q_run q) (q_timer q) (q_locked q) (EvStatus 0 v :: q_log q).
  Definition q_upd (q : seq_st) (m : model_st C) : seq_st :=
    mkSeq (q_status q) m (q_run q) (q_timer q) (q_locked q) (q_log q).
  Definition q_runner (q : seq_st) (r : runner) : seq_st :=
    mkSeq (q_status q) (q_model q) r (q_timer q) (q_locked q) (q_log q).
  Definition q_set_timer (q : seq_st) (b : bool) : seq_st :=
    mkSeq (q_status q) (q_model q) (q_run q) b (q_locked q) (q_log q).
  Definition q_lock (q : seq_st) : seq_st :=
    mkSeq (q_status q) (q_model q) (q_run q) (q_timer q) true (q_log q).
  Definition q_event (q : seq_st) (e : event C) : seq_st :=
    mkSeq (q_status q) (q_model q) (q_run q) (q_timer q) (q_locked q) (e :: q_log q).
  (** core/algo.go:41-55 *)
  Definition seq0 : seq_st := mkSeq (new_status Created) (mkModel None [] 0 0 0 0 0) NoRun false false [].

  Definition q_fin (q : seq_st) : fin_model := mkFinModel (q_status q) (m_figs (q_model q)).

  (** core/ctrl.go:304-310, then recover :207-239, when no client is sending a status. A panic is
      recovered in the same way as an error (core/ctrl.go:211-214). *)
  Definition end_run (err : option algo_error) (now : Z) (q : seq_st) : seq_st :=
    let q := match err with
             | None => if status_eqb (st_value (q_status q)) Running then q_set q (new_status Ready) else q
             | Some e => q_set q (new_status_error e)
             end in
    q_runner (q_upd q (model_duration (q_model q) now)) NoRun.

  (** core/ctrl.go:269 with err == nil *)
  Definition settle (now : Z) (q : seq_st) : seq_st :=
    match q_run q with
    | AtTest =>
        if status_eqb (st_value (q_status q)) Running && negb (is_finished (run_finishing cf) (q_fin q))
        then q_runner q AtSelect else end_run None now q
    | _ => q
    end.

  (** core/ctrl.go:278-303: the select takes its default branch, then the loop condition. *)
  Definition turn (r : iter_result C) (duration now : Z) (q : seq_st) : seq_st :=
    match q_run q with
    | AtSelect =>
        match r with
        | IterRes c f None =>
            let q := match c with
                     | Some _ => q_event (q_upd q (model_save (q_model q) c f duration)) (EvSaved c f)
                     | None => q
                     end in
            settle now (q_runner q AtTest)
        | IterRes _ _ (Some n) | IterPanic n => end_run (Some (ErrImpl n)) now q
        end
    | _ => q
    end.

  (** core/ctrl.go:176-193. The run goroutine receives the status at the select of its loop (:271) or
      in receiveStatus; without it the send of line 186 would block. *)
  Definition interrupt (e : option algo_error) (now : Z) (q : seq_st) : option (seq_st * option algo_error) :=
    let fin := mkStatus Finished e in
    match st_value (q_status q), q_run q with
    | Ready, _ => Some (q_set q fin, None)
    | Idle, AtWait => let q := q_runner (q_set q fin) AtTest in Some (q, st_error (q_status q))
    | Running, AtSelect => let q := end_run None now (q_set q fin) in Some (q, st_error (q_status q))
    | Idle, _ | Running, _ => None
    | _, _ => Some (q, Some ErrNotAlive)
    end.

  (** core/ctrl.go:83-93 *)
  Definition init_common_seq (r : option C * option nat) (q : seq_st) : seq_st * option algo_error :=
    let q := q_set q (new_status Initializing) in
    let q := q_upd q (model_centroids (q_model q) (fst r)) in
    match snd r with
    | None => (q_set q (new_status Ready), None)
    | Some n => (q_set q (new_status_error (ErrImpl n)), Some (ErrImpl n))
    end.
  (** core/ctrl.go:66-98 *)
  Definition init_seq (r : option C * option nat) (q : seq_st) : seq_st * option algo_error :=
    match st_value (q_status q) with
    | Finished => init_common_seq r (q_event (q_upd q (model_reset (q_model q))) EvReset)
    | Created => init_common_seq r q
    | _ => (q, Some ErrAlreadyCreated)
    end.

  (** core/ctrl.go:117-126 *)
  Definition start_seq (q : seq_st) : seq_st :=
    q_set_timer (q_runner (q_set q (new_status Running)) AtTest) (cf_timeout cf).
  (** core/ctrl.go:101-132. Initializing is not seen at call granularity. *)
  Definition play_seq (r : option C * option nat) (q : seq_st) : option (seq_st * option algo_error) :=
    match st_value (q_status q), q_run q with
    | Idle, AtWait => Some (q_runner (q_set q (new_status Running)) AtTest, None)
    | Idle, _ => None
    | Ready, _ => Some (start_seq q, None)
    | Running, _ => Some (q, Some ErrRunning)
    | _, _ =>
        let (q, err) := init_seq r q in
        match err with
        | None | Some ErrAlreadyCreated => Some (start_seq q, None)
        | Some e => Some (q_lock q, Some e)
        end
    end.

  (** core/ctrl.go:135-147 *)
  Definition pause_seq (q : seq_st) : option (seq_st * option algo_error) :=
    match st_value (q_status q), q_run q with
    | Running, AtSelect => Some (q_runner (q_set q (new_status Idle)) AtWait, None)
    | Running, _ => None
    | _, _ => Some (q, Some ErrNotRunning)
    end.

  (** core/ctrl.go:22-44. [now] is the time in seconds. *)
  Definition push_seq (err : option nat) (r : option C * option nat) (now : Z) (q : seq_st) : option (seq_st * option algo_error) :=
    match err with
    | Some n => Some (q, Some (ErrImpl n))
    | None =>
        let q := q_event (q_upd q (model_pushed (q_model q) now)) EvPushed in
        let q := q_upd q (model_figures (model_new_data cf (q_model q) (st_value (q_status q)))) in
        if (m_new (q_model q) =? 0)%Z
        then match play_seq r q with None => None | Some (q, _) => Some (q, None) end
        else Some (q, None)
    end.

  (** What happens between two calls: a turn of the loop; the timer fires (core/timeout.go:54-59).
      Nothing happens when there is no such goroutine, or when it is blocked. *)
  Inductive progress : Type := PTurn (r : iter_result C) (duration now : Z) | PTimer (now : Z).
  Definition advance (p : progress) (q : seq_st) : seq_st :=
    match p with
    | PTurn r duration now => turn r duration now q
    | PTimer now =>
        if q_timer q then
          let q := q_set_timer q false in
          if q_locked q then q
          else match interrupt (Some ErrTimeout) now q with None => q | Some (q, _) => settle now q end
        else q
    end.

  (** core/ctrl.go:150-153 *)
  Definition never_finish (f : option finishing) (d : Z) : bool :=
    match f with None => true | Some _ => false end && (d <=? 0)%Z &&
    match cf_fin cf with None => true | Some _ => false end && negb (cf_timeout cf) &&
    (cf_iter cf =? 0)%Z && (cf_ipd cf =? 0)%Z.

  (** core/ctrl.go:156-173 *)
  Definition wait_seq (f : option finishing) (d start : Z) (ps : list (Z * list progress)) (q : seq_st) : option (seq_st * option algo_error) :=
    match st_value (q_status q) with
    | Running =>
        if never_finish f d then Some (q, Some ErrNeverFinish)
        else wait_timeout q_fin (fun l q => fold_left (fun q p => advance p q) l q) f d start ps q
    | Idle => Some (q, Some ErrIdle)
    | Ready | Finished => Some (q, None)
    | _ => Some (q, Some ErrNotRunning)
    end.

  (** core/ctrl.go:47-57. [mid] happens between the return of Play and the read of the status by Wait. *)
  Definition batch_seq (r : option C * option nat) (start now : Z) (mid : list progress) (ps : list (Z * list progress)) (q : seq_st) : option (seq_st * option algo_error) :=
    match interrupt None now q with
    | None => None
    | Some (q, _) =>
        match play_seq r (settle now q) with
        | None => None
        | Some (q, Some e) => Some (q, Some e)
        | Some (q, None) =>
            match wait_seq None 0 start ps (fold_left (fun q p => advance p q) mid (settle now q)) with
            | None => None
            | Some (q, Some e) => Some (q, Some e)
            | Some (q, None) => match interrupt None now q with None => None | Some (q, _) => Some (q, None) end
            end
        end
    end.

  (** A call and the results of the implementation and of the clock during it. None: the call does
      not return. *)
  Record answers : Type := mkAnswers {
    a_init : option C * option nat;
    a_push : option nat;
    a_now : Z;
    a_end : Z;
    a_mid : list progress;
    a_polls : list (Z * list progress)
  }.
  Definition call_seq (c : dcall) (a : answers) (q : seq_st) : option (seq_st * option algo_error) :=
    match c with
    | DModel => Some (q, None)
    | _ =>
        if q_locked q then None else
        match c with
        | DInit => Some (init_seq (a_init a) q)
        | DPlay => play_seq (a_init a) q
        | DPause => pause_seq q
        | DStop => interrupt None (a_end a) q
        | DWait f d => wait_seq f d (a_now a) (a_polls a) q
        | DPush => push_seq (a_push a) (a_init a) (a_now a) q
        | DBatch => batch_seq (a_init a) (a_now a) (a_end a) (a_mid a) (a_polls a) q
        | DStatus | DModel => Some (q, None)
        end
    end.

  (** An action: a call that returns, after which the run goroutine goes to the select of its loop,
      to receiveStatus or to its end; or progress without a call. *)
  Inductive action : Type := ACall (c : dcall) (a : answers) | AProgress (p : progress).
  Definition act (x : action) (q : seq_st) : option seq_st :=
    match x with
    | ACall c a =>
        match call_seq c a q with
        | None => None
        | Some (q', e) => Some (settle (a_end a) (q_event q' (EvReturn 0 (if returns_error c then e else None))))
        end
    | AProgress p => Some (advance p q)
    end.
  Fixpoint acts (xs : list action) (q : seq_st) : option seq_st :=
    match xs with
    | [] => Some q
    | x :: xs' => match act x q with None => None | Some q' => acts xs' q' end
    end.
End Seq.
Arguments seq_st : clear implicits.
Arguments answers : clear implicits.
Arguments action : clear implicits.
Arguments progress : clear implicits.
