(** Vocabulary of the statements about the controller at statement granularity: reachable states,
    what a goroutine is about to do, histories. *)
From Coq Require Import List ZArith Bool String.
From Verif Require Import Base.Go Base.Num Model.Status Model.Finish Model.CtrlLang Model.CtrlCode.
Import ListNotations.
Local Open Scope list_scope.

(** The notifier makes calls that do not start goroutines. *)
Definition plain_call (c : dcall) : Prop :=
  match c with DPause | DStop | DWait _ _ | DStatus | DModel => True | _ => False end.
Definition plain_notifier (cf : cconf) : Prop :=
  match cf_notifier cf with
  | None => True
  | Some p => exists cs, Forall plain_call cs /\ p = flat_map (call_code cf) cs
  end.

(** The status changes of the documentation of the controller (core/status.go, README). *)
Inductive workflow : clust_status -> clust_status -> Prop :=
| wf_init a : a = Created \/ a = Finished -> workflow a Initializing
| wf_ready : workflow Initializing Ready
| wf_fail : workflow Initializing Finished
| wf_play : workflow Ready Running
| wf_stop_ready : workflow Ready Finished
| wf_pause : workflow Running Idle
| wf_done : workflow Running Ready
| wf_stop_running : workflow Running Finished
| wf_resume : workflow Idle Running
| wf_stop_idle : workflow Idle Finished.

(** The status changes of arbitrary interleavings. *)
Definition settled (s : clust_status) : Prop := s = Ready \/ s = Running \/ s = Idle \/ s = Finished.
Inductive possible_change : clust_status -> clust_status -> Prop :=
| pc_init a : a = Created \/ a = Finished -> possible_change a Initializing
| pc_inited b : b = Ready \/ b = Finished -> possible_change Initializing b
| pc_settled a b : settled a -> settled b -> possible_change a b.

(** Every two consecutive elements are related. *)
Definition linked {X} (R : X -> X -> Prop) (l : list X) : Prop :=
  forall l1 a b l2, l = l1 ++ a :: b :: l2 -> R a b.

(** An error is attached to Finished only. *)
Definition error_only_finished (s : oc_status) : Prop :=
  st_error s <> None -> st_value s = Finished.

(** Fields of Algo read or written outside or inside the mutexes. *)
Inductive field : Type := FStatusField | FCentroids | FFigures | FNewData | FAck | FTimeout.

(** The fields a statement reads (false) or writes (true): the accesses of the Go code it stands
    for. The arguments of Iterate are status, figures and centroids (core/ctrl.go:281-283). *)
Definition accesses (i : instr) : list (field * bool) :=
  match i with
  | ISetStatus _ => [(FStatusField, true)]
  | IIf (CStatus _) _ _ => [(FStatusField, false)]
  | IGet GStatus | IGet GStatusErr | IGet GTest1 => [(FStatusField, false)]
  | IGet GTest2 | IGet GFigures => [(FFigures, false)]
  | IGet GModel => [(FStatusField, false); (FCentroids, false)]
  | IGet GNewZero => [(FNewData, false)]
  | IModel MReset | IModel MFigures | IModel MDuration => [(FFigures, true)]
  | IModel MCentroids => [(FCentroids, true)]
  | IModel MNewData => [(FNewData, true)]
  | IModel MSave => [(FCentroids, true); (FFigures, true)]
  | IMakeAck => [(FAck, true)]
  | ISend FldAck _ | IRecv FldAck | ITryAck _ | ICloseAck => [(FAck, false)]
  | IStartTimer _ => [(FTimeout, true)]
  | IDisable | IIf CHasTimeout _ _ => [(FTimeout, false)]
  | _ => []
  end.

Section Spec.
  Context {C : Type}.
  Variable cf : cconf.

  (** [st] is reached by some interleaving of the goroutines, from clients making the calls [css]. *)
  Definition reachable (css : list (list dcall)) (st : state C) : Prop :=
    exists ms, exec cf ms (start (map (client_code cf) css)) = Some st.

  (** Goroutine [t] is about to execute [i]. *)
  Definition about_to (st : state C) (t : nat) (i : instr) : Prop :=
    exists th k, nth_error (s_th st) t = Some th /\ th_code th = i :: k.
  (** Goroutine [t] has returned. *)
  Definition ended (st : state C) (t : nat) : Prop :=
    exists th, nth_error (s_th st) t = Some th /\ th_code th = [].
  Definition kind_of (st : state C) (t : nat) : option kind := option_map th_kind (nth_error (s_th st) t).

  (** No goroutine can do anything, now and forever. *)
  Definition all_blocked (st : state C) : Prop :=
    sh_crashed (s_sh st) = false /\ forall m, do_move cf m st = None.

  Definition holds (st : state C) (m : mutex) (t : nat) : Prop := rw_holder (lock_of m (s_sh st)) = HBy t.
  Definition reads (st : state C) (m : mutex) (t : nat) : Prop := In t (rw_readers (lock_of m (s_sh st))).
  Definition leaked (st : state C) (m : mutex) : Prop := rw_holder (lock_of m (s_sh st)) = HLeaked.

  (** Two goroutines are about to access the same field, one of them to write it. *)
  Definition data_race (st : state C) (f : field) : Prop :=
    exists t u i j w, t <> u /\ about_to st t i /\ about_to st u j /\
      In (f, true) (accesses i) /\ In (f, w) (accesses j).

  (** Histories, last event first. *)
  Definition statuses_set (log : list (event C)) : list oc_status :=
    flat_map (fun e => match e with EvStatus _ s => [s] | _ => [] end) (rev log).
  Definition notified (log : list (event C)) : list oc_status :=
    flat_map (fun e => match e with EvNotified _ s => [s] | _ => [] end) (rev log).
  (** The statuses goroutine [t] has set, and those of them the notification loop has taken. *)
  Definition set_by (t : nat) (log : list (event C)) : list oc_status :=
    flat_map (fun e => match e with EvStatus u s => if Nat.eqb t u then [s] else [] | _ => [] end) (rev log).
  Definition notified_by (t : nat) (log : list (event C)) : list oc_status :=
    flat_map (fun e => match e with EvNotified u s => if Nat.eqb t u then [s] else [] | _ => [] end) (rev log).
  Definition returned (t : nat) (log : list (event C)) : list (option algo_error) :=
    flat_map (fun e => match e with EvReturn u r => if Nat.eqb t u then [r] else [] | _ => [] end) (rev log).
  (** The events since the last reset. *)
  Fixpoint since_reset (log : list (event C)) : list (event C) :=
    match log with
    | [] => []
    | EvReset :: _ => []
    | e :: log' => e :: since_reset log'
    end.
  Definition iterations_saved (log : list (event C)) : Z :=
    Z.of_nat (List.length (filter (fun e => match e with EvSaved _ _ => true | _ => false end) (since_reset log))).
  Definition pushes (log : list (event C)) : Z :=
    Z.of_nat (List.length (filter (fun e => match e with EvPushed => true | _ => false end) (since_reset log))).
  (** The figures returned by the last iteration saved since the last reset. *)
  Fixpoint last_saved (log : list (event C)) : figures :=
    match log with
    | [] => []
    | EvReset :: _ => []
    | EvSaved _ (Some rf) :: _ => rf
    | EvSaved _ None :: _ => []
    | _ :: log' => last_saved log'
    end.

  (** The notification a goroutine still has to send. *)
  Definition to_notify (th : thread C) : list oc_status :=
    match th_code th with
    | ISending ChNotif v :: _ => [v]
    | ISend FldNotif e :: _ => [eval_st e (th_loc th)]
    | IUnlock MStatus :: ISend FldNotif e :: _ => [eval_st e (th_loc th)]
    | _ => []
    end.
End Spec.
