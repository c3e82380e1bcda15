(** C54-C67, C75-C78: the controller, over all interleavings of its goroutines. *)
From Coq Require Import List ZArith Bool String.
From Verif Require Import Base.Go Base.Num Model.Status Model.Finish Model.CtrlLang Model.CtrlCode
  Spec.CtrlSpec Proofs.CtrlMain Proofs.CtrlTraces Proofs.CtrlNotif.
Import ListNotations.
Local Open Scope list_scope.

(** One client: Pause while the run ends makes the status go from Ready to Idle. *)
Theorem C54_workflow_refuted : exists st : state nat, reachable conf1 [[DPlay; DPause; DPlay]] st /\
  exists l1 l2, map st_value (new_status Created :: statuses_set (sh_log (s_sh st))) = l1 ++ Ready :: Idle :: l2 /\
  ~ workflow Ready Idle.
Proof. exact workflow_broken. Qed.
Print Assumptions C54_workflow_refuted.

(** Any number of clients: the changes that are possible, and where errors are. *)
Theorem C54_all_schedules_partial : forall (C : Type) (cf : cconf) css (st : state C), plain_notifier cf -> reachable cf css st ->
  linked possible_change (map st_value (new_status Created :: statuses_set (sh_log (s_sh st)))) /\
  last (new_status Created :: statuses_set (sh_log (s_sh st))) (new_status Created) = sh_status (s_sh st) /\
  Forall error_only_finished (statuses_set (sh_log (s_sh st))).
Proof. exact @status_changes. Qed.
Print Assumptions C54_all_schedules_partial.

Example C54_case : plain_notifier conf5 /\ reachable conf5 [[DPlay; DPause; DStop; DPlay]] (st_of t_two_runs) /\
  map st_value (statuses_set (sh_log (s_sh (st_of t_two_runs)))) =
    [Initializing; Ready; Running; Idle; Finished; Initializing; Ready; Running].
Proof.
  split; [exact I|]. split; [apply st_of_reachable; vm_compute; reflexivity|]. vm_compute. reflexivity.
Qed.

Theorem C57_figures : forall (C : Type) (cf : cconf) css (st : state C), plain_notifier cf -> reachable cf css st ->
  (forall t, ~ holds st MModel t) ->
  figure (m_figs (sh_model (s_sh st))) "iterations" = b64_of_Z (iterations_saved (sh_log (s_sh st))) /\
  figure (m_figs (sh_model (s_sh st))) "pushedData" = b64_of_Z (pushes (sh_log (s_sh st))) /\
  forall key, ~ In key ["iterations"; "pushedData"; "lastDataTime"; "duration"]%string ->
    figure (m_figs (sh_model (s_sh st))) key = figure (last_saved (sh_log (s_sh st))) key.
Proof. exact @figures_count. Qed.
Print Assumptions C57_figures.

Example C57_case : plain_notifier conf1 /\ reachable conf1 [[DPush; DPlay]] (st_of t_figures) /\
  rw_holder (sh_lock_m (s_sh (st_of t_figures))) = HFree /\
  iterations_saved (sh_log (s_sh (st_of t_figures))) = 1%Z /\ pushes (sh_log (s_sh (st_of t_figures))) = 1%Z /\
  sh_status (s_sh (st_of t_figures)) = new_status Ready.
Proof.
  split; [exact I|]. split; [apply st_of_reachable; vm_compute; reflexivity|]. vm_compute. repeat split; reflexivity.
Qed.

(** One client: after a Play that fails to initialize, Status() blocks forever. *)
Theorem C59_failed_play_refuted : exists st : state nat, reachable conf1 [[DPlay; DStatus]] st /\
  returned 0 (sh_log (s_sh st)) = [Some (ErrImpl 5)] /\ leaked st MStatus /\
  about_to st 0 (IRLock MStatus) /\ all_blocked conf1 st.
Proof. exact failed_play_blocks. Qed.
Print Assumptions C59_failed_play_refuted.

(** Once statusMutex is left locked, the status never changes again and every goroutine that needs the mutex is blocked forever. *)
Theorem C59_leaked_partial : forall (C : Type) (cf : cconf) css ms (st st' : state C), plain_notifier cf -> reachable cf css st ->
  leaked st MStatus -> exec cf ms st = Some st' ->
  leaked st' MStatus /\ sh_status (s_sh st') = sh_status (s_sh st) /\
  forall t i, i = ILock MStatus \/ i = IRLock MStatus -> about_to st t i -> about_to st' t i.
Proof. exact @leaked_forever. Qed.
Print Assumptions C59_leaked_partial.

Example C59_case : plain_notifier conf1 /\ reachable conf1 [[DPlay; DPlay]; [DStatus]] (st_of t_leak) /\
  leaked (st_of t_leak) MStatus /\ about_to (st_of t_leak) 0 (ILock MStatus) /\
  about_to (st_of t_leak) 1 (IRLock MStatus) /\ sh_status (s_sh (st_of t_leak)) = new_status_error (ErrImpl 5).
Proof.
  split; [exact I|]. split; [apply st_of_reachable; vm_compute; reflexivity|].
  split; [vm_compute; reflexivity|]. split; [here|]. split; [here|]. vm_compute. reflexivity.
Qed.

(** Push holds the model mutex and waits for the status mutex; Init holds the status mutex and waits for the model mutex. *)
Theorem C60_push_init_refuted : exists st : state nat, reachable conf1 [[DPush]; [DInit]] st /\
  holds st MModel 0 /\ about_to st 0 (IRLock MStatus) /\ holds st MStatus 1 /\ about_to st 1 (IRLock MModel) /\
  all_blocked conf1 st.
Proof. exact push_init_deadlock. Qed.
Print Assumptions C60_push_init_refuted.

(** The same between Push and the end of a run. *)
Theorem C60_push_end_refuted : exists st : state nat, reachable conf1 [[DPlay]; [DPush]] st /\
  returned 0 (sh_log (s_sh st)) = [None] /\ ended st 0 /\
  holds st MModel 1 /\ about_to st 1 (IRLock MStatus) /\
  kind_of st 3 = Some KRunner /\ holds st MStatus 3 /\ about_to st 3 (ILock MModel) /\
  all_blocked conf1 st.
Proof. exact push_end_deadlock. Qed.
Print Assumptions C60_push_end_refuted.

(** Init notifies Ready while it holds the status mutex; the notifier is still reading the status for Initializing. *)
Theorem C61_notifier_refuted : cf_notifier conf_notif = Some (call_code conf_notif DStatus) /\
  exists st : state nat, reachable conf_notif [[DInit]] st /\
  holds st MStatus 0 /\ about_to st 0 (ISending ChNotif (new_status Ready)) /\
  kind_of st 1 = Some KNotifier /\ about_to st 1 (IRLock MStatus) /\ all_blocked conf_notif st.
Proof. exact notifier_deadlock. Qed.
Print Assumptions C61_notifier_refuted.

(** Pause returns ErrNotRunning, the status is Idle without a run goroutine, and Play blocks forever. *)
Theorem C62_pause_refuted : exists st : state nat, reachable conf1 [[DPlay; DPause; DPlay]] st /\
  returned 0 (sh_log (s_sh st)) = [None; Some ErrNotRunning] /\
  sh_status (s_sh st) = new_status Idle /\ kind_of st 2 = Some KRunner /\ ended st 2 /\
  about_to st 0 (ISending ChStatus (new_status Running)) /\ all_blocked conf1 st.
Proof. exact pause_end_deadlock. Qed.
Print Assumptions C62_pause_refuted.

(** One client: two run goroutines are about to iterate. *)
Theorem C63_two_runs_refuted : exists st : state nat, reachable conf5 [[DPlay; DPause; DStop; DPlay]] st /\
  kind_of st 2 = Some KRunner /\ about_to st 2 IImplIterate /\
  kind_of st 3 = Some KRunner /\ about_to st 3 IImplIterate.
Proof. exact two_runs. Qed.
Print Assumptions C63_two_runs_refuted.

Theorem C66_order_refuted : exists st : state nat, reachable conf1 [[DPlay; DStop]] st /\
  map st_value (statuses_set (sh_log (s_sh st))) = [Initializing; Ready; Running; Ready; Finished] /\
  map st_value (notified (sh_log (s_sh st))) = [Initializing; Ready; Running; Finished; Ready] /\
  ended st 0 /\ ended st 2.
Proof. exact notifications_swapped. Qed.
Print Assumptions C66_order_refuted.

(** Every goroutine notifies each status it sets once, in its own order. *)
Theorem C66_once_partial : forall (C : Type) (cf : cconf) css (st : state C), plain_notifier cf -> reachable cf css st ->
  forall t th, nth_error (s_th st) t = Some th ->
    set_by t (sh_log (s_sh st)) = notified_by t (sh_log (s_sh st)) ++ to_notify th.
Proof. exact @notified_in_order. Qed.
Print Assumptions C66_once_partial.

Example C66_case : plain_notifier conf1 /\ reachable conf1 [[DPlay; DStop]] (st_of t_notif_order) /\
  map st_value (set_by 2 (sh_log (s_sh (st_of t_notif_order)))) = [Running; Ready] /\
  map st_value (set_by 0 (sh_log (s_sh (st_of t_notif_order)))) = [Initializing; Ready; Finished].
Proof.
  split; [exact I|]. split; [apply st_of_reachable; vm_compute; reflexivity|]. vm_compute. split; reflexivity.
Qed.

Theorem C67_lock_hygiene : forall (C : Type) (cf : cconf) css (st : state C), plain_notifier cf -> reachable cf css st ->
  sh_crashed (s_sh st) = false /\
  (forall t e, about_to st t (ISetStatus e) -> holds st MStatus t) /\
  (forall t op, about_to st t (IModel op) -> holds st MModel t) /\
  (forall t m, about_to st t (IUnlock m) -> holds st m t) /\
  (forall t m, about_to st t (IRUnlock m) -> reads st m t) /\
  (forall m t, holds st m t -> forall u, ~ reads st m u) /\
  (forall m t, holds st m t \/ reads st m t -> exists i, about_to st t i) /\
  (forall t b, about_to st t (IReturn b) -> forall m, ~ holds st m t /\ ~ reads st m t) /\
  (forall t, about_to st t IImplIterate -> forall m, ~ holds st m t /\ ~ reads st m t) /\
  ~ leaked st MModel.
Proof. exact @lock_hygiene. Qed.
Print Assumptions C67_lock_hygiene.

Example C67_case : plain_notifier conf1 /\ reachable conf1 [[DPlay]; [DPush]] (st_of t_push_end) /\
  holds (st_of t_push_end) MModel 1 /\ holds (st_of t_push_end) MStatus 3.
Proof.
  split; [exact I|]. split; [apply st_of_reachable; vm_compute; reflexivity|]. split; vm_compute; reflexivity.
Qed.

(** One client: the Play called by Push holds the model mutex for reading and wants it again, while the run waits to write. *)
Theorem C75_auto_play_refuted : exists st : state nat, reachable conf_dpi [[DInit; DPush; DPush]] st /\
  returned 0 (sh_log (s_sh st)) = [None; None] /\
  reads st MModel 0 /\ about_to st 0 (IRLock MModel) /\
  kind_of st 2 = Some KRunner /\ about_to st 2 (IAcquire MModel) /\ all_blocked conf_dpi st.
Proof. exact push_play_deadlock. Qed.
Print Assumptions C75_auto_play_refuted.

(** The loop condition reads the figures map while Push writes it. *)
Theorem C76_figures_race_refuted : exists st : state nat, reachable conf5 [[DPlay; DPush]] st /\
  about_to st 0 (IModel MFigures) /\ kind_of st 2 = Some KRunner /\ about_to st 2 (IGet GTest2) /\
  data_race st FFigures.
Proof. exact figures_race. Qed.
Print Assumptions C76_figures_race_refuted.

Theorem C76_status_race_refuted : exists st : state nat, reachable conf5 [[DPlay; DPause; DStop; DPlay]] st /\
  holds st MStatus 0 /\ kind_of st 2 = Some KRunner /\ data_race st FStatusField.
Proof. exact status_race. Qed.
Print Assumptions C76_status_race_refuted.

(** One client: every call returns nil, yet the second run dies of a send on the channel closed by the first one, without iterating. *)
Theorem C77_restart_refuted : exists st : state nat, reachable conf5 [[DPlay; DPause; DStop; DPlay]] st /\
  returned 0 (sh_log (s_sh st)) = [None; None; None; None] /\
  sh_status (s_sh st) = new_status_error (ErrImpl closed_panic) /\
  last (statuses_set (sh_log (s_sh st))) (new_status Created) = new_status_error (ErrImpl closed_panic) /\
  since_reset (sh_log (s_sh st)) = filter (fun e => match e with EvSaved _ _ => false | _ => true end) (since_reset (sh_log (s_sh st))).
Proof. exact restart_killed. Qed.
Print Assumptions C77_restart_refuted.

Theorem C78_stale_timer_refuted : exists st : state nat, reachable conf_timeout [[DPlay; DWait None 0]] st /\
  returned 0 (sh_log (s_sh st)) = [None; None] /\
  map st_value (statuses_set (sh_log (s_sh st))) = [Initializing; Ready; Running; Ready; Finished] /\
  kind_of st 2 = Some KRunner /\ ended st 2 /\
  sh_status (s_sh st) = new_status_error ErrTimeout.
Proof. exact stale_timer. Qed.
Print Assumptions C78_stale_timer_refuted.
