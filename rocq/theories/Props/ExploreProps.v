(** C60-C63, C75-C77, C103-C105: every interleaving of the sessions of one client, by exploration. *)
From Coq Require Import List ZArith Bool.
From Verif Require Import Base.Go Base.Num Model.Status Model.Finish Model.CtrlLang Model.CtrlCode Spec.CtrlSpec Spec.ExploreSpec
  Proofs.CtrlTraces Proofs.ExploreTraces Proofs.ExploreEndless Proofs.ExploreOnce Proofs.ExploreCalm Proofs.ExploreMain.
Import ListNotations.
Local Open Scope list_scope.

(** One client: Stop reads the status while the run ends, then waits for it forever. *)
Theorem C103_stop_refuted : exists st : state nat, reachable conf1 [[DPlay; DStop]] st /\
  returned 0 (sh_log (s_sh st)) = [None] /\ sh_status (s_sh st) = new_status Ready /\ kind_of st 2 = Some KRunner /\ ended st 2 /\
  about_to st 0 (ISending ChStatus (new_status Finished)) /\ all_blocked conf1 st.
Proof. exact stop_end_blocked. Qed.
Print Assumptions C103_stop_refuted.

(** Runs that end only when they are stopped: whatever the interleaving so far and whatever the implementation answers next,
    the pending call can be led to its return. *)
Theorem C103_endless_partial : forall (C : Type) (cf : cconf) (cs : list dcall) (st : state C), endless cf -> calm_session cs ->
  reached cf obliging [cs] st -> ~ ended st 0 -> leads cf obliging (returning 0) st.
Proof. exact @endless_returns_all. Qed.
Print Assumptions C103_endless_partial.

(** One run that may end by itself, fail or panic: if the implementation fails from now on, the pending call can be led to its return. *)
Theorem C103_once_partial : forall (C : Type) (cf : cconf) (cs : list dcall) (st : state C), budgeted cf -> once_session cs ->
  reached cf initializing [cs] st -> ~ ended st 0 -> leads cf failing (returning 0) st.
Proof. exact @once_returns_all. Qed.
Print Assumptions C103_once_partial.

Example C103_case : endless conf0 /\ calm_session s_calm /\ reached conf0 obliging [s_calm] (st_of (t_calm conf0)) /\ ~ ended (st_of (t_calm conf0)) 0 /\
  budgeted conf5 /\ once_session s_fail /\ reached conf5 initializing [s_fail] (st_of t_fail) /\ ~ ended (st_of t_fail) 0 /\ failing o_fail.
Proof. exact calm_and_once. Qed.

(** In every interleaving a call that returns leaves the documented status and returns the documented error. *)
Theorem C104_documented : forall (C : Type) (cf : cconf) (cs : list dcall) (st : state C) done c rest th b, endless cf -> calm_session cs ->
  reached cf obliging [cs] st -> cs = done ++ c :: rest ->
  nth_error (s_th st) 0 = Some th -> th_code th = IReturn b :: client_code cf rest ->
  sh_status (s_sh st) = new_status (fst (after (done ++ [c]))) /\
  match snd (after (done ++ [c])) with Some e => l_err (th_loc th) = e | None => True end.
Proof. exact @endless_answered_all. Qed.
Print Assumptions C104_documented.

Theorem C104_no_crash : forall (C : Type) (cf : cconf) (cs : list dcall) (st : state C), endless cf -> calm_session cs ->
  reached cf obliging [cs] st -> sh_crashed (s_sh st) = false.
Proof. exact @endless_no_crash_all. Qed.
Print Assumptions C104_no_crash.

Example C104_case : endless conf0 /\ calm_session s_calm /\ reached conf0 obliging [s_calm] (st_of (t_calm conf0)) /\
  (exists th, nth_error (s_th (st_of (t_calm conf0))) 0 = Some th /\ th_code th = IReturn true :: client_code conf0 [] /\ l_err (th_loc th) = Some ErrNeverFinish) /\
  returned 0 (sh_log (s_sh (st_of (t_calm conf0)))) = [None; None; None; None; None; None; None; None] /\
  map (fun n => after (firstn n s_calm)) (seq 0 10) =
    [(Created, None); (Created, None); (Ready, Some None); (Running, Some None); (Running, None); (Idle, Some None); (Running, Some None);
     (Finished, Some None); (Running, Some None); (Running, Some (Some ErrNeverFinish))].
Proof. exact calm_case. Qed.

(** Once its run is started, a client that only waits and reads is told the truth. *)
Theorem C105_run_over : forall (C : Type) (cf : cconf) (cs : list dcall) (st : state C) done c rest th b, budgeted cf -> once_session cs ->
  reached cf initializing [cs] st -> cs = done ++ c :: rest ->
  nth_error (s_th st) 0 = Some th -> th_code th = IReturn b :: client_code cf rest ->
  let s := st_value (sh_status (s_sh st)) in let e := l_err (th_loc th) in
  match c with
  | DPlay => e = None /\ (s = Running \/ s = Ready \/ s = Finished)
  | DBatch => s = Finished /\ (e <> None -> st_error (sh_status (s_sh st)) <> None)
  | DWait _ _ => In DPlay done \/ In DBatch done ->
      (sh_status (s_sh st) = new_status Ready \/ s = Finished) /\ (e <> None -> st_error (sh_status (s_sh st)) <> None)
  | _ => True
  end.
Proof. exact @once_answers_all. Qed.
Print Assumptions C105_run_over.

Example C105_case : budgeted conf5 /\ once_session s_fail /\ reached conf5 initializing [s_fail] (st_of t_fail) /\
  (exists th, nth_error (s_th (st_of t_fail)) 0 = Some th /\ th_code th = IReturn true :: client_code conf5 [DStatus] /\ l_err (th_loc th) = Some (ErrImpl 7)) /\
  sh_status (s_sh (st_of t_fail)) = new_status_error (ErrImpl 7) /\
  budgeted conf1 /\ once_session s_batch /\ reached conf1 initializing [s_batch] (st_of t_batch_once) /\
  (exists th, nth_error (s_th (st_of t_batch_once)) 0 = Some th /\ th_code th = IReturn true :: client_code conf1 [DWait None 0; DModel] /\ l_err (th_loc th) = None) /\
  sh_status (s_sh (st_of t_batch_once)) = new_status Finished.
Proof. exact once_case. Qed.

(** One client: Push after Stop, or after Batch, and the end of the run that was stopped. *)
Theorem C60_push_stop_refuted : exists st : state nat, reachable conf0 [[DPlay; DPause; DStop; DPush]] st /\
  returned 0 (sh_log (s_sh st)) = [None; None; None] /\ holds st MModel 0 /\ about_to st 0 (IRLock MStatus) /\
  kind_of st 2 = Some KRunner /\ holds st MStatus 2 /\ about_to st 2 (ILock MModel) /\ all_blocked conf0 st.
Proof. exact push_stop_blocked. Qed.
Print Assumptions C60_push_stop_refuted.

Theorem C60_batch_push_refuted : exists st : state nat, reachable conf1 [[DBatch; DPush]] st /\
  returned 0 (sh_log (s_sh st)) = [None] /\ holds st MModel 0 /\ about_to st 0 (IRLock MStatus) /\
  kind_of st 2 = Some KRunner /\ holds st MStatus 2 /\ about_to st 2 (ILock MModel) /\ all_blocked conf1 st.
Proof. exact batch_push_blocked. Qed.
Print Assumptions C60_batch_push_refuted.

(** Push from the client of a run that it stops while it is running. *)
Theorem C60_calm_partial : forall (C : Type) (cf : cconf) (cs : list dcall) (st : state C) done rest th k b, endless cf -> calm_session cs ->
  reached cf obliging [cs] st -> cs = done ++ DPush :: rest ->
  nth_error (s_th st) 0 = Some th -> th_code th = k ++ IReturn b :: client_code cf rest -> leads cf obliging (returning 0) st.
Proof. exact @calm_push. Qed.
Print Assumptions C60_calm_partial.

Example C60_case : endless conf0 /\ calm_session s_calm /\ reached conf0 obliging [s_calm] (st_of t_calm_push) /\
  (exists th k, nth_error (s_th (st_of t_calm_push)) 0 = Some th /\ th_code th = k ++ IReturn true :: client_code conf0 [DPause; DPlay; DStop; DPlay; DWait None 0]) /\
  holds (st_of t_calm_push) MModel 0 /\ about_to (st_of t_calm_push) 0 (IRLock MStatus) /\ about_to (st_of t_calm_push) 2 (IRLock MModel).
Proof. exact push_case. Qed.

(** A notifier that reads the centroids or the figures. *)
Theorem C61_model_partial : forall (C : Type) (cf : cconf) (cs : list dcall) (st : state C), endless_listened cf -> calm_session cs ->
  reached cf obliging [cs] st ->
  (~ ended st 0 -> leads cf obliging (returning 0) st) /\
  forall done c rest th b, cs = done ++ c :: rest -> nth_error (s_th st) 0 = Some th -> th_code th = IReturn b :: client_code cf rest ->
    sh_status (s_sh st) = new_status (fst (after (done ++ [c]))).
Proof. exact @listened_all. Qed.
Print Assumptions C61_model_partial.

Example C61_case : endless_listened conf_listen /\ calm_session s_calm /\ reached conf_listen obliging [s_calm] (st_of (t_calm conf_listen)) /\
  returned 0 (sh_log (s_sh (st_of (t_calm conf_listen)))) = [None; None; None; None; None; None; None; None] /\
  map st_value (notified (sh_log (s_sh (st_of (t_calm conf_listen))))) = [Initializing; Ready; Running; Idle; Running; Finished; Initializing; Ready; Running].
Proof. exact listened_case. Qed.

(** Pause of a run that does not end by itself. *)
Theorem C62_endless_partial : forall (C : Type) (cf : cconf) (cs : list dcall) (st : state C) done rest th b, endless cf -> calm_session cs ->
  reached cf obliging [cs] st -> cs = done ++ DPause :: rest ->
  nth_error (s_th st) 0 = Some th -> th_code th = IReturn b :: client_code cf rest -> fst (after done) = Running ->
  sh_status (s_sh st) = new_status Idle /\ l_err (th_loc th) = None /\
  exists t, kind_of st t = Some KRunner /\ ~ ended st t.
Proof. exact @calm_pause. Qed.
Print Assumptions C62_endless_partial.

Example C62_case : endless conf0 /\ calm_session s_calm /\ reached conf0 obliging [s_calm] (st_of t_calm_pause) /\
  s_calm = [DPush; DInit; DPlay; DPush] ++ DPause :: [DPlay; DStop; DPlay; DWait None 0] /\ fst (after [DPush; DInit; DPlay; DPush]) = Running /\
  exists th, nth_error (s_th (st_of t_calm_pause)) 0 = Some th /\ th_code th = IReturn true :: client_code conf0 [DPlay; DStop; DPlay; DWait None 0] /\ l_err (th_loc th) = None.
Proof. exact pause_case. Qed.

(** At most one run. *)
Theorem C63_endless_partial : forall (C : Type) (cf : cconf) (cs : list dcall) (st : state C), endless cf -> calm_session cs ->
  reached cf obliging [cs] st -> forall t u, kind_of st t = Some KRunner -> kind_of st u = Some KRunner -> ~ ended st t -> ~ ended st u -> t = u.
Proof. exact @endless_one_run_all. Qed.
Print Assumptions C63_endless_partial.

Theorem C63_once_partial : forall (C : Type) (cf : cconf) (cs : list dcall) (st : state C), budgeted cf -> once_session cs ->
  reached cf initializing [cs] st -> forall t u, kind_of st t = Some KRunner -> kind_of st u = Some KRunner -> ~ ended st t -> ~ ended st u -> t = u.
Proof. exact @once_one_run_all. Qed.
Print Assumptions C63_once_partial.

Example C63_case : endless conf0 /\ calm_session s_calm /\ reached conf0 obliging [s_calm] (st_of t_calm_push) /\ kind_of (st_of t_calm_push) 2 = Some KRunner /\ ~ ended (st_of t_calm_push) 2 /\
  budgeted conf5 /\ once_session s_fail /\ reached conf5 initializing [s_fail] (st_of t_once_run) /\ kind_of (st_of t_once_run) 2 = Some KRunner /\ about_to (st_of t_once_run) 2 IImplIterate /\
  returned 0 (sh_log (s_sh (st_of t_once_run))) = [None; None].
Proof. exact run_case. Qed.

(** Automatic Play configured, and no Push on a Ready algorithm. *)
Theorem C75_not_ready_partial : forall (C : Type) (cf : cconf) (cs : list dcall) (st : state C), endless_started cf -> calm_session cs -> no_push_ready cs ->
  reached cf obliging [cs] st ->
  (~ ended st 0 -> leads cf obliging (returning 0) st) /\
  forall done c rest th b, cs = done ++ c :: rest -> nth_error (s_th st) 0 = Some th -> th_code th = IReturn b :: client_code cf rest ->
    sh_status (s_sh st) = new_status (fst (after (done ++ [c]))).
Proof. exact @started_all. Qed.
Print Assumptions C75_not_ready_partial.

Example C75_case : endless_started conf_start /\ (0 < cf_dpi conf_start)%Z /\ calm_session s_calm /\ no_push_ready s_calm /\
  reached conf_start obliging [s_calm] (st_of (t_calm conf_start)) /\ returned 0 (sh_log (s_sh (st_of (t_calm conf_start)))) = [None; None; None; None; None; None; None; None] /\ ~ ended (st_of (t_calm conf_start)) 0.
Proof. exact started_case. Qed.

(** Accesses. *)
Theorem C76_endless_partial : forall (C : Type) (cf : cconf) (cs : list dcall) (st : state C) f, endless cf -> calm_session cs ->
  reached cf obliging [cs] st -> f <> FFigures -> ~ data_race st f.
Proof. exact @endless_race_free_all. Qed.
Print Assumptions C76_endless_partial.

Theorem C76_once_partial : forall (C : Type) (cf : cconf) (cs : list dcall) (st : state C) f, budgeted cf -> once_session cs ->
  reached cf initializing [cs] st -> ~ data_race st f.
Proof. exact @once_race_free_all. Qed.
Print Assumptions C76_once_partial.

Example C76_case : endless conf0 /\ calm_session s_calm /\ reached conf0 obliging [s_calm] (st_of t_calm_push) /\ kind_of (st_of t_calm_push) 2 = Some KRunner /\ ~ ended (st_of t_calm_push) 2 /\
  budgeted conf5 /\ once_session s_fail /\ reached conf5 initializing [s_fail] (st_of t_once_run) /\ kind_of (st_of t_once_run) 2 = Some KRunner /\ about_to (st_of t_once_run) 2 IImplIterate /\
  returned 0 (sh_log (s_sh (st_of t_once_run))) = [None; None].
Proof. exact run_case. Qed.

(** One client: Play, Wait and Play. *)
Theorem C77_replay_refuted : exists st : state nat, reachable conf1 [[DPlay; DWait None 0; DPlay]] st /\
  returned 0 (sh_log (s_sh st)) = [None; None; None] /\ sh_status (s_sh st) = new_status_error (ErrImpl closed_panic) /\
  iterations_saved (sh_log (s_sh st)) = 1%Z /\ kind_of st 2 = Some KRunner /\ ended st 2 /\ kind_of st 3 = Some KRunner /\ ended st 3.
Proof. exact replay_killed. Qed.
Print Assumptions C77_replay_refuted.

(** A run started after a running run has been stopped: at the return of each later call its status is Running, its goroutine is there. *)
Theorem C77_restart_partial : forall (C : Type) (cf : cconf) (cs : list dcall) (st : state C) done c rest th b, endless cf -> calm_session cs ->
  reached cf obliging [cs] st -> cs = done ++ c :: rest ->
  nth_error (s_th st) 0 = Some th -> th_code th = IReturn b :: client_code cf rest -> fst (after (done ++ [c])) = Running ->
  sh_status (s_sh st) = new_status Running /\ exists t, kind_of st t = Some KRunner /\ ~ ended st t.
Proof. exact @calm_running. Qed.
Print Assumptions C77_restart_partial.

Example C77_case : endless conf0 /\ calm_session s_calm /\ reached conf0 obliging [s_calm] (st_of (t_calm conf0)) /\ fst (after (firstn 7 s_calm)) = Finished /\
  fst (after s_calm) = Running /\ sh_status (s_sh (st_of (t_calm conf0))) = new_status Running /\
  kind_of (st_of (t_calm conf0)) 2 = Some KRunner /\ ended (st_of (t_calm conf0)) 2 /\ kind_of (st_of (t_calm conf0)) 3 = Some KRunner /\ ~ ended (st_of (t_calm conf0)) 3.
Proof. exact restart_case. Qed.
