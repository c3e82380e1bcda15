(** C54-C56, C58, C59, C64, C65, C78, C79: the controller used by one client, at call granularity. *)
From Coq Require Import List ZArith Bool.
From Verif Require Import Base.Num Model.Status Model.Finish Model.CtrlLang Model.CtrlCode Model.CtrlSeq
  Spec.CtrlSpec Spec.CtrlSeqSpec Proofs.CtrlTraces Proofs.CtrlSeqProofs Proofs.CtrlSeqMain Proofs.CtrlSeqEx Proofs.CtrlSeqTimer.
Import ListNotations.
Local Open Scope list_scope.

(** Calls made while the run is between two turns, waiting or over. *)
Theorem C54_between_calls_partial : forall (C : Type) (cf : cconf) (q : seq_st C), seq_reachable cf q ->
  linked workflow (map st_value (new_status Created :: statuses_set (q_log q))) /\
  last (new_status Created :: statuses_set (q_log q)) (new_status Created) = q_status q /\
  Forall error_only_finished (statuses_set (q_log q)).
Proof. exact @seq_workflow. Qed.
Print Assumptions C54_between_calls_partial.

Example C54_between_case : seq_reachable conf_budget (use conf_budget u_workflow) /\
  map st_value (statuses_set (q_log (use conf_budget u_workflow))) =
    [Initializing; Ready; Running; Idle; Running; Ready; Finished;
     Initializing; Ready; Running; Ready; Finished].
Proof.
  split; [apply use_reachable; vm_compute; reflexivity|]. vm_compute. reflexivity.
Qed.

Theorem C55_calls : forall (C : Type) (cf : cconf) (q : seq_st C), seq_reachable cf q -> q_locked q = false -> forall a,
  (exists q' e, call_seq cf DPlay a q = Some (q', e) /\
     (e = Some ErrRunning <-> st_value (q_status q) = Running) /\
     (st_value (q_status q) = Running -> q' = q) /\
     (st_value (q_status q) = Ready \/ st_value (q_status q) = Idle -> e = None /\ st_value (q_status q') = Running) /\
     (st_value (q_status q) = Created \/ st_value (q_status q) = Finished ->
        match snd (a_init a) with
        | None => e = None /\ st_value (q_status q') = Running
        | Some n => e = Some (ErrImpl n) /\ q_status q' = new_status_error (ErrImpl n) /\ q_locked q' = true
        end)) /\
  (exists q' e, call_seq cf DPause a q = Some (q', e) /\
     (st_value (q_status q) = Running -> e = None /\ q_status q' = new_status Idle) /\
     (st_value (q_status q) <> Running -> e = Some ErrNotRunning /\ q' = q)) /\
  (exists q' e, call_seq cf DStop a q = Some (q', e) /\
     (st_alive (q_status q) = true -> e = None /\ q_status q' = new_status Finished) /\
     (st_alive (q_status q) = false -> e = Some ErrNotAlive /\ q' = q)) /\
  (exists q' e, call_seq cf DInit a q = Some (q', e) /\
     (st_alive (q_status q) = true -> e = Some ErrAlreadyCreated /\ q' = q) /\
     (st_alive (q_status q) = false -> m_centroids (q_model q') = fst (a_init a) /\
        match snd (a_init a) with
        | None => e = None /\ q_status q' = new_status Ready
        | Some n => e = Some (ErrImpl n) /\ q_status q' = new_status_error (ErrImpl n)
        end)) /\
  (forall f d,
     (st_value (q_status q) = Idle -> call_seq cf (DWait f d) a q = Some (q, Some ErrIdle)) /\
     (st_value (q_status q) = Created -> call_seq cf (DWait f d) a q = Some (q, Some ErrNotRunning)) /\
     (st_value (q_status q) = Ready \/ st_value (q_status q) = Finished -> call_seq cf (DWait f d) a q = Some (q, None)) /\
     (st_value (q_status q) = Running -> f = None -> (d <= 0)%Z -> cf_fin cf = None -> cf_timeout cf = false ->
        cf_iter cf = 0%Z -> cf_ipd cf = 0%Z -> call_seq cf (DWait f d) a q = Some (q, Some ErrNeverFinish))).
Proof. exact @seq_calls. Qed.
Print Assumptions C55_calls.

Example C55_case : seq_reachable conf_free (use conf_free [ok_call DPlay]) /\ q_locked (use conf_free [ok_call DPlay]) = false /\
  q_status (use conf_free [ok_call DPlay]) = new_status Running.
Proof.
  split; [apply use_reachable; vm_compute; reflexivity|]. split; vm_compute; reflexivity.
Qed.

Theorem C56_budget : forall (C : Type) (cf : cconf) (q : seq_st C), only_budget cf -> seq_reachable cf q -> exact_counts q ->
  (st_value (q_status q) = Running -> (iterations_saved (q_log q) < budget cf (pushes (q_log q)))%Z) /\
  (forall r d now, st_value (q_status q) <> Running -> advance cf (PTurn r d now) q = q) /\
  (forall c f d now, st_value (q_status q) = Running ->
     let q' := advance cf (PTurn (IterRes (Some c) f None) d now) q in
     iterations_saved (q_log q') = (iterations_saved (q_log q) + 1)%Z /\ pushes (q_log q') = pushes (q_log q) /\
     m_centroids (q_model q') = Some c /\
     (exact_counts q' ->
      q_status q' = new_status (if (iterations_saved (q_log q') <? budget cf (pushes (q_log q')))%Z then Running else Ready))) /\
  (forall f d now, st_value (q_status q) = Running ->
     let q' := advance cf (PTurn (IterRes None f None) d now) q in
     iterations_saved (q_log q') = iterations_saved (q_log q) /\ q_status q' = new_status Running) /\
  (forall a q', st_value (q_status q) = Ready -> act cf (ACall DPlay a) q = Some q' ->
     iterations_saved (q_log q') = iterations_saved (q_log q) /\
     q_status q' = new_status (if (iterations_saved (q_log q) <? budget cf (pushes (q_log q)))%Z then Running else Ready)).
Proof. exact @seq_budget. Qed.
Print Assumptions C56_budget.

Example C56_case : only_budget conf_budget /\ seq_reachable conf_budget (use conf_budget u_running) /\
  exact_counts (use conf_budget u_running) /\ q_status (use conf_budget u_running) = new_status Running /\
  iterations_saved (q_log (use conf_budget u_running)) = 1%Z /\
  budget conf_budget (pushes (q_log (use conf_budget u_running))) = 2%Z.
Proof.
  split; [repeat split; try (left; reflexivity); discriminate|]. split; [apply use_reachable; vm_compute; reflexivity|].
  split; [split; vm_compute; discriminate|]. vm_compute. repeat split; reflexivity.
Qed.

Theorem C56_no_budget : forall (C : Type) (cf : cconf) (q : seq_st C), no_budget cf -> seq_reachable cf q -> st_value (q_status q) = Running ->
  forall c f d now, q_status (advance cf (PTurn (IterRes c f None) d now) q) = new_status Running.
Proof. exact @seq_no_budget. Qed.
Print Assumptions C56_no_budget.

Example C56_no_budget_case : no_budget conf_free /\ seq_reachable conf_free (use conf_free u_running) /\
  st_value (q_status (use conf_free u_running)) = Running.
Proof.
  split; [repeat split; reflexivity|]. split; [apply use_reachable; vm_compute; reflexivity|]. vm_compute. reflexivity.
Qed.

Theorem C58_failure : forall (C : Type) (cf : cconf) (q : seq_st C), seq_reachable cf q -> st_value (q_status q) = Running ->
  forall r n d now, failing r n ->
  let q' := advance cf (PTurn r d now) q in
  q_status q' = mkStatus Finished (Some (ErrImpl n)) /\
  m_centroids (q_model q') = m_centroids (q_model q) /\
  iterations_saved (q_log q') = iterations_saved (q_log q) /\
  (forall p, (forall t, p <> PTimer t) -> advance cf p q' = q') /\
  (forall a, snd (a_init a) = None -> exists q2, call_seq cf DPlay a q' = Some (q2, None) /\ st_value (q_status q2) = Running) /\
  (forall a t1 t2 l, never_finish cf None 0 = false -> a_polls a = (t1, [PTurn r d now]) :: (t2, []) :: l ->
     call_seq cf (DWait None 0) a q = Some (q', Some (ErrImpl n))).
Proof. exact @seq_failure. Qed.
Print Assumptions C58_failure.

Example C58_case : seq_reachable conf_budget (use conf_budget u_running) /\
  st_value (q_status (use conf_budget u_running)) = Running /\ @failing nat (IterPanic 7) 7 /\
  never_finish conf_budget None 0 = false.
Proof.
  split; [apply use_reachable; vm_compute; reflexivity|]. split; [vm_compute; reflexivity|]. split; reflexivity.
Qed.

(** When the mutex is left locked by a failed Play, no call but those that only read the model returns. *)
Theorem C59_locked_partial : forall (C : Type) (cf : cconf) (q : seq_st C), seq_reachable cf q -> q_locked q = true ->
  st_value (q_status q) = Finished /\ st_error (q_status q) <> None /\
  forall c a, c <> DModel -> call_seq cf c a q = None.
Proof. exact @locked_forever. Qed.
Print Assumptions C59_locked_partial.

Example C59_locked_case : seq_reachable conf_free (use conf_free [ACall DPlay no_init]) /\
  q_locked (use conf_free [ACall DPlay no_init]) = true.
Proof.
  split; [apply use_reachable; vm_compute; reflexivity|]. vm_compute. reflexivity.
Qed.

Theorem C64_auto_start : forall (C : Type) (cf : cconf) (q : seq_st C) a, seq_reachable cf q -> q_locked q = false -> a_push a = None ->
  exists q', call_seq cf DPush a q = Some (q', None) /\
    (started q q' <-> st_value (q_status q) = Ready /\ (0 < cf_dpi cf)%Z /\ (cf_dpi cf <= pushes_since_start (q_log q))%Z) /\
    pushes (q_log q') = (pushes (q_log q) + 1)%Z /\
    (started q q' -> st_value (q_status q') = Running /\ pushes_since_start (q_log q') = 0%Z) /\
    (~ started q q' -> q_status q' = q_status q /\ pushes_since_start (q_log q') = (pushes_since_start (q_log q) + 1)%Z).
Proof. exact @seq_auto. Qed.
Print Assumptions C64_auto_start.

Example C64_case : seq_reachable conf_auto (use conf_auto u_ready) /\ q_locked (use conf_auto u_ready) = false /\
  st_value (q_status (use conf_auto u_ready)) = Ready /\ pushes_since_start (q_log (use conf_auto u_ready)) = cf_dpi conf_auto.
Proof.
  split; [apply use_reachable; vm_compute; reflexivity|]. vm_compute. repeat split; reflexivity.
Qed.

Theorem C65_wait : forall (S P : Type) (obs : S -> fin_model) (prog : P -> S -> S) f d start ps s s' e,
  wait_timeout obs prog f d start ps s = Some (s', e) <->
  exists l now p l', ps = l ++ (now, p) :: l' /\
    (forall l1 now1 p1 l2, l = l1 ++ (now1, p1) :: l2 ->
       is_finished (wait_finishing f) (obs (fold_left (fun s p => prog (snd p) s) l1 s)) = false /\
       ~ (0 < d /\ start + d < now1)%Z) /\
    let polled := fold_left (fun s p => prog (snd p) s) l s in
    s' = prog p polled /\
    ((is_finished (wait_finishing f) (obs polled) = true /\ e = st_error (fm_status (obs s'))) \/
     (is_finished (wait_finishing f) (obs polled) = false /\ (0 < d /\ start + d < now)%Z /\ e = Some ErrTimeout)).
Proof. exact wait_main. Qed.
Print Assumptions C65_wait.

Example C65_case : wait_timeout (fun s : oc_status => mkFinModel s []) (fun p (_ : oc_status) => p) None 10 5
    [(6%Z, new_status Running); (15%Z, new_status Running); (16%Z, new_status Idle); (17%Z, new_status Idle)] (new_status Running)
  = Some (new_status Idle, Some ErrTimeout) /\
  wait_timeout (fun s : oc_status => mkFinModel s []) (fun p (_ : oc_status) => p) None 10 5
    [(6%Z, new_status_error (ErrImpl 3)); (17%Z, new_status_error (ErrImpl 3))] (new_status Running)
  = Some (new_status_error (ErrImpl 3), Some (ErrImpl 3)).
Proof.
  split; reflexivity.
Qed.

(** A timer that fires ends the run with the timeout error; when the algorithm is not alive it changes nothing, and the
    next Play replaces it. Remains the case of Ready of C78_stale_timer_refuted. *)
Theorem C78_timer_partial : forall (C : Type) (cf : cconf) (q : seq_st C) now, seq_reachable cf q -> q_locked q = false ->
  let q' := advance cf (PTimer now) q in
  (cf_timeout cf = false -> q_timer q = false) /\
  (q_timer q = false -> q' = q) /\
  (q_timer q = true -> q_timer q' = false /\ q_run q' = NoRun /\
     m_centroids (q_model q') = m_centroids (q_model q) /\ iterations_saved (q_log q') = iterations_saved (q_log q) /\
     (st_alive (q_status q) = true -> q_status q' = new_status_error ErrTimeout) /\
     (st_alive (q_status q) = false -> q_status q' = q_status q /\ q_model q' = q_model q /\ q_log q' = q_log q)) /\
  (forall a q1 e, call_seq cf DPlay a q = Some (q1, e) ->
     (e = None -> st_value (q_status q) <> Idle -> q_timer q1 = cf_timeout cf) /\
     (e <> None \/ st_value (q_status q) = Idle -> q_timer q1 = q_timer q)).
Proof. exact @seq_timer. Qed.
Print Assumptions C78_timer_partial.

Example C78_case : let q := use conf_timed u_running in seq_reachable conf_timed q /\ q_locked q = false /\ q_timer q = true /\
  st_value (q_status q) = Running /\ q_status (advance conf_timed (PTimer 5) q) = new_status_error ErrTimeout /\
  let q1 := use conf_timed (u_running ++ [ok_call DStop]) in q_timer q1 = true /\ q_status q1 = new_status Finished /\
  q_status (advance conf_timed (PTimer 5) q1) = new_status Finished.
Proof. exact timed_case. Qed.

(** The first iteration fails before Wait reads the status: Batch returns nil. *)
Theorem C79_batch_refuted : exists st : state nat, reachable conf5 [[DBatch]] st /\
  returned 0 (sh_log (s_sh st)) = [None] /\ sh_status (s_sh st) = new_status_error (ErrImpl 7) /\
  iterations_saved (sh_log (s_sh st)) = 0%Z /\ ended st 0 /\ ended st 2.
Proof. exact batch_nil. Qed.
Print Assumptions C79_batch_refuted.

(** What a nil result of Batch tells. *)
Theorem C79_batch_partial : forall (C : Type) (cf : cconf) (q : seq_st C) a q' n, only_budget cf -> seq_reachable cf q ->
  n = (if status_eqb (st_value (q_status q)) Created then pushes (q_log q) else 0%Z) ->
  (n <= 2 ^ 53)%Z -> (budget cf n <= 2 ^ 53)%Z ->
  call_seq cf DBatch a q = Some (q', None) ->
  (q_status q' = new_status Finished /\ iterations_saved (q_log q') = budget cf n) \/
  (st_value (q_status q') = Finished /\ st_error (q_status q') <> None /\ (iterations_saved (q_log q') <= budget cf n)%Z).
Proof. exact @batch_main. Qed.
Print Assumptions C79_batch_partial.

Example C79_case : only_budget conf_budget /\ seq_reachable conf_budget (use conf_budget [ok_call DPush]) /\
  option_map snd (call_seq conf_budget DBatch u_batch (use conf_budget [ok_call DPush])) = Some None /\
  q_status (after_call conf_budget DBatch u_batch (use conf_budget [ok_call DPush])) = new_status Finished /\
  iterations_saved (q_log (after_call conf_budget DBatch u_batch (use conf_budget [ok_call DPush]))) = 2%Z.
Proof.
  split; [repeat split; try (left; reflexivity); discriminate|]. split; [apply use_reachable; vm_compute; reflexivity|].
  vm_compute. repeat split; reflexivity.
Qed.
