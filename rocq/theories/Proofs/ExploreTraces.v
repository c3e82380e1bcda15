(** Executions found by exploration: blocked clients, and sessions of the classes explored. *)
From Coq Require Import List ZArith Bool Lia.
From Verif Require Import Base.Go Base.Num Model.Status Model.Finish Model.CtrlLang Model.CtrlCode Spec.CtrlSpec Spec.ExploreSpec
  Proofs.CtrlTraces Proofs.ExploreEndless.
Import ListNotations.
Local Open Scope list_scope.

Definition conf0 : cconf := mkCConf 0 0 0 false None None.
Definition conf_listen : cconf := mkCConf 0 0 0 false None (Some (call_code conf0 DModel)).
Definition conf_start : cconf := mkCConf 0 0 1 false None None.
Definition o_fail : oracle nat := mkOracle (Some 1, None) (IterRes None None (Some 7)) None 0%Z.

(** Stop reads the status Running; the run ends; Stop waits for it forever. *)
Definition t_stop_end := (conf1, o_ok, [[DPlay; DStop]],
  d_play ++ [Until 2 KLockS; Steps 0 12; Go 2; Send 2 1; Go 1; Go 2; Go 0]).
Lemma stop_end_blocked : exists st : state nat, reachable conf1 [[DPlay; DStop]] st /\
  returned 0 (sh_log (s_sh st)) = [None] /\ sh_status (s_sh st) = new_status Ready /\ kind_of st 2 = Some KRunner /\ ended st 2 /\
  about_to st 0 (ISending ChStatus (new_status Finished)) /\ all_blocked conf1 st.
Proof. witness t_stop_end. split; [calc|]. split; [calc|]. split; [calc|]. split; [over|]. split; [here|dead]. Qed.

(** One client: Push and the end of its own run. *)
Definition t_push_stop := (conf0, o_ok, [[DPlay; DPause; DStop; DPush]],
  d_play ++ d_pause_stop ++ [Until 2 KEndDefer; Until 0 KModel; Steps 0 1; Go 2; Go 0]).
Lemma push_stop_blocked : exists st : state nat, reachable conf0 [[DPlay; DPause; DStop; DPush]] st /\
  returned 0 (sh_log (s_sh st)) = [None; None; None] /\ holds st MModel 0 /\ about_to st 0 (IRLock MStatus) /\
  kind_of st 2 = Some KRunner /\ holds st MStatus 2 /\ about_to st 2 (ILock MModel) /\ all_blocked conf0 st.
Proof. witness t_push_stop. split; [calc|]. split; [calc|]. split; [here|]. split; [calc|]. split; [calc|]. split; [here|dead]. Qed.
Definition t_batch_push := (conf1, o_ok, [[DBatch; DPush]],
  d_play ++ [Go 2; Send 2 1; Go 1; Until 2 KEndDefer; Go 0; Send 0 1; Go 1; Until 0 KModel; Steps 0 1; Go 2; Go 0]).
Lemma batch_push_blocked : exists st : state nat, reachable conf1 [[DBatch; DPush]] st /\
  returned 0 (sh_log (s_sh st)) = [None] /\ holds st MModel 0 /\ about_to st 0 (IRLock MStatus) /\
  kind_of st 2 = Some KRunner /\ holds st MStatus 2 /\ about_to st 2 (ILock MModel) /\ all_blocked conf1 st.
Proof. witness t_batch_push. split; [calc|]. split; [calc|]. split; [here|]. split; [calc|]. split; [calc|]. split; [here|dead]. Qed.

(** Play, Wait and Play again: the end of the first run closes the ack channel of the second. *)
Definition t_replay := (conf1, o_ok, [[DPlay; DWait None 0; DPlay]],
  d_play ++ [Go 2; Send 2 1; Go 1; Until 2 KEndDefer; Go 0; Go 3; Send 0 3; Go 3; Send 3 1; Go 1; Go 2; Go 3; Go 0; Send 3 1; Go 1; Go 3]).
Lemma replay_killed : exists st : state nat, reachable conf1 [[DPlay; DWait None 0; DPlay]] st /\
  returned 0 (sh_log (s_sh st)) = [None; None; None] /\ sh_status (s_sh st) = new_status_error (ErrImpl closed_panic) /\
  iterations_saved (sh_log (s_sh st)) = 1%Z /\ kind_of st 2 = Some KRunner /\ ended st 2 /\ kind_of st 3 = Some KRunner /\ ended st 3.
Proof. witness t_replay. split; [calc|]. split; [calc|]. split; [calc|]. split; [calc|]. split; [over|]. split; [calc|over]. Qed.

(** Scheduled executions with one answer. *)
Lemma until_allowed cf o t n p st (P : oracle nat -> Prop) : P o -> Forall (allowed_move P) (fst (until cf o t n p st)).
Proof.
  intros Ho. revert st. induction n as [|n IH]; intros st; [constructor|]. cbn [until]. destruct (nth_error (s_th st) t) as [th|]; [|constructor].
  destruct (match head th with Some i => p i | None => false end); [constructor|]. destruct (do_move cf (Solo t o) st) as [st'|]; [|constructor].
  specialize (IH st'). destruct (until cf o t n p st') as [ms s]. constructor; [exact Ho|exact IH].
Qed.
Lemma schedule_allowed cf o ds st (P : oracle nat -> Prop) : P o -> Forall (allowed_move P) (schedule cf o ds st).
Proof.
  intros Ho. revert st. induction ds as [|d ds IH]; intros st; [constructor|]. cbn [schedule].
  destruct d as [t|t n|t x|t r]; [pose proof (until_allowed cf o t 99 (fun _ => false) st P Ho) as H; destruct (until cf o t 99 (fun _ => false) st)
    |pose proof (until_allowed cf o t n (fun _ => false) st P Ho) as H; destruct (until cf o t n (fun _ => false) st)
    |pose proof (until_allowed cf o t 99 (marked x) st P Ho) as H; destruct (until cf o t 99 (marked x) st)|]; try (apply Forall_app; split; [exact H|apply IH]).
  constructor; [exact Logic.I|]. destruct (do_move cf (Comm t r) st); [apply IH|constructor].
Qed.
Lemma st_of_reached cf o css ds (P : oracle nat -> Prop) : P o -> match final cf o css ds with Some _ => true | None => false end = true -> reached cf P css (st_of (cf, o, css, ds)).
Proof.
  unfold st_of, run_of. intros Ho. destruct (final cf o css ds) as [st|] eqn:E; [|discriminate]. intros _. eexists. split; [|exact E]. apply schedule_allowed. exact Ho.
Qed.

(** A calm session: push, initialize, run, push, pause, resume, stop, restart, wait. *)
Definition s_calm : list dcall := [DPush; DInit; DPlay; DPush; DPause; DPlay; DStop; DPlay; DWait None 0].
Definition d_calm : list directive :=
  d_play ++ [Until 2 KTryStatus; Go 0; Send 0 2; Go 2; Send 2 1; Go 1; Go 2; Go 0; Send 2 0; Go 2;
    Go 0; Send 0 2; Go 2; Send 2 1; Go 1; Go 2; Go 0; Send 2 0;
    Until 2 KTryStatus; Go 0; Send 0 2; Go 2; Send 2 1; Go 1; Go 2; Go 0; Send 0 1; Go 1; Go 0; Send 0 1; Go 1; Go 0;
    Go 3; Send 0 3; Go 3; Send 3 1; Go 1; Go 3; Go 0; Send 3 0; Steps 0 14].
Definition t_calm (cf : cconf) := (cf, o_ok, [s_calm], d_calm).
Lemma s_calm_calm : calm_session s_calm.
Proof.
  intros before c rest E. unfold s_calm in E. assert (L : forall b, late_of b = false -> ~ stopped_idle b) by (intros b H X; apply late_of_spec in X; congruence).
  do 9 (destruct before as [|? before]; cbn [app] in E; [injection E as <- <-; cbn; try exact Logic.I; try (apply L; reflexivity); try (split; [reflexivity|lia])|injection E as <- E]).
  destruct before; discriminate.
Qed.
Lemma s_calm_pushes : no_push_ready s_calm.
Proof.
  intros before rest E. unfold s_calm in E.
  do 9 (destruct before as [|? before]; cbn [app] in E; [try discriminate E; cbn; discriminate|injection E as <- E]).
  destruct before; discriminate.
Qed.
Lemma o_ok_obliging : obliging o_ok.
Proof. split; [reflexivity|]. exists (Some 2), None. reflexivity. Qed.

(** Sessions with one run. *)
Definition s_fail : list dcall := [DPush; DPlay; DWait None 0; DStatus].
Definition t_fail := (conf5, o_fail, [s_fail], d_play ++ [Steps 0 20; Go 2; Send 2 1; Go 1; Go 2; Steps 0 14]).
Definition s_batch : list dcall := [DPush; DBatch; DWait None 0; DModel].
Definition t_batch_once := (conf1, o_ok, [s_batch], d_play ++ [Steps 0 20; Go 2; Send 2 1; Go 1; Go 2; Go 0; Send 0 1; Go 1; Steps 0 2]).
Lemma once_sessions : once_session s_fail /\ once_session s_batch.
Proof.
  split; intros before c rest E; [unfold s_fail in E|unfold s_batch in E];
  do 4 (destruct before as [|? before]; cbn [app] in E; [injection E as <- <-; cbn; try exact Logic.I; try (split; [reflexivity|lia]); try (split; intuition discriminate)|injection E as <- E]); destruct before; discriminate.
Qed.
