(** Concrete executions of the controller: a scheduler that computes the moves of an execution from
    directives, and the executions that refute properties. *)
From Coq Require Import List ZArith Bool String Lia.
From Verif Require Import Base.Go Base.Num Model.Status Model.Finish Model.CtrlLang Model.CtrlCode
  Spec.CtrlSpec.
Import ListNotations.
Local Open Scope list_scope.

(** Being stuck does not depend on the oracle. *)
Lemma step_none_oracle {C} cf t o o' (st : state C) : step cf t o st = None -> step cf t o' st = None.
Proof.
  unfold step. destruct (nth_error (s_th st) t) as [th|]; [|reflexivity].
  destruct (th_code th) as [|i k]; [reflexivity|].
  destruct i; try discriminate; try (intros H; exact H).
  - destruct (o_init o), (o_init o'); discriminate.
  - destruct (o_iter o), (o_iter o'); discriminate.
Qed.

Definition stuck {C} cf (o : oracle C) (st : state C) : bool :=
  let n := seq 0 (List.length (s_th st)) in
  negb (sh_crashed (s_sh st)) &&
  forallb (fun t => match step cf t o st with None => true | Some _ => false end) n &&
  forallb (fun t => forallb (fun r => match comm t r st with None => true | Some _ => false end) n) n.

Lemma stuck_blocked {C} cf o (st : state C) : stuck cf o st = true -> all_blocked cf st.
Proof.
  unfold stuck. rewrite !andb_true_iff, !forallb_forall. intros [[H1 H2] H3].
  apply negb_true_iff in H1. split; [exact H1|]. intros m. unfold do_move. rewrite H1.
  destruct m as [t o'|t r].
  - destruct (nth_error (s_th st) t) as [th|] eqn:E.
    + assert (Lt : t < List.length (s_th st)) by (apply nth_error_Some; congruence).
      apply (step_none_oracle cf t o). specialize (H2 t). rewrite in_seq in H2.
      destruct (step cf t o st); [|reflexivity]. discriminate H2. lia.
    + unfold step. rewrite E. reflexivity.
  - unfold comm. destruct (Nat.eqb t r) eqn:Er; [reflexivity|].
    destruct (nth_error (s_th st) t) as [th|] eqn:E; [|reflexivity].
    destruct (nth_error (s_th st) r) as [thr|] eqn:E'; [|reflexivity].
    assert (Lt : t < List.length (s_th st)) by (apply nth_error_Some; congruence).
    assert (Lr : r < List.length (s_th st)) by (apply nth_error_Some; congruence).
    specialize (H3 t). rewrite in_seq in H3. specialize (H3 ltac:(lia)). rewrite forallb_forall in H3.
    specialize (H3 r). rewrite in_seq in H3. specialize (H3 ltac:(lia)).
    unfold comm in H3. rewrite Er, E, E' in H3.
    match goal with |- ?x = None => destruct x; [discriminate|reflexivity] end.
Qed.

(** The statements a directive may stop at. *)
Inductive mark : Type :=
| KLockS | KModel | KUnlockM | KRlockM | KRunlockM | KTryStatus | KRecvAck | KIterate | KTest2 | KSetStatus
| KTest1 | KEndDefer | KTryAck | KMakeAck.
Definition marked (x : mark) (i : instr) : bool :=
  match x, i with
  | KLockS, ILock MStatus | KModel, IModel _ | KUnlockM, IUnlock MModel | KRlockM, IRLock MModel
  | KRunlockM, IRUnlock MModel | KTryStatus, ITryStatus | KRecvAck, IRecv FldAck | KIterate, IImplIterate
  | KTest2, IGet GTest2 | KSetStatus, ISetStatus _ | KTest1, IGet GTest1 | KEndDefer, IEndDefer
  | KTryAck, ITryAck _ | KMakeAck, IMakeAck => true
  | _, _ => false
  end.

(** Directives: goroutine [t] runs until it blocks, runs [n] statements, runs until the next
    statement is marked; goroutine [t] sends to [r]. *)
Inductive directive : Type :=
| Go (t : nat) | Steps (t n : nat) | Until (t : nat) (x : mark) | Send (t r : nat).

Section Run.
  Variable cf : cconf.
  Variable o : oracle nat.

  Fixpoint until (t n : nat) (p : instr -> bool) (st : state nat) : list (move nat) * state nat :=
    match n with
    | O => ([], st)
    | S n' =>
        match nth_error (s_th st) t with
        | Some th =>
            if match head th with Some i => p i | None => false end then ([], st) else
            match do_move cf (Solo t o) st with
            | None => ([], st)
            | Some st' => let (ms, s) := until t n' p st' in (Solo t o :: ms, s)
            end
        | None => ([], st)
        end
    end.

  Fixpoint schedule (ds : list directive) (st : state nat) : list (move nat) :=
    match ds with
    | [] => []
    | Send t r :: ds' =>
        Comm t r :: match do_move cf (Comm t r) st with None => [] | Some st' => schedule ds' st' end
    | d :: ds' =>
        let (ms, st') := match d with
                         | Go t => until t 99 (fun _ => false) st
                         | Steps t n => until t n (fun _ => false) st
                         | Until t x => until t 99 (marked x) st
                         | Send _ _ => ([], st)
                         end in
        ms ++ schedule ds' st'
    end.
  Definition moves (css : list (list dcall)) (ds : list directive) : list (move nat) :=
    schedule ds (start (map (client_code cf) css)).
  Definition final (css : list (list dcall)) (ds : list directive) : option (state nat) :=
    exec cf (moves css ds) (start (map (client_code cf) css)).

  Lemma final_reachable css ds st : final css ds = Some st -> reachable cf css st.
  Proof. intros H. eexists. exact H. Qed.
End Run.

(** The implementation initializes and iterates without error, or fails to initialize. *)
Definition o_ok : oracle nat := mkOracle (Some 1, None) (IterRes (Some 2) None None) None 0%Z.
Definition o_noinit : oracle nat := mkOracle (None, Some 5) (IterRes (Some 2) None None) None 0%Z.

Definition conf1 : cconf := mkCConf 1 0 0 false None None.
Definition conf5 : cconf := mkCConf 5 0 0 false None None.
Definition conf_notif : cconf := mkCConf 1 0 0 false None (Some status_code).
Definition conf_dpi : cconf := mkCConf 5 0 1 false None None.
Definition conf_timeout : cconf := mkCConf 1 0 0 true None None.

(** Client 0 initializes with the notification loop 1; then starts the run 2 and gets its ack. *)
Definition d_init : list directive := [Go 0; Go 1; Send 0 1; Go 0; Go 1; Send 0 1; Go 1].
Definition d_play : list directive := d_init ++ [Go 0; Go 2; Send 0 2; Go 2; Send 2 1; Go 1; Go 2; Go 0; Send 2 0].
(** Pause then Stop of run 2, up to the ack of Stop. *)
Definition d_pause_stop : list directive :=
  [Until 2 KTryStatus; Go 0; Send 0 2; Go 2; Send 2 1; Go 1; Go 2; Go 0; Send 2 0; Go 2; Go 0; Send 0 2;
   Go 2; Send 2 1; Go 1; Go 2; Go 0; Send 2 0].
(** Play, Pause, Stop and Play again, where run 2 is late: run 3 starts. *)
Definition d_again : list directive :=
  [Go 0; Send 0 1; Go 1; Go 0; Send 0 1; Go 1; Go 0; Go 3; Send 0 3; Go 3; Send 3 1; Go 1; Go 3; Go 0; Send 3 0].

Definition t_failed_play := (conf1, o_noinit, [[DPlay; DStatus]], d_init ++ [Go 0]).
Definition t_pause_end := (conf1, o_ok, [[DPlay; DPause; DPlay]],
  d_play ++ [Until 2 KLockS; Go 0; Go 2; Send 2 1; Go 1; Go 2; Send 0 2; Go 2; Send 2 1; Go 1; Go 2; Go 0]).
Definition t_push_init := (conf1, o_ok, [[DPush]; [DInit]],
  [Until 0 KModel; Steps 0 1; Go 1; Go 2; Send 1 2; Go 1; Go 2; Go 0; Go 1]).
Definition t_push_end := (conf1, o_ok, [[DPlay]; [DPush]],
  [Go 0; Go 2; Send 0 2; Go 0; Go 2; Send 0 2; Go 2; Go 0; Go 3; Send 0 3; Go 3; Send 3 2; Go 2; Go 3; Go 0;
   Send 3 0; Go 0; Go 3; Send 3 2; Go 2; Until 1 KModel; Steps 1 1; Go 3; Go 1]).
Definition t_notifier := (conf_notif, o_ok, [[DInit]], [Go 0; Go 1; Send 0 1; Go 1; Go 0]).
Definition t_push_play := (conf_dpi, o_ok, [[DInit; DPush; DPush]],
  d_init ++ [Go 0; Go 1; Go 0; Go 2; Send 0 2; Go 2; Send 2 1; Go 1; Go 2; Go 0; Until 0 KRecvAck; Send 2 0;
             Go 2; Until 0 KRlockM; Go 0]).
Definition t_two_runs := (conf5, o_ok, [[DPlay; DPause; DStop; DPlay]],
  d_play ++ d_pause_stop ++ d_again ++ [Until 2 KIterate; Until 3 KIterate]).
Definition t_notif_order := (conf1, o_ok, [[DPlay; DStop]],
  d_play ++ [Until 2 KLockS; Steps 2 4; Go 0; Send 0 1; Go 1; Go 0; Go 2; Send 2 1; Go 1; Go 2]).
Definition t_killed := (conf5, o_ok, [[DPlay; DPause; DStop; DPlay]],
  d_play ++ d_pause_stop ++
  [Until 2 KLockS; Go 0; Send 0 1; Go 1; Go 0; Send 0 1; Go 1; Go 0; Go 3; Send 0 3; Go 3; Go 2; Go 0; Go 3;
   Send 3 1; Go 1; Go 3; Send 3 1; Go 1; Go 3]).
Definition t_timer := (conf_timeout, o_ok, [[DPlay; DWait None 0]],
  d_play ++ [Go 2; Send 2 1; Go 1; Go 2; Go 0; Go 3; Send 3 1; Go 1; Go 3; Go 0]).
Definition t_race := (conf5, o_ok, [[DPlay; DPush]],
  d_play ++ [Until 2 KTest2; Until 0 KModel; Steps 0 1; Until 0 KModel; Steps 0 1]).

Definition run_of (x : cconf * oracle nat * list (list dcall) * list directive) : option (state nat) :=
  let '(cf, o, css, ds) := x in final cf o css ds.

Definition st_of (x : cconf * oracle nat * list (list dcall) * list directive) : state nat :=
  match run_of x with Some st => st | None => start [] end.

Lemma st_of_reachable cf o css ds :
  match final cf o css ds with Some _ => true | None => false end = true ->
  reachable cf css (st_of (cf, o, css, ds)).
Proof.
  unfold st_of, run_of. destruct (final cf o css ds) as [st|] eqn:E; [|discriminate].
  intros _. exact (final_reachable cf o css ds st E).
Qed.

Lemma about_to_head (st : state nat) t i :
  match nth_error (s_th st) t with Some th => hd_error (th_code th) | None => None end = Some i ->
  about_to st t i.
Proof.
  unfold about_to. destruct (nth_error (s_th st) t) as [th|]; [|discriminate].
  destruct (th_code th) as [|j k] eqn:E; [discriminate|]. intros [= ->]. exists th, k. auto.
Qed.
Lemma ended_head (st : state nat) t :
  match nth_error (s_th st) t with Some th => List.length (th_code th) | None => 1 end = 0 -> ended st t.
Proof.
  unfold ended. destruct (nth_error (s_th st) t) as [th|]; [|discriminate].
  destruct (th_code th) as [|j k] eqn:E; [|discriminate]. intros _. exists th. auto.
Qed.

Lemma reads_mem (st : state nat) m t : mem t (rw_readers (lock_of m (s_sh st))) = true -> reads st m t.
Proof.
  unfold reads, mem. rewrite existsb_exists. intros (u & H & E). apply Nat.eqb_eq in E. subst. exact H.
Qed.

(** The goals are about [st_of x], which is computed only as far as each of them needs. *)
Ltac witness x := exists (st_of x); split; [apply st_of_reachable; vm_compute; reflexivity|].
Ltac calc := vm_compute; reflexivity.
Ltac here := apply about_to_head; calc.
Ltac over := apply ended_head; calc.
Ltac reading := apply reads_mem; calc.
Ltac dead := apply (stuck_blocked _ o_ok); calc.

Lemma workflow_broken : exists st : state nat, reachable conf1 [[DPlay; DPause; DPlay]] st /\
  exists l1 l2, map st_value (new_status Created :: statuses_set (sh_log (s_sh st))) = l1 ++ Ready :: Idle :: l2 /\
  ~ workflow Ready Idle.
Proof.
  witness t_pause_end. exists [Created; Initializing; Ready; Running], []. split; [calc|].
  intros H. inversion H.
Qed.

Lemma failed_play_blocks : exists st : state nat, reachable conf1 [[DPlay; DStatus]] st /\
  returned 0 (sh_log (s_sh st)) = [Some (ErrImpl 5)] /\ leaked st MStatus /\
  about_to st 0 (IRLock MStatus) /\ all_blocked conf1 st.
Proof.
  witness t_failed_play. split; [calc|]. split; [calc|]. split; [here|].
  dead.
Qed.

Lemma push_init_deadlock : exists st : state nat, reachable conf1 [[DPush]; [DInit]] st /\
  holds st MModel 0 /\ about_to st 0 (IRLock MStatus) /\ holds st MStatus 1 /\ about_to st 1 (IRLock MModel) /\
  all_blocked conf1 st.
Proof.
  witness t_push_init. split; [calc|]. split; [here|]. split; [calc|]. split; [here|].
  dead.
Qed.

Lemma push_end_deadlock : exists st : state nat, reachable conf1 [[DPlay]; [DPush]] st /\
  returned 0 (sh_log (s_sh st)) = [None] /\ ended st 0 /\
  holds st MModel 1 /\ about_to st 1 (IRLock MStatus) /\
  kind_of st 3 = Some KRunner /\ holds st MStatus 3 /\ about_to st 3 (ILock MModel) /\
  all_blocked conf1 st.
Proof.
  witness t_push_end. split; [calc|]. split; [over|].
  split; [calc|]. split; [here|]. split; [calc|]. split; [calc|]. split; [here|].
  dead.
Qed.

Lemma notifier_deadlock : cf_notifier conf_notif = Some (call_code conf_notif DStatus) /\
  exists st : state nat, reachable conf_notif [[DInit]] st /\
  holds st MStatus 0 /\ about_to st 0 (ISending ChNotif (new_status Ready)) /\
  kind_of st 1 = Some KNotifier /\ about_to st 1 (IRLock MStatus) /\ all_blocked conf_notif st.
Proof.
  split; [reflexivity|].
  witness t_notifier. split; [calc|]. split; [here|]. split; [calc|]. split; [here|].
  dead.
Qed.

Lemma pause_end_deadlock : exists st : state nat, reachable conf1 [[DPlay; DPause; DPlay]] st /\
  returned 0 (sh_log (s_sh st)) = [None; Some ErrNotRunning] /\
  sh_status (s_sh st) = new_status Idle /\ kind_of st 2 = Some KRunner /\ ended st 2 /\
  about_to st 0 (ISending ChStatus (new_status Running)) /\ all_blocked conf1 st.
Proof.
  witness t_pause_end. split; [calc|]. split; [calc|]. split; [calc|].
  split; [over|]. split; [here|].
  dead.
Qed.

Lemma two_runs : exists st : state nat, reachable conf5 [[DPlay; DPause; DStop; DPlay]] st /\
  kind_of st 2 = Some KRunner /\ about_to st 2 IImplIterate /\
  kind_of st 3 = Some KRunner /\ about_to st 3 IImplIterate.
Proof.
  witness t_two_runs. split; [calc|]. split; [here|]. split; [calc|here].
Qed.

Lemma notifications_swapped : exists st : state nat, reachable conf1 [[DPlay; DStop]] st /\
  map st_value (statuses_set (sh_log (s_sh st))) = [Initializing; Ready; Running; Ready; Finished] /\
  map st_value (notified (sh_log (s_sh st))) = [Initializing; Ready; Running; Finished; Ready] /\
  ended st 0 /\ ended st 2.
Proof.
  witness t_notif_order. split; [calc|]. split; [calc|].
  split; over.
Qed.

Lemma push_play_deadlock : exists st : state nat, reachable conf_dpi [[DInit; DPush; DPush]] st /\
  returned 0 (sh_log (s_sh st)) = [None; None] /\
  reads st MModel 0 /\ about_to st 0 (IRLock MModel) /\
  kind_of st 2 = Some KRunner /\ about_to st 2 (IAcquire MModel) /\ all_blocked conf_dpi st.
Proof.
  witness t_push_play. split; [calc|]. split; [reading|]. split; [here|]. split; [calc|].
  split; [here|]. dead.
Qed.

Lemma figures_race : exists st : state nat, reachable conf5 [[DPlay; DPush]] st /\
  about_to st 0 (IModel MFigures) /\ kind_of st 2 = Some KRunner /\ about_to st 2 (IGet GTest2) /\
  data_race st FFigures.
Proof.
  witness t_race. split; [here|]. split; [calc|]. split; [here|].
  exists 0, 2, (IModel MFigures), (IGet GTest2), false.
  split; [discriminate|]. split; [here|]. split; [here|]. split; left; reflexivity.
Qed.

Lemma restart_killed : exists st : state nat, reachable conf5 [[DPlay; DPause; DStop; DPlay]] st /\
  returned 0 (sh_log (s_sh st)) = [None; None; None; None] /\
  sh_status (s_sh st) = new_status_error (ErrImpl closed_panic) /\
  last (statuses_set (sh_log (s_sh st))) (new_status Created) = new_status_error (ErrImpl closed_panic) /\
  since_reset (sh_log (s_sh st)) = filter (fun e => match e with EvSaved _ _ => false | _ => true end) (since_reset (sh_log (s_sh st))).
Proof.
  witness t_killed. split; [calc|]. split; [calc|]. split; calc.
Qed.

Lemma stale_timer : exists st : state nat, reachable conf_timeout [[DPlay; DWait None 0]] st /\
  returned 0 (sh_log (s_sh st)) = [None; None] /\
  map st_value (statuses_set (sh_log (s_sh st))) = [Initializing; Ready; Running; Ready; Finished] /\
  kind_of st 2 = Some KRunner /\ ended st 2 /\
  sh_status (s_sh st) = new_status_error ErrTimeout.
Proof.
  witness t_timer. split; [calc|]. split; [calc|]. split; [calc|].
  split; [over|calc].
Qed.

(** Init writes the status under its mutex while the loop condition of the previous run reads it
    without. *)
Definition t_status_race := (conf5, o_ok, [[DPlay; DPause; DStop; DPlay]],
  d_play ++ d_pause_stop ++ [Until 2 KTest1; Until 0 KSetStatus]).
Lemma status_race : exists st : state nat, reachable conf5 [[DPlay; DPause; DStop; DPlay]] st /\
  holds st MStatus 0 /\ kind_of st 2 = Some KRunner /\ data_race st FStatusField.
Proof.
  witness t_status_race. split; [calc|]. split; [calc|].
  exists 0, 2, (ISetStatus (XValue Initializing)), (IGet GTest1), false.
  split; [discriminate|]. split; [here|]. split; [here|]. split; left; reflexivity.
Qed.

(** Executions meeting the hypotheses of the positive theorems: a push then a whole run; a failed
    Play and another client. *)
Definition t_figures := (conf1, o_ok, [[DPush; DPlay]], d_play ++ [Go 2; Send 2 1; Go 1; Go 2; Go 0]).
Definition t_leak := (conf1, o_noinit, [[DPlay; DPlay]; [DStatus]],
  [Go 0; Go 2; Send 0 2; Go 0; Go 2; Send 0 2; Go 2; Go 0]).
Lemma plain_none cf : cf_notifier cf = None -> plain_notifier cf.
Proof. unfold plain_notifier. intros ->. exact I. Qed.

(** Batch whose first iteration fails before Wait reads the status. *)
Definition o_failing : oracle nat := mkOracle (Some 1, None) (IterRes None None (Some 7)) None 0%Z.
Definition t_batch := (conf5, o_failing, [[DBatch]], d_play ++ [Go 2; Send 2 1; Go 1; Go 2; Go 0]).
Lemma batch_nil : exists st : state nat, reachable conf5 [[DBatch]] st /\
  returned 0 (sh_log (s_sh st)) = [None] /\ sh_status (s_sh st) = new_status_error (ErrImpl 7) /\
  iterations_saved (sh_log (s_sh st)) = 0%Z /\ ended st 0 /\ ended st 2.
Proof.
  witness t_batch. split; [calc|]. split; [calc|]. split; [calc|]. split; over.
Qed.
