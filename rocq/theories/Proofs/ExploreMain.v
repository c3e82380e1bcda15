(** The results of the explorations, for all configurations and sessions, and instances. *)
From Coq Require Import List ZArith Bool Lia.
From Verif Require Import Base.Go Base.Num Model.Status Model.Finish Model.CtrlLang Model.CtrlCode Spec.CtrlSpec Spec.ExploreSpec
  Proofs.Explore Proofs.ExploreEq Proofs.CtrlTraces Proofs.ExploreTraces Proofs.ExploreEndless Proofs.ExploreOnce Proofs.ExploreCalm.
Import ListNotations.
Local Open Scope list_scope.

Section Main.
  Context {C : Type}.
  Variable cf : cconf.
  Variable cs : list dcall.
  Variable st : state C.

  Lemma endless_returns_all : endless cf -> calm_session cs -> reached cf obliging [cs] st -> ~ ended st 0 -> leads cf obliging (returning 0) st.
  Proof. intros Hcf Hcs. exact (endless_returns cf Hcf cs Hcs st). Qed.
  Lemma endless_no_crash_all : endless cf -> calm_session cs -> reached cf obliging [cs] st -> sh_crashed (s_sh st) = false.
  Proof. intros Hcf Hcs. exact (endless_no_crash cf Hcf cs Hcs st). Qed.
  Lemma endless_one_run_all : endless cf -> calm_session cs -> reached cf obliging [cs] st ->
    forall t u, kind_of st t = Some KRunner -> kind_of st u = Some KRunner -> ~ ended st t -> ~ ended st u -> t = u.
  Proof. intros Hcf Hcs. exact (endless_one_run cf Hcf cs Hcs st). Qed.
  Lemma endless_race_free_all f : endless cf -> calm_session cs -> reached cf obliging [cs] st -> f <> FFigures -> ~ data_race st f.
  Proof. intros Hcf Hcs. exact (endless_race_free cf Hcf cs Hcs st f). Qed.
  Lemma endless_answered_all done c rest th b : endless cf -> calm_session cs -> reached cf obliging [cs] st -> cs = done ++ c :: rest ->
    nth_error (s_th st) 0 = Some th -> th_code th = IReturn b :: client_code cf rest ->
    sh_status (s_sh st) = new_status (fst (after (done ++ [c]))) /\ match snd (after (done ++ [c])) with Some e => l_err (th_loc th) = e | None => True end.
  Proof. intros Hcf Hcs H E Hn Hc. destruct (endless_answered cf Hcf cs Hcs st done c rest th b H E Hn Hc) as (H1 & H2 & _). split; assumption. Qed.
  Lemma calm_running done c rest th b : endless cf -> calm_session cs -> reached cf obliging [cs] st -> cs = done ++ c :: rest ->
    nth_error (s_th st) 0 = Some th -> th_code th = IReturn b :: client_code cf rest -> fst (after (done ++ [c])) = Running ->
    sh_status (s_sh st) = new_status Running /\ exists t, kind_of st t = Some KRunner /\ ~ ended st t.
  Proof.
    intros Hcf Hcs H E Hn Hc Hr. destruct (endless_answered cf Hcf cs Hcs st done c rest th b H E Hn Hc) as (H1 & _ & H3). rewrite Hr in H1. split; [exact H1|]. apply H3. left. exact Hr.
  Qed.
  Lemma calm_pause done rest th b : endless cf -> calm_session cs -> reached cf obliging [cs] st -> cs = done ++ DPause :: rest ->
    nth_error (s_th st) 0 = Some th -> th_code th = IReturn b :: client_code cf rest -> fst (after done) = Running ->
    sh_status (s_sh st) = new_status Idle /\ l_err (th_loc th) = None /\ exists t, kind_of st t = Some KRunner /\ ~ ended st t.
  Proof.
    intros Hcf Hcs H E Hn Hc Hr. destruct (endless_answered cf Hcf cs Hcs st done _ rest th b H E Hn Hc) as (H1 & H2 & H3). rewrite after_snoc, Hr in H1, H2, H3. cbn in H1, H2, H3.
    split; [exact H1|]. split; [exact H2|]. apply H3. right. reflexivity.
  Qed.
  Lemma calm_push done rest th k b : endless cf -> calm_session cs -> reached cf obliging [cs] st -> cs = done ++ DPush :: rest ->
    nth_error (s_th st) 0 = Some th -> th_code th = k ++ IReturn b :: client_code cf rest -> leads cf obliging (returning 0) st.
  Proof.
    intros Hcf Hcs H E Hn Hc. apply (endless_returns cf Hcf cs Hcs st H). intros (th' & Hn' & Ec). rewrite Hn in Hn'. injection Hn' as <-. rewrite Ec in Hc. destruct k; discriminate Hc.
  Qed.

  Lemma once_returns_all : budgeted cf -> once_session cs -> reached cf initializing [cs] st -> ~ ended st 0 -> leads cf failing (returning 0) st.
  Proof. intros Hcf Hcs. exact (once_returns cf Hcf cs Hcs st). Qed.
  Lemma once_one_run_all : budgeted cf -> once_session cs -> reached cf initializing [cs] st ->
    forall t u, kind_of st t = Some KRunner -> kind_of st u = Some KRunner -> ~ ended st t -> ~ ended st u -> t = u.
  Proof. intros Hcf Hcs. exact (once_one_run cf Hcf cs Hcs st). Qed.
  Lemma once_race_free_all f : budgeted cf -> once_session cs -> reached cf initializing [cs] st -> ~ data_race st f.
  Proof. intros Hcf Hcs. exact (once_race_free cf Hcf cs Hcs st f). Qed.
  Lemma once_answers_all done c rest th b : budgeted cf -> once_session cs -> reached cf initializing [cs] st -> cs = done ++ c :: rest ->
    nth_error (s_th st) 0 = Some th -> th_code th = IReturn b :: client_code cf rest ->
    let s := st_value (sh_status (s_sh st)) in let e := l_err (th_loc th) in
    match c with
    | DPlay => e = None /\ (s = Running \/ s = Ready \/ s = Finished)
    | DBatch => s = Finished /\ (e <> None -> st_error (sh_status (s_sh st)) <> None)
    | DWait _ _ => In DPlay done \/ In DBatch done -> (sh_status (s_sh st) = new_status Ready \/ s = Finished) /\ (e <> None -> st_error (sh_status (s_sh st)) <> None)
    | _ => True
    end.
  Proof. intros Hcf Hcs. exact (once_answers cf Hcf cs Hcs st done c rest th b). Qed.

  Lemma listened_all : endless_listened cf -> calm_session cs -> reached cf obliging [cs] st ->
    (~ ended st 0 -> leads cf obliging (returning 0) st) /\
    forall done c rest th b, cs = done ++ c :: rest -> nth_error (s_th st) 0 = Some th -> th_code th = IReturn b :: client_code cf rest ->
      sh_status (s_sh st) = new_status (fst (after (done ++ [c]))).
  Proof.
    intros Hcf Hcs H. split; [exact (listened_returns cf Hcf cs Hcs st H)|]. intros done c rest th b. exact (listened_status cf Hcf cs Hcs st done c rest th b H).
  Qed.
  Lemma started_all : endless_started cf -> calm_session cs -> no_push_ready cs -> reached cf obliging [cs] st ->
    (~ ended st 0 -> leads cf obliging (returning 0) st) /\
    forall done c rest th b, cs = done ++ c :: rest -> nth_error (s_th st) 0 = Some th -> th_code th = IReturn b :: client_code cf rest ->
      sh_status (s_sh st) = new_status (fst (after (done ++ [c]))).
  Proof.
    intros Hcf Hcs Hp H. split; [exact (started_returns cf Hcf cs Hcs Hp st H)|]. intros done c rest th b. exact (started_status cf Hcf cs Hcs Hp st done c rest th b H).
  Qed.
End Main.

(** Instances. *)
Definition t_once_run := (conf5, o_fail, [s_fail], d_play ++ [Until 0 KRlockM; Steps 0 2; Until 2 KIterate; Steps 0 10]).
Lemma not_ended_head (st : state nat) t : match nth_error (s_th st) t with Some th => match th_code th with [] => false | _ => true end | None => true end = true -> ~ ended st t.
Proof. intros H (th & Hn & Hc). rewrite Hn, Hc in H. discriminate. Qed.
Lemma at_code (st : state nat) t code (P : thread nat -> bool) :
  match nth_error (s_th st) t with Some th => code_eqb (th_code th) code && P th | None => false end = true ->
  exists th, nth_error (s_th st) t = Some th /\ th_code th = code /\ P th = true.
Proof. destruct (nth_error (s_th st) t) as [th|]; [|discriminate]. intros H. apply andb_prop in H as (H1 & H2). exists th. split; [reflexivity|]. split; [apply code_eqb_eq; exact H1|exact H2]. Qed.
Ltac reaches o := apply st_of_reached; [exact o|vm_compute; reflexivity].
Ltac alive := apply not_ended_head; calc.

Lemma conf0_endless : endless conf0.
Proof. repeat split; discriminate. Qed.
Lemma conf_budgeted : budgeted conf5 /\ budgeted conf1.
Proof. split; (split; [left; discriminate|]; repeat split; discriminate). Qed.
Lemma o_init_ok : initializing o_fail /\ initializing o_ok.
Proof. split; reflexivity. Qed.

Lemma o_fail_failing : failing o_fail.
Proof. split; [reflexivity|]. intros c f H. discriminate H. Qed.
Lemma calm_and_once : endless conf0 /\ calm_session s_calm /\ reached conf0 obliging [s_calm] (st_of (t_calm conf0)) /\ ~ ended (st_of (t_calm conf0)) 0 /\
  budgeted conf5 /\ once_session s_fail /\ reached conf5 initializing [s_fail] (st_of t_fail) /\ ~ ended (st_of t_fail) 0 /\ failing o_fail.
Proof.
  split; [exact conf0_endless|]. split; [exact s_calm_calm|]. split; [reaches o_ok_obliging|]. split; [alive|].
  split; [exact (proj1 conf_budgeted)|]. split; [exact (proj1 once_sessions)|]. split; [reaches (proj1 o_init_ok)|]. split; [alive|exact o_fail_failing].
Qed.
Definition err_is (e : option algo_error) (th : thread nat) : bool :=
  match l_err (th_loc th), e with
  | None, None => true
  | Some ErrNeverFinish, Some ErrNeverFinish => true
  | Some (ErrImpl n), Some (ErrImpl m) => Nat.eqb n m
  | _, _ => false
  end.
Lemma err_is_eq e th : err_is e th = true -> l_err (th_loc th) = e.
Proof. unfold err_is. destruct (l_err (th_loc th)) as [[]|], e as [[]|]; try discriminate; try reflexivity. intros H. apply Nat.eqb_eq in H. congruence. Qed.
Lemma at_return_err (st : state nat) code e : match nth_error (s_th st) 0 with Some th => code_eqb (th_code th) code && err_is e th | None => false end = true ->
  exists th, nth_error (s_th st) 0 = Some th /\ th_code th = code /\ l_err (th_loc th) = e.
Proof. intros H. destruct (at_code st 0 code (err_is e) H) as (th & H1 & H2 & H3). exists th. split; [exact H1|]. split; [exact H2|exact (err_is_eq _ _ H3)]. Qed.
Lemma calm_case : endless conf0 /\ calm_session s_calm /\ reached conf0 obliging [s_calm] (st_of (t_calm conf0)) /\
  (exists th, nth_error (s_th (st_of (t_calm conf0))) 0 = Some th /\ th_code th = IReturn true :: client_code conf0 [] /\ l_err (th_loc th) = Some ErrNeverFinish) /\
  returned 0 (sh_log (s_sh (st_of (t_calm conf0)))) = [None; None; None; None; None; None; None; None] /\
  map (fun n => after (firstn n s_calm)) (seq 0 10) =
    [(Created, None); (Created, None); (Ready, Some None); (Running, Some None); (Running, None); (Idle, Some None); (Running, Some None);
     (Finished, Some None); (Running, Some None); (Running, Some (Some ErrNeverFinish))].
Proof.
  split; [exact conf0_endless|]. split; [exact s_calm_calm|]. split; [reaches o_ok_obliging|]. split; [apply at_return_err; calc|]. split; calc.
Qed.
Lemma once_case : budgeted conf5 /\ once_session s_fail /\ reached conf5 initializing [s_fail] (st_of t_fail) /\
  (exists th, nth_error (s_th (st_of t_fail)) 0 = Some th /\ th_code th = IReturn true :: client_code conf5 [DStatus] /\ l_err (th_loc th) = Some (ErrImpl 7)) /\
  sh_status (s_sh (st_of t_fail)) = new_status_error (ErrImpl 7) /\
  budgeted conf1 /\ once_session s_batch /\ reached conf1 initializing [s_batch] (st_of t_batch_once) /\
  (exists th, nth_error (s_th (st_of t_batch_once)) 0 = Some th /\ th_code th = IReturn true :: client_code conf1 [DWait None 0; DModel] /\ l_err (th_loc th) = None) /\
  sh_status (s_sh (st_of t_batch_once)) = new_status Finished.
Proof.
  split; [exact (proj1 conf_budgeted)|]. split; [exact (proj1 once_sessions)|]. split; [reaches (proj1 o_init_ok)|]. split; [apply at_return_err; calc|]. split; [calc|].
  split; [exact (proj2 conf_budgeted)|]. split; [exact (proj2 once_sessions)|]. split; [reaches (proj2 o_init_ok)|]. split; [apply at_return_err; calc|calc].
Qed.
(** Push holds the model mutex and is to lock the status mutex, while the run waits for the model mutex. *)
Definition t_calm_push := (conf0, o_ok, [s_calm], d_play ++ [Until 0 KModel; Steps 0 1; Until 2 KTryStatus]).
Lemma push_case : endless conf0 /\ calm_session s_calm /\ reached conf0 obliging [s_calm] (st_of t_calm_push) /\
  (exists th k, nth_error (s_th (st_of t_calm_push)) 0 = Some th /\ th_code th = k ++ IReturn true :: client_code conf0 [DPause; DPlay; DStop; DPlay; DWait None 0]) /\
  holds (st_of t_calm_push) MModel 0 /\ about_to (st_of t_calm_push) 0 (IRLock MStatus) /\ about_to (st_of t_calm_push) 2 (IRLock MModel).
Proof.
  split; [exact conf0_endless|]. split; [exact s_calm_calm|]. split; [reaches o_ok_obliging|].
  split; [|split; [calc|]; split; here].
  pose (n := match nth_error (s_th (st_of t_calm_push)) 0 with Some th => length (th_code th) - S (length (client_code conf0 [DPause; DPlay; DStop; DPlay; DWait None 0])) | None => 0 end).
  assert (X : match nth_error (s_th (st_of t_calm_push)) 0 with Some th => code_eqb (skipn n (th_code th)) (IReturn true :: client_code conf0 [DPause; DPlay; DStop; DPlay; DWait None 0]) | None => false end = true) by calc.
  destruct (nth_error (s_th (st_of t_calm_push)) 0) as [th|]; [|discriminate X]. exists th, (firstn n (th_code th)). split; [reflexivity|]. apply code_eqb_eq in X. rewrite <- X. symmetry. apply firstn_skipn.
Qed.
Lemma listened_case : endless_listened conf_listen /\ calm_session s_calm /\ reached conf_listen obliging [s_calm] (st_of (t_calm conf_listen)) /\
  returned 0 (sh_log (s_sh (st_of (t_calm conf_listen)))) = [None; None; None; None; None; None; None; None] /\
  map st_value (notified (sh_log (s_sh (st_of (t_calm conf_listen))))) = [Initializing; Ready; Running; Idle; Running; Finished; Initializing; Ready; Running].
Proof. split; [repeat split; discriminate|]. split; [exact s_calm_calm|]. split; [reaches o_ok_obliging|]. split; calc. Qed.
Lemma started_case : endless_started conf_start /\ (0 < cf_dpi conf_start)%Z /\ calm_session s_calm /\ no_push_ready s_calm /\
  reached conf_start obliging [s_calm] (st_of (t_calm conf_start)) /\ returned 0 (sh_log (s_sh (st_of (t_calm conf_start)))) = [None; None; None; None; None; None; None; None] /\ ~ ended (st_of (t_calm conf_start)) 0.
Proof. split; [repeat split; discriminate|]. split; [reflexivity|]. split; [exact s_calm_calm|]. split; [exact s_calm_pushes|]. split; [reaches o_ok_obliging|]. split; [calc|alive]. Qed.
Lemma restart_case : endless conf0 /\ calm_session s_calm /\ reached conf0 obliging [s_calm] (st_of (t_calm conf0)) /\ fst (after (firstn 7 s_calm)) = Finished /\
  fst (after s_calm) = Running /\ sh_status (s_sh (st_of (t_calm conf0))) = new_status Running /\
  kind_of (st_of (t_calm conf0)) 2 = Some KRunner /\ ended (st_of (t_calm conf0)) 2 /\ kind_of (st_of (t_calm conf0)) 3 = Some KRunner /\ ~ ended (st_of (t_calm conf0)) 3.
Proof.
  split; [exact conf0_endless|]. split; [exact s_calm_calm|]. split; [reaches o_ok_obliging|]. split; [calc|]. split; [calc|]. split; [calc|]. split; [calc|]. split; [over|]. split; [calc|alive].
Qed.
(** Pause of the run, about to return. *)
Definition t_calm_pause := (conf0, o_ok, [s_calm], d_play ++ [Until 2 KTryStatus; Go 0; Send 0 2; Go 2; Send 2 1; Go 1; Go 2; Go 0; Send 2 0; Steps 0 1]).
Lemma pause_case : endless conf0 /\ calm_session s_calm /\ reached conf0 obliging [s_calm] (st_of t_calm_pause) /\
  s_calm = [DPush; DInit; DPlay; DPush] ++ DPause :: [DPlay; DStop; DPlay; DWait None 0] /\ fst (after [DPush; DInit; DPlay; DPush]) = Running /\
  exists th, nth_error (s_th (st_of t_calm_pause)) 0 = Some th /\ th_code th = IReturn true :: client_code conf0 [DPlay; DStop; DPlay; DWait None 0] /\ l_err (th_loc th) = None.
Proof.
  split; [exact conf0_endless|]. split; [exact s_calm_calm|]. split; [reaches o_ok_obliging|]. split; [calc|]. split; [calc|]. apply at_return_err. calc.
Qed.
Lemma run_case : endless conf0 /\ calm_session s_calm /\ reached conf0 obliging [s_calm] (st_of t_calm_push) /\ kind_of (st_of t_calm_push) 2 = Some KRunner /\ ~ ended (st_of t_calm_push) 2 /\
  budgeted conf5 /\ once_session s_fail /\ reached conf5 initializing [s_fail] (st_of t_once_run) /\ kind_of (st_of t_once_run) 2 = Some KRunner /\ about_to (st_of t_once_run) 2 IImplIterate /\
  returned 0 (sh_log (s_sh (st_of t_once_run))) = [None; None].
Proof.
  split; [exact conf0_endless|]. split; [exact s_calm_calm|]. split; [reaches o_ok_obliging|]. split; [calc|]. split; [alive|].
  split; [exact (proj1 conf_budgeted)|]. split; [exact (proj1 once_sessions)|]. split; [reaches (proj1 o_init_ok)|]. split; [calc|]. split; [here|calc].
Qed.
