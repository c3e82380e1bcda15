(** Main statements about the controller at call granularity. *)
From Coq Require Import List ZArith Bool Lia String.
From Verif Require Import Base.Go Base.Num Model.Status Model.Finish Model.CtrlLang Model.CtrlCode Model.CtrlSeq
  Spec.CtrlSpec Spec.CtrlSeqSpec Proofs.GoLemmas Proofs.ConfProofs Proofs.CtrlCheck Proofs.CtrlSound Proofs.CtrlMain
  Proofs.CtrlSeqProofs.
Import ListNotations.
Local Open Scope list_scope.

Section Main.
  Context {C : Type}.
  Variable cf : cconf.
  Notation seq_st := (seq_st C).

  Lemma seq_workflow : forall (q : seq_st), seq_reachable cf q ->
    linked workflow (map st_value (new_status Created :: statuses_set (q_log q))) /\
    last (new_status Created :: statuses_set (q_log q)) (new_status Created) = q_status q /\
    Forall error_only_finished (statuses_set (q_log q)).
  Proof.
    intros q H. apply reach_rest in H. destruct H as ((K & _) & _). destruct (c_hist _ _ K) as (H1 & (l & H2) & H3).
    split; [exact H1|]. split; [|exact H3]. rewrite H2, last_last. reflexivity.
  Qed.

  Lemma rest_run (q : seq_st) : rest cf q ->
    (q_run q = NoRun /\ (st_value (q_status q) = Created \/ st_value (q_status q) = Ready \/ st_value (q_status q) = Finished)) \/
    (q_run q = AtSelect /\ st_value (q_status q) = Running) \/ (q_run q = AtWait /\ st_value (q_status q) = Idle).
  Proof.
    intros ((_ & R & _) & T). unfold run_ok in R. destruct (q_run q); [auto|congruence|auto|auto].
  Qed.

  Lemma seq_calls : forall (q : seq_st), seq_reachable cf q -> q_locked q = false -> forall a,
    (exists q' e, call_seq cf DPlay a q = Some (q', e) /\
       (e = Some ErrRunning <-> st_value (q_status q) = Running) /\
       (st_value (q_status q) = Running -> q' = q) /\
       (st_value (q_status q) = Ready \/ st_value (q_status q) = Idle -> e = None /\ st_value (q_status q') = Running) /\
       (st_value (q_status q) = Created \/ st_value (q_status q) = Finished ->
          match snd (a_init a) with
          | None => e = None /\ st_value (q_status q') = Running
          | Some n => e = Some (ErrImpl n) /\ q_status q' = new_status_error (ErrImpl n) /\ q_locked q' = true
          end)) /\
    (exists q' e, call_seq cf DPause a q = Some (q', e) /\
       (st_value (q_status q) = Running -> e = None /\ q_status q' = new_status Idle) /\
       (st_value (q_status q) <> Running -> e = Some ErrNotRunning /\ q' = q)) /\
    (exists q' e, call_seq cf DStop a q = Some (q', e) /\
       (st_alive (q_status q) = true -> e = None /\ q_status q' = new_status Finished) /\
       (st_alive (q_status q) = false -> e = Some ErrNotAlive /\ q' = q)) /\
    (exists q' e, call_seq cf DInit a q = Some (q', e) /\
       (st_alive (q_status q) = true -> e = Some ErrAlreadyCreated /\ q' = q) /\
       (st_alive (q_status q) = false -> m_centroids (q_model q') = fst (a_init a) /\
          match snd (a_init a) with
          | None => e = None /\ q_status q' = new_status Ready
          | Some n => e = Some (ErrImpl n) /\ q_status q' = new_status_error (ErrImpl n)
          end)) /\
    (forall f d,
       (st_value (q_status q) = Idle -> call_seq cf (DWait f d) a q = Some (q, Some ErrIdle)) /\
       (st_value (q_status q) = Created -> call_seq cf (DWait f d) a q = Some (q, Some ErrNotRunning)) /\
       (st_value (q_status q) = Ready \/ st_value (q_status q) = Finished -> call_seq cf (DWait f d) a q = Some (q, None)) /\
       (st_value (q_status q) = Running -> f = None -> (d <= 0)%Z -> cf_fin cf = None -> cf_timeout cf = false ->
          cf_iter cf = 0%Z -> cf_ipd cf = 0%Z -> call_seq cf (DWait f d) a q = Some (q, Some ErrNeverFinish))).
  Proof.
    intros q H U a. apply reach_rest in H. pose proof H as Hq. apply rest_run in H.
    assert (Ha : st_alive (q_status q) = match st_value (q_status q) with Ready | Running | Idle => true | _ => false end).
    { unfold st_alive, st_running. destruct (st_value (q_status q)); reflexivity. }
    rewrite !Ha. clear Ha. unfold call_seq. rewrite U.
    pose proof (init_result (a_init a) q) as Hi.
    split; [|split; [|split; [|split]]].
    - unfold play_seq.
      assert (Hinit : st_value (q_status q) = Created \/ st_value (q_status q) = Finished ->
        exists q' e, (let (q0, err) := init_seq (a_init a) q in
          match err with None | Some ErrAlreadyCreated => Some (start_seq cf q0, None) | Some e => Some (q_lock q0, Some e) end) = Some (q', e)
          /\ e <> Some ErrRunning /\
          match snd (a_init a) with
          | None => e = None /\ st_value (q_status q') = Running
          | Some n => e = Some (ErrImpl n) /\ q_status q' = new_status_error (ErrImpl n) /\ q_locked q' = true
          end).
      { intros Hs. destruct (Hi Hs) as (H1 & H2 & _). clear Hi. destruct (init_seq (a_init a) q) as [q0 err]. cbn [fst snd] in *.
        destruct (snd (a_init a)) as [n|]; destruct H1 as [-> H1]; eexists; eexists; (split; [reflexivity|]); (split; [discriminate|]); auto. }
      destruct H as [(-> & [S|[S|S]])|[(-> & S)|(-> & S)]]; rewrite S in *.
      + destruct (Hinit (or_introl eq_refl)) as (q' & e & E & N & D). exists q', e. split; [exact E|].
        split; [split; [intros X; contradiction|discriminate]|]. split; [discriminate|]. split; [intros [X|X]; discriminate|auto].
      + eexists; eexists; split; [reflexivity|]. split; [split; discriminate|]. split; [discriminate|]. split; [auto|].
        intros [X|X]; discriminate.
      + destruct (Hinit (or_intror eq_refl)) as (q' & e & E & N & D). exists q', e. split; [exact E|].
        split; [split; [intros X; contradiction|discriminate]|]. split; [discriminate|]. split; [intros [X|X]; discriminate|auto].
      + eexists; eexists; split; [reflexivity|]. split; [split; reflexivity|]. split; [reflexivity|].
        split; intros [X|X]; discriminate.
      + eexists; eexists; split; [reflexivity|]. split; [split; discriminate|]. split; [discriminate|]. split; [auto|].
        intros [X|X]; discriminate.
    - unfold pause_seq. destruct H as [(-> & [S|[S|S]])|[(-> & S)|(-> & S)]]; rewrite S;
        eexists; eexists; (split; [reflexivity|]); split; try discriminate; auto. intros X. contradiction X. reflexivity.
    - unfold interrupt. destruct H as [(-> & [S|[S|S]])|[(-> & S)|(-> & S)]]; rewrite S;
        eexists; eexists; (split; [reflexivity|]); split; try discriminate; auto.
    - destruct (init_seq (a_init a) q) as [q0 err] eqn:E. cbn [fst snd] in Hi. exists q0, err. split; [reflexivity|].
      assert (Hn : forall v, st_value (q_status q) = v -> v <> Created -> v <> Finished -> q0 = q /\ err = Some ErrAlreadyCreated).
      { intros v Hv N1 N2. unfold init_seq in E. rewrite Hv in E. destruct v; try contradiction; injection E as <- <-; auto. }
      destruct H as [(_ & [S|[S|S]])|[(_ & S)|(_ & S)]]; rewrite S in *; (split; [try discriminate|try discriminate]);
        try (intros _; destruct (Hn _ eq_refl) as [-> ->]; [discriminate|discriminate|auto]);
        intros _; destruct Hi as (H1 & _ & _ & H4); auto.
    - intros f d. unfold wait_seq. destruct (st_value (q_status q)) eqn:S;
        (split; [try discriminate; auto|split; [try discriminate; auto|split; [intros [X|X]; try discriminate; auto|]]]); try discriminate.
      intros _ -> Hd Hf Ht H1 H2. unfold never_finish. rewrite Hf, Ht, H1, H2. apply Z.leb_le in Hd. rewrite Hd. reflexivity.
  Qed.

  Lemma locked_forever : forall (q : seq_st), seq_reachable cf q -> q_locked q = true ->
    st_value (q_status q) = Finished /\ st_error (q_status q) <> None /\
    forall c a, c <> DModel -> call_seq cf c a q = None.
  Proof.
    intros q H L. apply reach_rest in H. destruct H as ((_ & _ & HL & _) & _). destruct (HL L) as (_ & H1 & H2).
    split; [exact H1|]. split; [exact H2|]. intros c a N. unfold call_seq. rewrite L. destruct c; try reflexivity. contradiction.
  Qed.

  (** Turns. *)
  Lemma saved_cons c f (log : list (event C)) : iterations_saved (EvSaved c f :: log) = (iterations_saved log + 1)%Z.
  Proof. unfold iterations_saved. cbn. lia. Qed.
  Lemma counts_status t s (log : list (event C)) :
    iterations_saved (EvStatus t s :: log) = iterations_saved log /\ pushes (EvStatus t s :: log) = pushes log.
  Proof. split; reflexivity. Qed.
  Lemma end_counts err now (q : seq_st) :
    iterations_saved (q_log (end_run err now q)) = iterations_saved (q_log q) /\
    pushes (q_log (end_run err now q)) = pushes (q_log q) /\
    m_centroids (q_model (end_run err now q)) = m_centroids (q_model q).
  Proof. unfold end_run. destruct err; [|destruct (status_eqb (st_value (q_status q)) Running)]; cbn; auto. Qed.

  Lemma run_state (q : seq_st) : rest cf q -> st_value (q_status q) = Running ->
    q_run q = AtSelect /\ q_status q = new_status Running.
  Proof.
    intros Hq S. destruct (rest_run q Hq) as [(_ & [X|[X|X]])|[(X & _)|(_ & X)]]; try congruence.
    split; [exact X|]. destruct (c_hist _ _ (proj1 (proj1 Hq))) as (_ & (l & E1) & E2).
    destruct (q_status q) as [v e] eqn:Eq. cbn in S. subst v. unfold new_status. f_equal.
    destruct l as [|x l]; [injection E1 as E1 _; discriminate E1|].
    injection E1 as _ E1. rewrite E1 in E2. apply Forall_app in E2. destruct E2 as [_ E2].
    assert (E3 : error_only_finished (mkStatus Running e)) by (inversion E2; assumption).
    destruct e as [e|]; [|reflexivity]. discriminate (E3 ltac:(discriminate)).
  Qed.

  Lemma settle_running now b (q : seq_st) : core b q -> only_budget cf -> exact_counts q ->
    q_run q = AtTest -> q_status q = new_status Running ->
    q_status (settle cf now q) = new_status (if (iterations_saved (q_log q) <? budget cf (pushes (q_log q)))%Z then Running else Ready).
  Proof.
    intros K HB HX R S. pose proof (test_iter cf b q K HB HX) as HT. unfold settle. rewrite R, S. cbn [st_value new_status status_eqb andb].
    destruct (Z.ltb_spec (iterations_saved (q_log q)) (budget cf (pushes (q_log q)))) as [L|L];
      destruct (is_finished (run_finishing cf) (q_fin q)); cbn [negb].
    - destruct HT as [HT _]. specialize (HT eq_refl). lia.
    - exact S.
    - unfold end_run. rewrite S. reflexivity.
    - destruct HT as [_ HT]. specialize (HT L). discriminate.
  Qed.
  Lemma settle_counts now (q : seq_st) :
    iterations_saved (q_log (settle cf now q)) = iterations_saved (q_log q) /\
    pushes (q_log (settle cf now q)) = pushes (q_log q) /\
    m_centroids (q_model (settle cf now q)) = m_centroids (q_model q).
  Proof.
    unfold settle. destruct (q_run q); auto.
    destruct (status_eqb (st_value (q_status q)) Running && negb (is_finished (run_finishing cf) (q_fin q))); [auto|apply end_counts].
  Qed.
  Lemma exact_settle now (q : seq_st) : exact_counts (settle cf now q) -> exact_counts q.
  Proof. unfold exact_counts. destruct (settle_counts now q) as (-> & -> & _). auto. Qed.

  Lemma seq_budget : forall (q : seq_st), only_budget cf -> seq_reachable cf q -> exact_counts q ->
    (st_value (q_status q) = Running -> (iterations_saved (q_log q) < budget cf (pushes (q_log q)))%Z) /\
    (forall r d now, st_value (q_status q) <> Running -> advance cf (PTurn r d now) q = q) /\
    (forall c f d now, st_value (q_status q) = Running ->
       let q' := advance cf (PTurn (IterRes (Some c) f None) d now) q in
       iterations_saved (q_log q') = (iterations_saved (q_log q) + 1)%Z /\ pushes (q_log q') = pushes (q_log q) /\
       m_centroids (q_model q') = Some c /\
       (exact_counts q' ->
        q_status q' = new_status (if (iterations_saved (q_log q') <? budget cf (pushes (q_log q')))%Z then Running else Ready))) /\
    (forall f d now, st_value (q_status q) = Running ->
       let q' := advance cf (PTurn (IterRes None f None) d now) q in
       iterations_saved (q_log q') = iterations_saved (q_log q) /\ q_status q' = new_status Running) /\
    (forall a q', st_value (q_status q) = Ready -> act cf (ACall DPlay a) q = Some q' ->
       iterations_saved (q_log q') = iterations_saved (q_log q) /\
       q_status q' = new_status (if (iterations_saved (q_log q) <? budget cf (pushes (q_log q)))%Z then Running else Ready)).
  Proof.
    intros q HB H HX. pose proof (reach_rest cf q H) as Hq.
    assert (K : core false q) by apply Hq.
    assert (Hlt : st_value (q_status q) = Running -> (iterations_saved (q_log q) < budget cf (pushes (q_log q)))%Z).
    { intros S. destruct (run_state q Hq S) as [R _]. destruct Hq as ((_ & _ & _ & B) & _). apply B; auto. }
    split; [exact Hlt|]. split; [|split; [|split]].
    - intros r d now S. cbn. unfold turn. destruct (rest_run q Hq) as [(-> & _)|[(_ & X)|(-> & _)]]; [reflexivity|contradiction|reflexivity].
    - intros c f d now S. destruct (run_state q Hq S) as [R E]. cbn [advance]. unfold turn. rewrite R.
      set (q1 := q_runner (q_event (q_upd q (model_save (q_model q) (Some c) f d)) (EvSaved (Some c) f)) AtTest).
      assert (K1 : core false q1) by (apply core_runner, (core_save cf), K).
      assert (Hn : iterations_saved (q_log q1) = (iterations_saved (q_log q) + 1)%Z) by (apply saved_cons).
      assert (Hp : pushes (q_log q1) = pushes (q_log q)) by reflexivity.
      destruct (settle_counts now q1) as (C1 & C2 & C3). cbv zeta. rewrite C1, C2, C3, Hn, Hp.
      split; [reflexivity|]. split; [reflexivity|]. split; [reflexivity|]. intros X.
      rewrite (settle_running now false q1 K1 HB (exact_settle _ _ X) eq_refl E). rewrite Hn, Hp. reflexivity.
    - intros f d now S. destruct (run_state q Hq S) as [R E]. cbn [advance]. unfold turn. rewrite R.
      destruct (settle_counts now (q_runner q AtTest)) as (C1 & C2 & C3). cbv zeta. rewrite C1.
      split; [reflexivity|]. rewrite (settle_running now false (q_runner q AtTest) (core_runner _ _ _ K) HB HX eq_refl E).
      cbn [q_runner q_log]. specialize (Hlt S). apply Z.ltb_lt in Hlt. rewrite Hlt. reflexivity.
    - intros a q' S E. cbn [act] in E. unfold call_seq in E. destruct (q_locked q) eqn:U; [discriminate|].
      unfold play_seq in E. rewrite S in E. injection E as <-.
      match goal with |- context[settle cf (a_end a) ?x] => set (q1 := x) end.
      destruct (settle_counts (a_end a) q1) as (C1 & C2 & C3). rewrite C1. split; [reflexivity|].
      assert (K1 : core false q1).
      { eapply core_return. apply (proj1 (start_sound cf q K U S)). }
      rewrite (settle_running (a_end a) false q1 K1 HB HX eq_refl eq_refl). reflexivity.
  Qed.

  Lemma seq_no_budget : forall (q : seq_st), no_budget cf -> seq_reachable cf q -> st_value (q_status q) = Running ->
    forall c f d now, q_status (advance cf (PTurn (IterRes c f None) d now) q) = new_status Running.
  Proof.
    intros q (B1 & B2 & B3) H S c f d now. destruct (run_state q (reach_rest cf q H) S) as [R E].
    cbn [advance]. unfold turn, settle. rewrite R. cbn [q_runner q_run].
    assert (F : forall m, is_finished (run_finishing cf) m = false).
    { intros m. unfold run_finishing, is_finished. rewrite B1. cbn [finishing_is_finished]. unfold iter_is_finished. rewrite B2, B3. reflexivity. }
    rewrite F. destruct c; cbn [q_event q_upd q_runner q_status]; rewrite E; exact E.
  Qed.

  Lemma seq_failure : forall (q : seq_st), seq_reachable cf q -> st_value (q_status q) = Running ->
    forall r n d now, failing r n ->
    let q' := advance cf (PTurn r d now) q in
    q_status q' = mkStatus Finished (Some (ErrImpl n)) /\
    m_centroids (q_model q') = m_centroids (q_model q) /\
    iterations_saved (q_log q') = iterations_saved (q_log q) /\
    (forall p, (forall t, p <> PTimer t) -> advance cf p q' = q') /\
    (forall a, snd (a_init a) = None -> exists q2, call_seq cf DPlay a q' = Some (q2, None) /\ st_value (q_status q2) = Running) /\
    (forall a t1 t2 l, never_finish cf None 0 = false -> a_polls a = (t1, [PTurn r d now]) :: (t2, []) :: l ->
       call_seq cf (DWait None 0) a q = Some (q', Some (ErrImpl n))).
  Proof.
    intros q H S r n d now F. cbv zeta. pose proof (reach_rest cf q H) as Hq. destruct (run_state q Hq S) as [R E].
    assert (U : q_locked q = false) by (eapply sound_unlocked; [apply Hq|congruence]).
    assert (Et : advance cf (PTurn r d now) q = end_run (Some (ErrImpl n)) now q).
    { cbn [advance]. unfold turn. rewrite R. destruct r as [c f [m|]|m]; cbn in F; try contradiction; subst m; reflexivity. }
    rewrite Et. destruct (end_counts (Some (ErrImpl n)) now q) as (C1 & _ & C3).
    split; [reflexivity|]. split; [exact C3|]. split; [exact C1|]. split; [|split].
    - intros [r' d' now'|t] N; [|contradiction (N t); reflexivity]. reflexivity.
    - intros a Ha. unfold call_seq. change (q_locked (end_run (Some (ErrImpl n)) now q)) with (q_locked q). rewrite U.
      unfold play_seq. cbn [end_run q_runner q_upd q_set q_status st_value new_status_error q_run].
      destruct (init_result (a_init a) (end_run (Some (ErrImpl n)) now q) (or_intror eq_refl)) as (I1 & _).
      rewrite Ha in I1. destruct I1 as [I1 I2].
      change (q_runner _ NoRun) with (end_run (Some (ErrImpl n)) now q).
      destruct (init_seq (a_init a) (end_run (Some (ErrImpl n)) now q)) as [q0 err]. cbn [fst snd] in *. subst err.
      eexists. split; reflexivity.
    - intros a t1 t2 l Nv Hl. unfold call_seq. rewrite U. unfold wait_seq. rewrite S, Nv, Hl.
      unfold wait_timeout. cbn [wait_loop fold_left].
      assert (W : forall v, is_finished (wait_finishing None) (q_fin q) = v -> v = false).
      { intros v <-. unfold q_fin. rewrite E. reflexivity. }
      rewrite (W _ eq_refl). cbn [Z.ltb Z.compare andb]. rewrite Et. reflexivity.
  Qed.

  Lemma seq_auto : forall (q : seq_st) a, seq_reachable cf q -> q_locked q = false -> a_push a = None ->
    exists q', call_seq cf DPush a q = Some (q', None) /\
      (started q q' <-> st_value (q_status q) = Ready /\ (0 < cf_dpi cf)%Z /\ (cf_dpi cf <= pushes_since_start (q_log q))%Z) /\
      pushes (q_log q') = (pushes (q_log q) + 1)%Z /\
      (started q q' -> st_value (q_status q') = Running /\ pushes_since_start (q_log q') = 0%Z) /\
      (~ started q q' -> q_status q' = q_status q /\ pushes_since_start (q_log q') = (pushes_since_start (q_log q) + 1)%Z).
  Proof.
    intros q a H U Ha. pose proof (reach_rest cf q H) as ((K & R & L & B) & T).
    unfold call_seq. rewrite U, Ha. rewrite push_eq by apply (c_pos _ _ K).
    pose proof (c_new _ _ K) as N. assert (N0 : pushes_since_start (q_log q) = m_new (q_model q)) by (unfold pushes_since_start; rewrite N; reflexivity).
    destruct (pushed_parts cf (a_now a) q K) as (_ & _ & _ & P4).
    assert (Es : starts cf q = true <-> st_value (q_status q) = Ready /\ (0 < cf_dpi cf)%Z /\ (cf_dpi cf <= pushes_since_start (q_log q))%Z).
    { unfold starts. rewrite N0, !andb_true_iff, Z.ltb_lt, Z.leb_le, status_eqb_eq. tauto. }
    destruct (starts cf q) eqn:E; eexists; (split; [reflexivity|]).
    - assert (Hs : started q (start_seq cf (pushed cf (a_now a) q))).
      { exists [EvStatus 0 (new_status Running); EvPushed], 0. split; [reflexivity|]. left. reflexivity. }
      split; [split; [intros _; apply Es; reflexivity|intros _; exact Hs]|].
      split; [apply pushes_cons|]. split; [|intros X; contradiction].
      intros _. split; [reflexivity|]. unfold start_seq, pushes_since_start. cbn [q_set_timer q_runner q_set q_log count_of count_event].
      rewrite P4. reflexivity.
    - assert (Hs : ~ started q (pushed cf (a_now a) q)).
      { intros (l & t & E1 & E2). change (q_log (pushed cf (a_now a) q)) with ([EvPushed] ++ q_log q) in E1.
        apply app_inv_tail in E1. subst l. destruct E2 as [E2|[]]. discriminate. }
      split; [split; [intros X; contradiction|intros X; apply Es in X; discriminate]|].
      split; [apply pushes_cons|]. split; [intros X; contradiction|].
      intros _. split; [reflexivity|]. unfold pushes_since_start. rewrite P4. cbn. unfold pushes_since_start in N0. lia.
  Qed.

  (** Batch. *)
  Section Batch.
    Variable n : Z.
    Hypothesis HB : only_budget cf.
    Hypothesis Hn : (n <= 2 ^ 53)%Z.
    Hypothesis Hb : (budget cf n <= 2 ^ 53)%Z.

    (** During the run of a batch after [n] pushes. *)
    Definition batching (q : seq_st) : Prop :=
      rest cf q /\ pushes (q_log q) = n /\ (iterations_saved (q_log q) <= budget cf n)%Z /\
      ((q_status q = new_status Running) \/
       (q_status q = new_status Ready /\ iterations_saved (q_log q) = budget cf n) \/
       (st_value (q_status q) = Finished /\ st_error (q_status q) <> None)).

    Lemma batching_exact q : batching q -> exact_counts q.
    Proof. intros (_ & H1 & H2 & _). split; lia. Qed.

    Lemma batching_advance p q : batching q -> batching (advance cf p q) /\
      (st_value (q_status q) <> Running -> st_value (q_status (advance cf p q)) <> Running).
    Proof.
      intros J. pose proof (batching_exact q J) as HX. pose proof J as (Hq & J1 & J2 & J3).
      pose proof (advance_rest cf p q Hq) as Ha.
      destruct J3 as [S|[[S S']|[S S']]].
      - split; [|intros X; rewrite S in X; contradiction X; reflexivity].
        assert (Sv : st_value (q_status q) = Running) by (rewrite S; reflexivity).
        destruct (run_state q Hq Sv) as [R _].
        assert (Hlt : (iterations_saved (q_log q) < budget cf n)%Z).
        { rewrite <- J1. destruct Hq as ((_ & _ & _ & B) & _). apply B; auto. }
        assert (K : core false q) by apply Hq.
        destruct p as [r d now|now]; cbn [advance] in *.
        + unfold turn in *. rewrite R in *. destruct r as [c f [m|]|m].
          * split; [exact Ha|]. destruct (end_counts (Some (ErrImpl m)) now q) as (-> & -> & _).
            split; [exact J1|]. split; [exact J2|]. right. right. split; [reflexivity|discriminate].
          * match goal with |- batching (settle cf now ?x) => set (q1 := x) in * end.
            assert (K1 : core false q1) by (destruct c; [apply core_runner, (core_save cf), K|apply core_runner, K]).
            assert (E1 : pushes (q_log q1) = n) by (destruct c; exact J1).
            assert (E2 : (iterations_saved (q_log q1) <= budget cf n)%Z).
            { destruct c; subst q1; cbn [q_runner q_event q_upd q_log]; [rewrite saved_cons|]; lia. }
            assert (E3 : q_status q1 = new_status Running) by (destruct c; exact S).
            assert (X1 : exact_counts q1) by (split; lia).
            assert (R1 : q_run q1 = AtTest) by (destruct c; reflexivity).
            destruct (settle_counts now q1) as (C1 & C2 & _). split; [exact Ha|]. rewrite C1, C2.
            split; [exact E1|]. split; [exact E2|]. rewrite (settle_running now false q1 K1 HB X1 R1 E3). rewrite E1.
            destruct (Z.ltb_spec (iterations_saved (q_log q1)) (budget cf n)); [left; reflexivity|].
            right. left. split; [reflexivity|]. lia.
          * split; [exact Ha|]. destruct (end_counts (Some (ErrImpl m)) now q) as (-> & -> & _).
            split; [exact J1|]. split; [exact J2|]. right. right. split; [reflexivity|discriminate].
        + destruct (q_timer q); [|exact J]. cbn [q_set_timer q_locked] in *.
          destruct (q_locked q) eqn:U; [exact (conj Ha (conj J1 (conj J2 (or_introl S))))|].
          unfold interrupt in *. cbn [q_set_timer q_status q_run] in *. rewrite Sv, R in *.
          split; [exact Ha|].
          destruct (settle_counts now (end_run None now (q_set (q_set_timer q false) (mkStatus Finished (Some ErrTimeout))))) as (C1 & C2 & _).
          destruct (end_counts None now (q_set (q_set_timer q false) (mkStatus Finished (Some ErrTimeout)))) as (C3 & C4 & _).
          rewrite C1, C2, C3, C4. split; [exact J1|]. split; [exact J2|].
          right. right. split; [reflexivity|discriminate].
      - assert (Sv : st_value (q_status q) = Ready) by (rewrite S; reflexivity).
        assert (R : q_run q = NoRun).
        { destruct (rest_run q Hq) as [(X & _)|[(_ & X)|(_ & X)]]; congruence. }
        destruct p as [r d now|now]; cbn [advance] in *.
        + unfold turn in *. rewrite R in *. split; [exact J|auto].
        + destruct (q_timer q); [|split; [exact J|auto]]. cbn [q_set_timer q_locked] in *.
          destruct (q_locked q) eqn:U.
          * split; [exact (conj Ha (conj J1 (conj J2 (or_intror (or_introl (conj S S'))))))|auto].
          * unfold interrupt in *. cbn [q_set_timer q_status q_run] in *. rewrite Sv in *.
            unfold settle in *. cbn [q_set q_set_timer q_run] in *. rewrite R in *.
            split; [|discriminate]. split; [exact Ha|]. split; [exact J1|]. split; [exact J2|].
            right. right. split; [reflexivity|discriminate].
      - assert (R : q_run q = NoRun).
        { destruct (rest_run q Hq) as [(X & _)|[(_ & X)|(_ & X)]]; congruence. }
        destruct p as [r d now|now]; cbn [advance] in *.
        + unfold turn in *. rewrite R in *. split; [exact J|auto].
        + destruct (q_timer q); [|split; [exact J|auto]]. cbn [q_set_timer q_locked] in *.
          destruct (q_locked q) eqn:U.
          * split; [exact (conj Ha (conj J1 (conj J2 (or_intror (or_intror (conj S S'))))))|auto].
          * unfold interrupt in *. cbn [q_set_timer q_status q_run] in *. rewrite S in *.
            unfold settle in *. cbn [q_set_timer q_run] in *. rewrite R in *.
            split; [exact (conj Ha (conj J1 (conj J2 (or_intror (or_intror (conj S S'))))))|].
            cbn. rewrite S. auto.
    Qed.
    Lemma batching_advances l q : batching q -> batching (fold_left (fun q p => advance cf p q) l q) /\
      (st_value (q_status q) <> Running -> st_value (q_status (fold_left (fun q p => advance cf p q) l q)) <> Running).
    Proof.
      revert q. induction l as [|p l IH]; cbn; intros q J; [auto|].
      destruct (batching_advance p q J) as [J1 J2]. destruct (IH _ J1) as [J3 J4]. auto.
    Qed.

    Lemma batching_wait start ps q q' : batching q -> wait_seq cf None 0 start ps q = Some (q', None) ->
      batching q' /\ (q_status q' = new_status Ready \/ (q' = q /\ st_value (q_status q) = Finished /\ st_error (q_status q) <> None)).
    Proof.
      intros J. unfold wait_seq. pose proof J as (_ & _ & _ & J3).
      assert (Hend : forall q0, batching q0 -> st_value (q_status q0) <> Running -> st_error (q_status q0) = None -> q_status q0 = new_status Ready).
      { intros q0 (_ & _ & _ & [X|[[X _]|[_ X]]]) N1 N2; [rewrite X in N1; contradiction N1; reflexivity|exact X|contradiction]. }
      destruct (st_value (q_status q)) eqn:S;
        try (destruct J3 as [X|[[X _]|[X _]]]; try rewrite X in S; cbn in S; congruence).
      - intros [= <-]. split; [exact J|]. left. destruct J3 as [X|[[X _]|[X _]]]; [rewrite X in S; discriminate|exact X|congruence].
      - destruct (never_finish cf None 0); [discriminate|]. unfold wait_timeout. intros H. apply wait_loop_spec in H.
        destruct H as (l & now & p & l' & _ & _ & D).
        assert (Ja : forall l q, batching q -> batching (after (fun l q => fold_left (fun q p => advance cf p q) l q) l q)).
        { unfold after. clear -Hn Hb HB. induction l as [|x l IH]; cbn; intros q H; [exact H|]. apply IH. apply batching_advances. exact H. }
        destruct D as [(D & E)|(_ & (D & _) & _)]; [|lia].
        injection E as E1 E2. specialize (Ja l q J). set (qa := after _ l q) in *.
        destruct (batching_advances p qa Ja) as [J1 J2]. rewrite <- E1 in *. split; [exact J1|]. left.
        apply Hend; [exact J1| |rewrite E2; reflexivity].
        apply J2. intros X. destruct (run_state qa (proj1 Ja) X) as [_ X'].
        unfold q_fin in D. rewrite X' in D. discriminate D.
      - destruct J3 as [X|[[X _]|[_ X]]]; [rewrite X in S; discriminate|rewrite X in S; discriminate|].
        intros [= <-]. auto.
    Qed.
  End Batch.

  Lemma stop_status now (q : seq_st) q1 e1 : rest cf q -> interrupt None now q = Some (q1, e1) ->
    iterations_saved (q_log q1) = iterations_saved (q_log q) /\ pushes (q_log q1) = pushes (q_log q) /\
    (st_value (q_status q) = Created -> q1 = q) /\
    (st_value (q_status q) = Finished -> q1 = q) /\
    (st_value (q_status q) <> Created -> st_value (q_status q1) = Finished).
  Proof.
    intros Hq. unfold interrupt. destruct (rest_run q Hq) as [(R & [S|[S|S]])|[(R & S)|(R & S)]]; rewrite S, ?R; intros [= <- <-];
      repeat split; auto; try discriminate; try (intros X; contradiction X; reflexivity).
  Qed.

  (** An Algo still in status Created did no iteration. *)
  Definition fresh (q q' : seq_st) : Prop := st_value (q_status q') = Created ->
    st_value (q_status q) = Created /\ iterations_saved (q_log q') = iterations_saved (q_log q).
  Lemma fresh_refl q : fresh q q.
  Proof. intros H. auto. Qed.
  Lemma fresh_trans q1 q2 q3 : fresh q1 q2 -> fresh q2 q3 -> fresh q1 q3.
  Proof. intros H1 H2 H. destruct (H2 H) as [H3 ->]. auto. Qed.
  Lemma fresh_not (q q' : seq_st) : st_value (q_status q') <> Created -> fresh q q'.
  Proof. intros N H. contradiction. Qed.
  Lemma fresh_settle now q : fresh q (settle cf now q).
  Proof.
    intros H. split; [|apply settle_counts]. unfold settle in H. destruct (q_run q); auto.
    destruct (status_eqb (st_value (q_status q)) Running && negb (is_finished (run_finishing cf) (q_fin q))); auto.
    unfold end_run in H. destruct (status_eqb (st_value (q_status q)) Running); auto. discriminate.
  Qed.
  Lemma fresh_advance p q : rest cf q -> fresh q (advance cf p q).
  Proof.
    intros Hq. destruct p as [r d now|now]; cbn [advance].
    - unfold turn. destruct (rest_run q Hq) as [(R & _)|[(R & S)|(R & _)]]; rewrite R; try apply fresh_refl.
      destruct r as [c f [m|]|m]; try (apply fresh_not; discriminate).
      eapply fresh_trans; [|apply fresh_settle]. apply fresh_not. destruct c; cbn; congruence.
    - destruct (q_timer q); [|apply fresh_refl]. cbn [q_set_timer q_locked].
      destruct (q_locked q); [exact (fresh_refl q)|].
      destruct (interrupt (Some ErrTimeout) now (q_set_timer q false)) as [[q' e]|] eqn:E; [|exact (fresh_refl q)].
      eapply fresh_trans; [|apply fresh_settle].
      unfold interrupt in E. cbn [q_set_timer q_status q_run] in E.
      destruct (rest_run q Hq) as [(R & [S|[S|S]])|[(R & S)|(R & S)]]; rewrite S, ?R in E; injection E as <- _;
        try exact (fresh_refl q); apply fresh_not; discriminate.
  Qed.
  Lemma fresh_advances l q : rest cf q -> fresh q (fold_left (fun q p => advance cf p q) l q).
  Proof.
    revert q. induction l as [|p l IH]; cbn; intros q Hq; [apply fresh_refl|].
    eapply fresh_trans; [apply fresh_advance; exact Hq|]. apply IH. apply advance_rest. exact Hq.
  Qed.
  Lemma fresh_init r q : fresh q (fst (init_seq r q)).
  Proof. unfold init_seq, init_common_seq. destruct (st_value (q_status q)); try apply fresh_refl; destruct (snd r); apply fresh_not; discriminate. Qed.
  Lemma fresh_play r q q' e : play_seq cf r q = Some (q', e) -> fresh q q'.
  Proof.
    unfold play_seq. pose proof (fresh_init r q) as F. destruct (init_seq r q) as [q0 [[]|]]; cbn [fst] in F;
      destruct (st_value (q_status q)); try (intros [= <- <-]); try (apply fresh_not; discriminate); try exact (fresh_refl q); try exact F;
      destruct (q_run q); try discriminate; intros [= <- <-]; apply fresh_not; discriminate.
  Qed.
  Lemma fresh_pushed now q : fresh q (pushed cf now q).
  Proof. intros H. auto. Qed.
  Lemma fresh_stop e now q q' e' : interrupt e now q = Some (q', e') -> fresh q q'.
  Proof.
    unfold interrupt. destruct (st_value (q_status q)), (q_run q); try discriminate; intros [= <- <-];
      try apply fresh_refl; apply fresh_not; discriminate.
  Qed.
  Lemma fresh_wait f d start ps q q' e : rest cf q -> wait_seq cf f d start ps q = Some (q', e) -> fresh q q'.
  Proof.
    intros Hq. unfold wait_seq. destruct (st_value (q_status q)); try (intros [= <- _]; apply fresh_refl).
    destruct (never_finish cf f d); [intros [= <- _]; apply fresh_refl|].
    unfold wait_timeout. intros H. apply wait_loop_spec in H.
    destruct H as (l & now & p & l' & _ & _ & H).
    assert (Ha : forall l q, rest cf q -> rest cf (after (fun l q => fold_left (fun q p => advance cf p q) l q) l q) /\
      fresh q (after (fun l q => fold_left (fun q p => advance cf p q) l q) l q)).
    { unfold after. clear. induction l as [|x l IH]; cbn; intros q H; [split; [exact H|apply fresh_refl]|].
      destruct (IH _ (advances_rest cf (snd x) q H)) as [I1 I2]. split; [exact I1|].
      eapply fresh_trans; [apply fresh_advances; exact H|exact I2]. }
    destruct (Ha l q Hq) as [A1 A2].
    destruct H as [(_ & H)|(_ & _ & H)]; injection H as -> _; (eapply fresh_trans; [exact A2|]; apply fresh_advances; exact A1).
  Qed.
  Lemma fresh_call c a q q' e : rest cf q -> call_seq cf c a q = Some (q', e) -> fresh q q'.
  Proof.
    intros Hq. unfold call_seq. destruct c; try (destruct (q_locked q) eqn:U; [discriminate|]).
    - intros [= H]. pose proof (fresh_init (a_init a) q) as F. rewrite H in F. exact F.
    - apply fresh_play.
    - unfold pause_seq. destruct (st_value (q_status q)); try (intros [= <- _]; apply fresh_refl).
      destruct (q_run q); try discriminate. intros [= <- _]. apply fresh_not. discriminate.
    - apply fresh_stop.
    - apply fresh_wait; exact Hq.
    - destruct (a_push a); [intros [= <- _]; apply fresh_refl|]. rewrite push_eq by apply (c_pos _ _ (proj1 (proj1 Hq))).
      destruct (starts cf q); intros [= <- _]; [apply fresh_not; discriminate|apply fresh_pushed].
    - unfold batch_seq. destruct (interrupt_sound cf None (a_end a) q Hq U) as (q1 & e1 & E1 & S1). rewrite E1.
      pose proof (settle_rest cf (a_end a) q1 S1) as R1.
      assert (U1 : q_locked (settle cf (a_end a) q1) = false) by (rewrite settle_lock, (interrupt_lock _ _ _ _ _ E1); exact U).
      destruct (play_sound cf (a_init a) _ R1 U1) as (q2 & e2 & E2 & S2). rewrite E2.
      assert (F2 : fresh q q2).
      { eapply fresh_trans; [exact (fresh_stop _ _ _ _ _ E1)|]. eapply fresh_trans; [apply fresh_settle|exact (fresh_play _ _ _ _ E2)]. }
      destruct e2; [intros [= <- _]; exact F2|].
      pose proof (settle_rest cf (a_end a) q2 S2) as R2.
      pose proof (advances_rest cf (a_mid a) _ R2) as R2'.
      pose proof (fresh_advances (a_mid a) _ R2) as F2'.
      set (q2' := fold_left _ (a_mid a) _) in *.
      destruct (wait_seq cf None 0 (a_now a) (a_polls a) q2') as [[q3 e3]|] eqn:E3; [|discriminate].
      assert (F3 : fresh q q3).
      { eapply fresh_trans; [exact F2|]. eapply fresh_trans; [apply (fresh_settle (a_end a))|].
        eapply fresh_trans; [exact F2'|]. exact (fresh_wait _ _ _ _ _ _ _ R2' E3). }
      destruct e3; [intros [= <- _]; exact F3|].
      destruct (interrupt None (a_end a) q3) as [[q4 e4]|] eqn:E4; [|discriminate]. intros [= <- _].
      eapply fresh_trans; [exact F3|exact (fresh_stop _ _ _ _ _ E4)].
    - intros [= <- _]. apply fresh_refl.
    - intros [= <- _]. apply fresh_refl.
  Qed.
  Lemma created_fresh (q : seq_st) : seq_reachable cf q -> st_value (q_status q) = Created -> iterations_saved (q_log q) = 0%Z.
  Proof.
    intros (xs & E).
    assert (G : forall xs (q0 : seq_st), rest cf q0 -> acts cf xs q0 = Some q -> fresh q0 q).
    { clear. induction xs as [|x xs IH]; cbn; intros q0 H E; [injection E as <-; apply fresh_refl|].
      destruct (act cf x q0) as [q1|] eqn:E1; [|discriminate].
      eapply fresh_trans; [|exact (IH q1 (act_rest cf x q0 q1 H E1) E)].
      destruct x as [c a|p]; cbn [act] in E1.
      - destruct (call_seq cf c a q0) as [[q2 e]|] eqn:E2; [|discriminate]. injection E1 as <-.
        eapply fresh_trans; [exact (fresh_call _ _ _ _ _ H E2)|]. eapply fresh_trans; [|apply fresh_settle]. exact (fresh_refl q2).
      - injection E1 as <-. apply fresh_advance. exact H. }
    intros S. destruct (G xs seq0 (seq0_rest cf) E S) as [_ ->]. reflexivity.
  Qed.

  Lemma batch_main : forall (q : seq_st) a q' n, only_budget cf -> seq_reachable cf q ->
    n = (if status_eqb (st_value (q_status q)) Created then pushes (q_log q) else 0%Z) ->
    (n <= 2 ^ 53)%Z -> (budget cf n <= 2 ^ 53)%Z ->
    call_seq cf DBatch a q = Some (q', None) ->
    (q_status q' = new_status Finished /\ iterations_saved (q_log q') = budget cf n) \/
    (st_value (q_status q') = Finished /\ st_error (q_status q') <> None /\ (iterations_saved (q_log q') <= budget cf n)%Z).
  Proof.
    intros q a q' n HB H En Hn Hb E. pose proof (reach_rest cf q H) as Hq. unfold call_seq in E.
    destruct (q_locked q) eqn:U; [discriminate|]. unfold batch_seq in E.
    destruct (interrupt_sound cf None (a_end a) q Hq U) as (q1 & e1 & E1 & S1). rewrite E1 in E.
    destruct (stop_status _ _ _ _ Hq E1) as (C1 & C2 & C3 & C4 & C5).
    pose proof (settle_rest cf (a_end a) q1 S1) as R1.
    assert (U1 : q_locked (settle cf (a_end a) q1) = false) by (rewrite settle_lock, (interrupt_lock _ _ _ _ _ E1); exact U).
    assert (St : q_status (settle cf (a_end a) q1) = q_status q1).
    { unfold settle. destruct (q_run q1) eqn:X; try reflexivity.
      destruct (status_eqb (st_value (q_status q)) Created) eqn:Y.
      - apply status_eqb_eq in Y. rewrite (C3 Y) in X. destruct Hq as [_ Hq]. contradiction.
      - assert (Z1 : st_value (q_status q1) = Finished).
        { apply C5. intros Z1. rewrite Z1 in Y. discriminate. }
        rewrite Z1. cbn [status_eqb andb]. unfold end_run. rewrite Z1. reflexivity. }
    set (q1' := settle cf (a_end a) q1) in *.
    destruct (settle_counts (a_end a) q1) as (D1 & D2 & _). fold q1' in D1, D2.
    (* the run starts after n pushes and no iteration *)
    assert (Hinit : forall q2, init_seq (a_init a) q1' = (q2, None) -> core false q2 /\ q_locked q2 = false /\
      st_value (q_status q2) = Ready /\ pushes (q_log q2) = n /\ iterations_saved (q_log q2) = 0%Z).
    { intros q2 Eq. pose proof (init_sound cf (a_init a) q1' R1 U1) as Si.
      assert (Hc : st_value (q_status q1') = Created \/ st_value (q_status q1') = Finished).
      { rewrite St. destruct (status_eqb (st_value (q_status q)) Created) eqn:Y.
        - apply status_eqb_eq in Y. left. rewrite (C3 Y). exact Y.
        - right. apply C5. intros Z1. rewrite Z1 in Y. discriminate. }
      destruct (init_result (a_init a) q1' Hc) as (I1 & I2 & _). rewrite Eq in Si, I1, I2. cbn [fst snd] in *.
      split; [apply Si|]. split; [congruence|]. destruct (snd (a_init a)) as [m|] eqn:Em; [destruct I1; discriminate|].
      destruct I1 as [_ I1]. split; [rewrite I1; reflexivity|].
      unfold init_seq, init_common_seq in Eq. rewrite Em, St in Eq.
      destruct (status_eqb (st_value (q_status q)) Created) eqn:Y.
      - apply status_eqb_eq in Y. pose proof (created_fresh q H Y) as Y0. rewrite (C3 Y), Y in Eq. injection Eq as <-.
        cbn [q_set q_upd q_log]. rewrite !(proj1 (counts_status _ _ _)), !(proj2 (counts_status _ _ _)).
        rewrite D1, D2, C1, C2. auto.
      - rewrite C5 in Eq by (intros Z1; rewrite Z1 in Y; discriminate). injection Eq as <-.
        cbn [q_set q_upd q_event q_log]. rewrite !(proj1 (counts_status _ _ _)), !(proj2 (counts_status _ _ _)).
        rewrite En. split; reflexivity. }
    destruct (play_sound cf (a_init a) q1' R1 U1) as (q2 & e2 & E2 & S2). rewrite E2 in E.
    destruct e2 as [e2|]; [discriminate|].
    assert (Hplay : exists q0, q2 = start_seq cf q0 /\ core false q0 /\ q_locked q0 = false /\
      st_value (q_status q0) = Ready /\ pushes (q_log q0) = n /\ iterations_saved (q_log q0) = 0%Z).
    { unfold play_seq in E2. rewrite St in E2. destruct (status_eqb (st_value (q_status q)) Created) eqn:Y.
      - apply status_eqb_eq in Y. rewrite (C3 Y), Y in E2.
        destruct (init_seq (a_init a) q1') as [q0 [[]|]] eqn:Ei; try discriminate E2.
        + exfalso. unfold init_seq, init_common_seq in Ei. rewrite St, (C3 Y), Y in Ei. destruct (snd (a_init a)); discriminate.
        + injection E2 as <-. exists q0. split; [reflexivity|]. apply Hinit. reflexivity.
      - assert (Yf : st_value (q_status q1) = Finished) by (apply C5; intros Z1; rewrite Z1 in Y; discriminate).
        rewrite Yf in E2. destruct (init_seq (a_init a) q1') as [q0 [[]|]] eqn:Ei; try discriminate E2.
        + exfalso. unfold init_seq, init_common_seq in Ei. rewrite St, Yf in Ei. destruct (snd (a_init a)); discriminate.
        + injection E2 as <-. exists q0. split; [reflexivity|]. apply Hinit. reflexivity. }
    destruct Hplay as (q0 & -> & K0 & U0 & S0 & P0 & I0).
    assert (B0 : (0 <= budget cf n)%Z).
    { unfold budget. destruct HB as (_ & B1 & B2 & _).
      assert (0 <= n)%Z by (rewrite <- P0; unfold pushes; lia). nia. }
    assert (J : batching n (settle cf (a_end a) (start_seq cf q0))).
    { split; [apply settle_rest; exact S2|].
      destruct (settle_counts (a_end a) (start_seq cf q0)) as (G1 & G2 & _). rewrite G1, G2.
      change (pushes (q_log (start_seq cf q0))) with (pushes (q_log q0)).
      change (iterations_saved (q_log (start_seq cf q0))) with (iterations_saved (q_log q0)).
      split; [exact P0|]. split; [lia|].
      assert (X0 : exact_counts (start_seq cf q0)).
      { split; [change (iterations_saved (q_log q0) <= 2 ^ 53)%Z|change (pushes (q_log q0) <= 2 ^ 53)%Z]; lia. }
      rewrite (settle_running (a_end a) false (start_seq cf q0) (proj1 S2) HB X0 eq_refl eq_refl).
      change (pushes (q_log (start_seq cf q0))) with (pushes (q_log q0)).
      change (iterations_saved (q_log (start_seq cf q0))) with (iterations_saved (q_log q0)). rewrite P0, I0.
      destruct (Z.ltb_spec 0 (budget cf n)); [left; reflexivity|]. right. left. split; [reflexivity|lia]. }
    destruct (batching_advances n HB Hn Hb (a_mid a) _ J) as [J' _].
    set (q2' := fold_left _ (a_mid a) _) in *.
    destruct (wait_seq cf None 0 (a_now a) (a_polls a) q2') as [[q3 [e3|]]|] eqn:E3; try discriminate E.
    destruct (batching_wait n HB Hn Hb _ _ _ _ J' E3) as [J3 D3].
    destruct (interrupt None (a_end a) q3) as [[q4 e4]|] eqn:E4; [|discriminate]. injection E as <-.
    destruct D3 as [D3|(-> & D3 & D4)].
    - left. unfold interrupt in E4. rewrite D3 in E4. injection E4 as <- _. split; [reflexivity|].
      cbn [q_set q_log]. rewrite (proj1 (counts_status _ _ _)).
      destruct J3 as (_ & _ & _ & [X|[[_ X]|[X _]]]); [rewrite D3 in X; discriminate|exact X|rewrite D3 in X; discriminate].
    - right. unfold interrupt in E4. rewrite D3 in E4. injection E4 as <- _. split; [exact D3|]. split; [exact D4|].
      apply J3.
  Qed.
End Main.
