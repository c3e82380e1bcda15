(** Properties of the controller at call granularity. *)
From Coq Require Import List ZArith Bool Lia String.
From Verif Require Import Base.Go Base.Num Model.Status Model.Finish Model.CtrlLang Model.CtrlCode Model.CtrlSeq
  Spec.CtrlSpec Spec.CtrlSeqSpec Proofs.GoLemmas Proofs.ConfProofs Proofs.CtrlCheck Proofs.CtrlSound Proofs.CtrlMain.
Import ListNotations.
Local Open Scope list_scope.

(** Wait. *)
Section WaitProofs.
  Context {S P : Type}.
  Variable obs : S -> fin_model.
  Variable prog : P -> S -> S.

  (** The state at the poll after [ps]. *)
  Definition after (ps : list (Z * P)) (s : S) : S := fold_left (fun s p => prog (snd p) s) ps s.

  Lemma wait_loop_spec f d deadline ps s r : wait_loop obs prog f d deadline ps s = Some r <->
    exists l now p l', ps = l ++ (now, p) :: l' /\
      (forall l1 now1 p1 l2, l = l1 ++ (now1, p1) :: l2 ->
         is_finished f (obs (after l1 s)) = false /\ ~ (0 < d /\ deadline < now1)%Z) /\
      ((is_finished f (obs (after l s)) = true /\
        r = (prog p (after l s), st_error (fm_status (obs (prog p (after l s)))))) \/
       (is_finished f (obs (after l s)) = false /\ (0 < d /\ deadline < now)%Z /\
        r = (prog p (after l s), Some ErrTimeout))).
  Proof.
    revert s. induction ps as [|[now p] ps IH]; intros s; cbn [wait_loop].
    - split; [discriminate|]. intros (l & ? & ? & l' & E & _). destruct l; discriminate.
    - destruct (is_finished f (obs s)) eqn:Ef; [|destruct ((0 <? d)%Z && (deadline <? now)%Z) eqn:Et].
      + split.
        * intros [= <-]. exists [], now, p, ps. split; [reflexivity|]. split; [intros [|]; discriminate|].
          left. auto.
        * intros (l & now' & p' & l' & E & H & D). destruct l as [|x l]; cbn in E.
          -- injection E as <- <- <-. cbn in D. destruct D as [(_ & ->)|(D & _)]; [reflexivity|congruence].
          -- injection E as <- E. destruct (H [] now p l eq_refl) as [D' _]. cbn in D'. congruence.
      + apply andb_true_iff in Et. rewrite !Z.ltb_lt in Et. split.
        * intros [= <-]. exists [], now, p, ps. split; [reflexivity|]. split; [intros [|]; discriminate|].
          right. auto.
        * intros (l & now' & p' & l' & E & H & D). destruct l as [|x l]; cbn in E.
          -- injection E as <- <- <-. cbn in D. destruct D as [(D & _)|(_ & _ & ->)]; [congruence|reflexivity].
          -- injection E as <- E. destruct (H [] now p l eq_refl) as [_ D']. tauto.
      + assert (Et' : ~ (0 < d /\ deadline < now)%Z).
        { intros [H1 H2]. apply Z.ltb_lt in H1, H2. rewrite H1, H2 in Et. discriminate. }
        rewrite IH. split.
        * intros (l & now' & p' & l' & E & H & D). exists ((now, p) :: l), now', p', l'.
          split; [cbn; congruence|]. split; [|exact D].
          intros l1 n1 p1 l2 E1. destruct l1 as [|x l1]; cbn in E1.
          -- injection E1 as <- <- <-. auto.
          -- injection E1 as <- E1. exact (H l1 n1 p1 l2 E1).
        * intros (l & now' & p' & l' & E & H & D). destruct l as [|x l]; cbn in E.
          -- injection E as <- <- <-. cbn in D. destruct D as [(D & _)|(_ & D & _)]; [congruence|contradiction].
          -- injection E as <- E. exists l, now', p', l'. split; [exact E|]. split; [|exact D].
             intros l1 n1 p1 l2 E1. apply (H ((now, p) :: l1) n1 p1 l2). rewrite E1. reflexivity.
  Qed.
End WaitProofs.

Lemma wait_main : forall (S P : Type) (obs : S -> fin_model) (prog : P -> S -> S) f d start ps s s' e,
  wait_timeout obs prog f d start ps s = Some (s', e) <->
  exists l now p l', ps = l ++ (now, p) :: l' /\
    (forall l1 now1 p1 l2, l = l1 ++ (now1, p1) :: l2 ->
       is_finished (wait_finishing f) (obs (fold_left (fun s p => prog (snd p) s) l1 s)) = false /\
       ~ (0 < d /\ start + d < now1)%Z) /\
    let polled := fold_left (fun s p => prog (snd p) s) l s in
    s' = prog p polled /\
    ((is_finished (wait_finishing f) (obs polled) = true /\ e = st_error (fm_status (obs s'))) \/
     (is_finished (wait_finishing f) (obs polled) = false /\ (0 < d /\ start + d < now)%Z /\ e = Some ErrTimeout)).
Proof.
  intros S P obs prog f d start ps s s' e. unfold wait_timeout. rewrite wait_loop_spec.
  split; intros (l & now & p & l' & E & H & D); exists l, now, p, l'; (split; [exact E|]); (split; [exact H|]); unfold after in *.
  - destruct D as [(D & [= -> ->])|(D & D' & [= -> ->])]; cbn; auto 10.
  - cbn in D. destruct D as [-> [(D & ->)|(D & D' & ->)]]; auto.
Qed.

Section SeqProofs.
  Context {C : Type}.
  Variable cf : cconf.
  Notation seq_st := (seq_st C).

  (** The fields of [q] as the shared state of Model/CtrlLang.v. *)
  Definition as_shared (q : seq_st) : shared C :=
    mkShared (q_status q) rw_free rw_free (q_model q) false 0 1 [] None [] (q_log q) false.

  Definition hist (q : seq_st) : Prop :=
    linked workflow (map st_value (new_status Created :: statuses_set (q_log q))) /\
    (exists l, new_status Created :: statuses_set (q_log q) = l ++ [q_status q]) /\
    Forall error_only_finished (statuses_set (q_log q)).

  Record core (b : bool) (q : seq_st) : Prop := mkCore {
    c_hist : hist q;
    c_fig : fig_ok (q_model q);
    c_log : model_log (as_shared q);
    c_new : count_of (q_log q) = (m_new (q_model q), b);
    c_pos : (0 <= m_new (q_model q))%Z
  }.

  Definition run_ok (q : seq_st) : Prop :=
    match q_run q with
    | NoRun => st_value (q_status q) = Created \/ st_value (q_status q) = Ready \/ st_value (q_status q) = Finished
    | AtTest => st_value (q_status q) = Running \/ st_value (q_status q) = Finished
    | AtSelect => st_value (q_status q) = Running
    | AtWait => st_value (q_status q) = Idle
    end.
  Definition lock_ok (q : seq_st) : Prop :=
    q_locked q = true -> q_run q = NoRun /\ st_value (q_status q) = Finished /\ st_error (q_status q) <> None.
  Definition bud_ok (q : seq_st) : Prop :=
    q_run q = AtSelect -> only_budget cf -> exact_counts q ->
    (iterations_saved (q_log q) < budget cf (pushes (q_log q)))%Z.
  Definition sound (b : bool) (q : seq_st) : Prop := core b q /\ run_ok q /\ lock_ok q /\ bud_ok q.
  Definition rest (q : seq_st) : Prop := sound false q /\ q_run q <> AtTest.

  Lemma hist_set q v : hist q -> workflow (st_value (q_status q)) (st_value v) -> error_only_finished v -> hist (q_set q v).
  Proof.
    intros (H1 & (l & H2) & H3) W E. unfold hist. cbn [q_set q_log q_status]. rewrite statuses_cons.
    split; [|split].
    - rewrite app_comm_cons, H2, map_app, map_app, <- app_assoc. cbn [map app].
      apply linked_snoc; [|exact W]. rewrite H2, map_app in H1. exact H1.
    - exists (l ++ [q_status q]). rewrite app_comm_cons, H2. reflexivity.
    - apply Forall_app. split; [exact H3|]. constructor; [exact E|constructor].
  Qed.
  Lemma hist_event q e : match e with EvStatus _ _ => False | _ => True end -> hist q -> hist (q_event q e).
  Proof.
    intros N (H1 & H2 & H3). unfold hist. cbn [q_event q_log q_status]. rewrite statuses_cons.
    destruct e; try contradiction; rewrite app_nil_r; auto.
  Qed.

  Lemma eof_new v : error_only_finished (new_status v).
  Proof. intros H. contradiction H. reflexivity. Qed.
  Lemma eof_fin e : error_only_finished (mkStatus Finished e).
  Proof. intros _. reflexivity. Qed.

  Lemma core_set b q v : core b q -> workflow (st_value (q_status q)) (st_value v) -> error_only_finished v ->
    (b = true -> st_value v <> Running) -> core b (q_set q v).
  Proof.
    intros [H1 H2 H3 H4 H5] W E B. split; cbn [q_set q_model q_log]; auto.
    - apply hist_set; auto.
    - cbn [count_of count_event]. rewrite H4. cbn [fst snd]. destruct b; cbn [andb]; [|reflexivity].
      destruct (status_eqb (st_value v) Running) eqn:Ev; [|reflexivity].
      apply status_eqb_eq in Ev. exfalso. exact (B eq_refl Ev).
  Qed.
  (** The start of an automatic run. *)
  Lemma core_start q : core true q -> m_new (q_model q) = 0%Z -> workflow (st_value (q_status q)) Running ->
    core false (q_set q (new_status Running)).
  Proof.
    intros [H1 H2 H3 H4 H5] N W. split; cbn [q_set q_model q_log]; auto.
    - apply hist_set; auto. apply eof_new.
    - cbn [count_of count_event]. rewrite H4, N. reflexivity.
  Qed.
  Lemma core_return b q e : core b q -> core false (q_event q (EvReturn 0 e)).
  Proof.
    intros [H1 H2 H3 H4 H5]. split; cbn [q_event q_model q_log]; auto.
    - apply hist_event; [exact I|exact H1].
    - cbn [count_of count_event]. rewrite H4. reflexivity.
  Qed.
  Lemma core_duration b q d : core b q -> core b (q_upd q (model_duration (q_model q) d)).
  Proof.
    intros [H1 H2 H3 H4 H5]. split; cbn [q_upd q_model q_log]; auto.
    - apply fig_ok_duration; exact H2.
    - exact (model_log_op cf MDuration locals0 d _ H3).
  Qed.
  Lemma core_centroids b q c : core b q -> core b (q_upd q (model_centroids (q_model q) c)).
  Proof.
    intros [H1 H2 H3 H4 H5]. split; cbn [q_upd q_model q_log]; auto.
  Qed.
  Lemma core_reset b q : core b q -> core b (q_event (q_upd q (model_reset (q_model q))) EvReset).
  Proof.
    intros [H1 H2 H3 H4 H5]. split; cbn [q_upd q_event q_model q_log]; auto.
    - apply hist_event; [exact I|exact H1].
    - apply fig_ok_reset.
    - exact (model_log_op cf MReset locals0 0%Z _ H3).
  Qed.
  Lemma core_save b q c f d : core b q -> core b (q_event (q_upd q (model_save (q_model q) c f d)) (EvSaved c f)).
  Proof.
    intros [H1 H2 H3 H4 H5]. split; cbn [q_upd q_event q_model q_log]; auto.
    - apply hist_event; [exact I|exact H1].
    - apply fig_ok_save.
    - exact (model_log_op cf MSave (set_figs (set_cent locals0 c) f) d _ H3).
  Qed.
  Lemma core_runner b q r : core b q -> core b (q_runner q r).
  Proof. intros [H1 H2 H3 H4 H5]. split; auto. Qed.
  Lemma core_timer b q r : core b q -> core b (q_set_timer q r).
  Proof. intros [H1 H2 H3 H4 H5]. split; auto. Qed.
  Lemma core_lock b q : core b q -> core b (q_lock q).
  Proof. intros [H1 H2 H3 H4 H5]. split; auto. Qed.

  Lemma test_iter b q : core b q -> only_budget cf -> exact_counts q ->
    is_finished (run_finishing cf) (q_fin q) = true <-> (budget cf (pushes (q_log q)) <= iterations_saved (q_log q))%Z.
  Proof.
    intros K (B1 & B2 & B3 & B4) (X1 & X2). unfold run_finishing. rewrite B1. unfold q_fin, budget.
    destruct (c_fig _ _ K) as (F1 & F2 & _). destruct (c_log _ _ K) as (L1 & L2 & _). cbn in L1, L2.
    rewrite L1 in F1. rewrite L2 in F2.
    rewrite (finish_iter (q_status q) (iterations_saved (q_log q)) (pushes (q_log q)) (cf_iter cf) (cf_ipd cf));
      [tauto|..]; try assumption; unfold iterations_saved, pushes in *; lia.
  Qed.

  Lemma end_run_core err now q : core false q ->
    (err = None -> st_value (q_status q) = Running \/ st_value (q_status q) = Finished) ->
    (err <> None -> st_value (q_status q) = Running) ->
    core false (end_run err now q).
  Proof.
    intros K H1 H2. unfold end_run. apply core_runner. destruct err as [e|].
    - apply core_duration. apply core_set; auto.
      + rewrite H2 by discriminate. constructor.
      + apply eof_fin.
      + discriminate.
    - destruct (status_eqb (st_value (q_status q)) Running) eqn:E; apply core_duration; [|exact K].
      apply status_eqb_eq in E. apply core_set; auto; [rewrite E; constructor|apply eof_new|discriminate].
  Qed.
  Lemma end_run_sound err now q : core false q -> q_locked q = false ->
    (err = None -> st_value (q_status q) = Running \/ st_value (q_status q) = Finished) ->
    (err <> None -> st_value (q_status q) = Running) ->
    rest (end_run err now q).
  Proof.
    intros K L H1 H2. split; [|discriminate]. split; [apply end_run_core; auto|]. split; [|split].
    - unfold run_ok, end_run. cbn. destruct err as [e|]; [cbn; auto|].
      destruct (status_eqb (st_value (q_status q)) Running) eqn:E; cbn; auto.
      destruct (H1 eq_refl) as [H|H]; [|auto]. rewrite H in E. discriminate.
    - intros H. unfold end_run in H. cbn in H. destruct err; cbn in H; [congruence|].
      destruct (status_eqb (st_value (q_status q)) Running); cbn in H; congruence.
    - intros H. discriminate.
  Qed.

  Lemma sound_unlocked b q : sound b q -> q_run q <> NoRun -> q_locked q = false.
  Proof.
    intros (_ & _ & L & _) H. destruct (q_locked q) eqn:E; [|reflexivity]. destruct (L E) as [H' _]. contradiction.
  Qed.

  Lemma settle_rest now q : sound false q -> rest (settle cf now q).
  Proof.
    intros S. pose proof S as (K & R & L & B). unfold settle.
    destruct (q_run q) eqn:E; try (split; [exact S|congruence]).
    assert (U : q_locked q = false) by (eapply sound_unlocked; [exact S|congruence]).
    unfold run_ok in R. rewrite E in R.
    destruct (status_eqb (st_value (q_status q)) Running && negb (is_finished (run_finishing cf) (q_fin q))) eqn:T.
    - apply andb_true_iff in T. destruct T as [T1 T2]. apply status_eqb_eq in T1. apply negb_true_iff in T2.
      split; [|discriminate]. split; [apply core_runner; exact K|]. split; [exact T1|]. split.
      + intros H. cbn in H. congruence.
      + intros _ HB HX. change (exact_counts q) in HX. pose proof (test_iter false q K HB HX) as HT.
        cbn [q_runner q_log]. rewrite T2 in HT. destruct (Z.lt_ge_cases (iterations_saved (q_log q)) (budget cf (pushes (q_log q)))); [assumption|].
        destruct HT as [_ HT]. specialize (HT ltac:(lia)). discriminate.
    - apply end_run_sound; auto. intros H. contradiction H. reflexivity.
  Qed.

  Lemma turn_rest r duration now q : rest q -> rest (turn cf r duration now q).
  Proof.
    intros (S & T). pose proof S as (K & R & L & B). unfold turn. destruct (q_run q) eqn:E; try (split; [exact S|congruence]).
    assert (U : q_locked q = false) by (eapply sound_unlocked; [exact S|congruence]).
    unfold run_ok in R. rewrite E in R.
    destruct r as [c f [n|]|n].
    - apply end_run_sound; auto; discriminate.
    - apply settle_rest. split; [|split; [|split]].
      + apply core_runner. destruct c; [apply core_save|]; exact K.
      + left. destruct c; exact R.
      + intros H. destruct c; cbn in H; congruence.
      + intros H. discriminate.
    - apply end_run_sound; auto; discriminate.
  Qed.

  Lemma interrupt_sound e now q : rest q -> q_locked q = false ->
    exists q' e', interrupt e now q = Some (q', e') /\ sound false q'.
  Proof.
    intros (S & T) U. pose proof S as (K & R & L & B). unfold interrupt, run_ok in *.
    destruct (q_run q) eqn:E; [|congruence|..].
    - destruct R as [R|[R|R]]; rewrite R; eexists; eexists; (split; [reflexivity|]); try exact S.
      split; [|split; [|split]].
      + apply core_set; auto; [rewrite R; constructor|apply eof_fin|discriminate].
      + unfold run_ok. cbn. rewrite E. auto.
      + intros H. cbn in H. congruence.
      + intros H. cbn in H. congruence.
    - rewrite R. eexists; eexists; (split; [reflexivity|]).
      refine (proj1 (end_run_sound None now (q_set q (mkStatus Finished e)) _ U _ _)); auto.
      + apply core_set; auto; [rewrite R; constructor|apply eof_fin|discriminate].
      + intros H. contradiction H. reflexivity.
    - rewrite R. eexists; eexists; (split; [reflexivity|]). split; [|split; [|split]].
      + apply core_runner. apply core_set; auto; [rewrite R; constructor|apply eof_fin|discriminate].
      + right. reflexivity.
      + intros H. cbn in H. congruence.
      + intros H. discriminate.
  Qed.

  Lemma advance_rest p q : rest q -> rest (advance cf p q).
  Proof.
    intros Hq. destruct p as [r duration now|now]; cbn [advance]; [apply turn_rest; exact Hq|].
    destruct (q_timer q); [|exact Hq].
    assert (H : rest (q_set_timer q false)).
    { destruct Hq as ((K & R & L & B) & T). split; [|exact T]. split; [apply core_timer; exact K|auto]. }
    cbn [q_set_timer q_locked]. destruct (q_locked q) eqn:U; [exact H|].
    destruct (interrupt_sound (Some ErrTimeout) now _ H U) as (q' & e' & -> & S). apply settle_rest. exact S.
  Qed.
  Lemma advances_rest l q : rest q -> rest (fold_left (fun q p => advance cf p q) l q).
  Proof. revert q. induction l as [|p l IH]; cbn; intros q H; [exact H|]. apply IH. apply advance_rest. exact H. Qed.

  Lemma init_common_sound r q : core false q -> q_locked q = false -> q_run q = NoRun ->
    st_value (q_status q) = Created \/ st_value (q_status q) = Finished ->
    sound false (fst (init_common_seq r q)).
  Proof.
    intros K U E R.
    assert (K1 : core false (q_upd (q_set q (new_status Initializing)) (model_centroids (q_model (q_set q (new_status Initializing))) (fst r)))).
    { apply core_centroids. apply core_set; auto; [constructor; exact R|apply eof_new|discriminate]. }
    unfold init_common_seq. destruct (snd r) as [n|]; cbn [fst]; (split; [|split; [|split]]).
    - apply core_set; auto; [constructor|apply eof_fin|discriminate].
    - unfold run_ok. cbn. rewrite E. auto.
    - intros H. cbn in H. congruence.
    - intros H. cbn in H. congruence.
    - apply core_set; auto; [constructor|apply eof_new|discriminate].
    - unfold run_ok. cbn. rewrite E. auto.
    - intros H. cbn in H. congruence.
    - intros H. cbn in H. congruence.
  Qed.
  Lemma init_sound r q : rest q -> q_locked q = false -> sound false (fst (init_seq r q)).
  Proof.
    intros (S & T) U. pose proof S as (K & R & L & B). unfold init_seq, run_ok in *.
    destruct (st_value (q_status q)) eqn:E; try exact S.
    - assert (q_run q = NoRun) by (destruct (q_run q); [reflexivity|destruct R; discriminate|discriminate|discriminate]).
      apply init_common_sound; auto.
    - assert (q_run q = NoRun) by (destruct (q_run q); [reflexivity|congruence|discriminate|discriminate]).
      apply init_common_sound; auto. apply core_reset. exact K.
  Qed.

  Lemma start_sound q : core false q -> q_locked q = false -> st_value (q_status q) = Ready -> sound false (start_seq cf q).
  Proof.
    intros K U E. split; [|split; [|split]].
    - unfold start_seq. apply core_timer, core_runner, core_set; auto; [rewrite E; constructor|apply eof_new|discriminate].
    - left. reflexivity.
    - intros H. cbn in H. congruence.
    - intros H. discriminate.
  Qed.

  Lemma init_result r (q : seq_st) : st_value (q_status q) = Created \/ st_value (q_status q) = Finished ->
    match snd r with
    | None => snd (init_seq r q) = None /\ q_status (fst (init_seq r q)) = new_status Ready
    | Some n => snd (init_seq r q) = Some (ErrImpl n) /\ q_status (fst (init_seq r q)) = new_status_error (ErrImpl n)
    end /\ q_locked (fst (init_seq r q)) = q_locked q /\ q_run (fst (init_seq r q)) = q_run q /\
    m_centroids (q_model (fst (init_seq r q))) = fst r.
  Proof. unfold init_seq, init_common_seq. intros [->| ->]; destruct (snd r); auto 10. Qed.

  Lemma play_sound r q : rest q -> q_locked q = false ->
    exists q' e, play_seq cf r q = Some (q', e) /\ sound false q'.
  Proof.
    intros Hq U. pose proof Hq as (S & T). pose proof S as (K & R & L & B).
    pose proof (init_result r q) as Hi. pose proof (init_sound r q Hq U) as Si.
    unfold play_seq. unfold run_ok in R.
    assert (Hinit : st_value (q_status q) = Created \/ st_value (q_status q) = Finished ->
      exists q' e, (let (q0, err) := init_seq r q in
        match err with None | Some ErrAlreadyCreated => Some (start_seq cf q0, None) | Some e => Some (q_lock q0, Some e) end) = Some (q', e)
        /\ sound false q').
    { intros H. destruct (Hi H) as (H1 & H2 & H3 & _). clear Hi.
      assert (NR : q_run q = NoRun).
      { destruct (q_run q); [reflexivity|congruence|destruct H; congruence|destruct H; congruence]. }
      destruct (init_seq r q) as [q0 err]. cbn [fst snd] in *.
      destruct (snd r) as [n|]; destruct H1 as [-> H1].
      - eexists; eexists; split; [reflexivity|]. destruct Si as (K0 & R0 & L0 & B0).
        split; [apply core_lock; exact K0|]. split; [exact R0|]. split; [|intros X; cbn in X; congruence].
        intros _. cbn. rewrite H1, H3. cbn. split; [exact NR|]. split; [reflexivity|discriminate].
      - eexists; eexists; split; [reflexivity|]. apply start_sound; [apply Si|congruence|rewrite H1; reflexivity]. }
    destruct (st_value (q_status q)) eqn:E; auto.
    - exfalso. destruct (q_run q); [destruct R as [R|[R|R]]|destruct R as [R|R]|..]; discriminate.
    - eexists; eexists; split; [reflexivity|]. apply start_sound; auto.
    - eexists; eexists; split; [reflexivity|]. exact S.
    - assert (Ew : q_run q = AtWait) by (destruct (q_run q); [destruct R as [R|[R|R]]|destruct R as [R|R]|..]; try discriminate; reflexivity).
      rewrite Ew. eexists; eexists; split; [reflexivity|]. split; [|split; [|split]].
      + apply core_runner, core_set; auto; [rewrite E; constructor|apply eof_new|discriminate].
      + left. reflexivity.
      + intros H. cbn in H. congruence.
      + intros H. discriminate.
  Qed.

  Lemma pause_sound q : rest q -> q_locked q = false -> exists q' e, pause_seq q = Some (q', e) /\ sound false q'.
  Proof.
    intros (S & T) U. pose proof S as (K & R & L & B). unfold pause_seq. unfold run_ok in R.
    destruct (st_value (q_status q)) eqn:E; try (eexists; eexists; split; [reflexivity|exact S]).
    assert (Ew : q_run q = AtSelect).
    { destruct (q_run q); [destruct R as [R|[R|R]]; discriminate|congruence|reflexivity|discriminate]. }
    rewrite Ew. eexists; eexists; split; [reflexivity|]. split; [|split; [|split]].
    - apply core_runner, core_set; auto; [rewrite E; constructor|apply eof_new|discriminate].
    - reflexivity.
    - intros H. cbn in H. congruence.
    - intros H. discriminate.
  Qed.

  (** A successful push, before the automatic start. *)
  Definition pushed (now : Z) (q : seq_st) : seq_st :=
    let q := q_event (q_upd q (model_pushed (q_model q) now)) EvPushed in
    q_upd q (model_figures (model_new_data cf (q_model q) (st_value (q_status q)))).
  (** The push starts a run. *)
  Definition starts (q : seq_st) : bool :=
    status_eqb (st_value (q_status q)) Ready && (0 <? cf_dpi cf)%Z && (cf_dpi cf <=? m_new (q_model q))%Z.

  Lemma pushed_new now q : m_new (q_model (pushed now q)) = if starts q then 0%Z else (m_new (q_model q) + 1)%Z.
  Proof. reflexivity. Qed.
  Lemma push_eq now r q : (0 <= m_new (q_model q))%Z -> push_seq cf None r now q =
    if starts q then Some (start_seq cf (pushed now q), None) else Some (pushed now q, None).
  Proof.
    intros H. unfold push_seq. fold (pushed now q). rewrite pushed_new. destruct (starts q) eqn:E.
    - cbn [Z.eqb]. unfold play_seq. unfold starts in E. apply andb_true_iff in E. destruct E as [E _].
      apply andb_true_iff in E. destruct E as [E _]. apply status_eqb_eq in E.
      change (q_status (pushed now q)) with (q_status q). rewrite E. reflexivity.
    - destruct (Z.eqb_spec (m_new (q_model q) + 1) 0); [lia|reflexivity].
  Qed.

  Lemma pushed_parts now q : core false q ->
    hist (pushed now q) /\ fig_ok (q_model (pushed now q)) /\ model_log (as_shared (pushed now q)) /\
    count_of (q_log (pushed now q)) = ((m_new (q_model q) + 1)%Z, true).
  Proof.
    intros [H1 H2 H3 H4 H5]. split; [|split; [|split]].
    - exact (hist_event q EvPushed I H1).
    - apply fig_ok_figures.
    - pose proof (model_log_op cf MPushed locals0 now _ H3) as M1.
      pose proof (model_log_op cf MNewData (set_val locals0 (q_status q)) 0%Z _ M1) as M2.
      exact (model_log_op cf MFigures locals0 0%Z _ M2).
    - cbn [pushed q_upd q_event q_log count_of count_event]. rewrite H4. reflexivity.
  Qed.

  Lemma pushes_cons (log : list (event C)) : pushes (EvPushed :: log) = (pushes log + 1)%Z.
  Proof. unfold pushes. cbn. lia. Qed.

  Lemma push_sound err r now q : rest q -> q_locked q = false ->
    exists q' e b, push_seq cf err r now q = Some (q', e) /\ sound b q'.
  Proof.
    intros (S & T) U. pose proof S as (K & R & L & B). destruct err as [n|].
    { cbn. eexists; eexists; eexists; split; [reflexivity|]. exact S. }
    rewrite push_eq by apply (c_pos _ _ K). destruct (pushed_parts now q K) as (P1 & P2 & P3 & P4).
    pose proof (pushed_new now q) as Pn. pose proof (c_pos _ _ K) as Pp.
    destruct (starts q) eqn:E; eexists; eexists.
    - exists false. split; [reflexivity|]. unfold starts in E. apply andb_true_iff in E. destruct E as [E _].
      apply andb_true_iff in E. destruct E as [E _]. apply status_eqb_eq in E.
      split; [|split; [|split]].
      + unfold start_seq. apply core_timer, core_runner.
        split; cbn [q_set q_model q_log].
        * apply hist_set; [exact P1| |apply eof_new]. change (q_status (pushed now q)) with (q_status q). rewrite E. constructor.
        * exact P2.
        * exact P3.
        * cbn [count_of count_event]. rewrite P4, Pn. reflexivity.
        * rewrite Pn. lia.
      + left. reflexivity.
      + intros H. cbn in H. congruence.
      + intros H. discriminate.
    - exists true. split; [reflexivity|]. split; [|split; [|split]].
      + split; auto; rewrite Pn; [exact P4|lia].
      + exact R.
      + intros H. cbn in H. congruence.
      + intros HA HB HX. cbn [pushed q_upd q_event q_log] in *. rewrite pushes_cons.
        assert (X0 : exact_counts q).
        { destruct HX as [X1 X2]. cbn [pushed q_upd q_event q_log] in X2. rewrite pushes_cons in X2. split; [exact X1|]. lia. }
        pose proof (B HA HB X0) as Hb. change (iterations_saved (EvPushed :: q_log q)) with (iterations_saved (q_log q)).
        unfold budget in *. destruct HB as (_ & _ & B3 & _). nia.
  Qed.

  Lemma wait_sound f d start ps q q' e : rest q -> wait_seq cf f d start ps q = Some (q', e) -> rest q'.
  Proof.
    intros Hq. unfold wait_seq. destruct (st_value (q_status q)); try (intros [= <- _]; exact Hq).
    destruct (never_finish cf f d); [intros [= <- _]; exact Hq|].
    unfold wait_timeout. intros H. apply wait_loop_spec in H.
    destruct H as (l & now & p & l' & _ & _ & H).
    assert (Ha : forall l q, rest q -> rest (after (fun l q => fold_left (fun q p => advance cf p q) l q) l q)).
    { unfold after. clear. induction l as [|x l IH]; cbn; intros q H; [exact H|]. apply IH. apply advances_rest. exact H. }
    destruct H as [(_ & H)|(_ & _ & H)]; injection H as -> _; apply advances_rest; apply Ha; exact Hq.
  Qed.

  Lemma rest_lock r q q' e : rest q -> q_locked q = false -> play_seq cf r q = Some (q', e) ->
    match e with Some (ErrImpl _) => True | _ => q_locked q' = false end.
  Proof.
    intros (S & T) U. pose proof S as (K & R & _). unfold play_seq.
    pose proof (init_result r q) as Hi.
    assert (Hinit : st_value (q_status q) = Created \/ st_value (q_status q) = Finished ->
      (let (q0, err) := init_seq r q in
        match err with None | Some ErrAlreadyCreated => Some (start_seq cf q0, None) | Some e => Some (q_lock q0, Some e) end) = Some (q', e) ->
      match e with Some (ErrImpl _) => True | _ => q_locked q' = false end).
    { intros H. destruct (Hi H) as (H1 & H2 & H3 & _). clear Hi. destruct (init_seq r q) as [q0 err]. cbn [fst snd] in *.
      destruct (snd r) as [n|]; destruct H1 as [-> H1]; intros [= <- <-]; [exact I|]. cbn. congruence. }
    destruct (st_value (q_status q)) eqn:E.
    - apply Hinit. auto.
    - exfalso. unfold run_ok in R. rewrite E in R. destruct (q_run q); [destruct R as [R|[R|R]]|destruct R as [R|R]|..]; discriminate.
    - intros [= <- <-]. exact U.
    - intros [= <- <-]. exact U.
    - destruct (q_run q); try discriminate. intros [= <- <-]. exact U.
    - apply Hinit. auto.
  Qed.

  Lemma turn_lock r duration now (q : seq_st) : q_locked (turn cf r duration now q) = q_locked q.
  Proof.
    unfold turn, settle, end_run. destruct (q_run q); try reflexivity.
    destruct r as [[c|] f [n|]|n]; cbn; try reflexivity;
      repeat match goal with |- context[if ?b then _ else _] => destruct b; try reflexivity end.
  Qed.
  Lemma settle_lock now (q : seq_st) : q_locked (settle cf now q) = q_locked q.
  Proof.
    unfold settle, end_run. destruct (q_run q); try reflexivity; cbn;
      repeat match goal with |- context[if ?b then _ else _] => destruct b; try reflexivity end.
  Qed.
  Lemma end_lock err now (q : seq_st) : q_locked (end_run err now q) = q_locked q.
  Proof.
    unfold end_run. destruct err; cbn; try reflexivity; destruct (status_eqb (st_value (q_status q)) Running); reflexivity.
  Qed.
  Lemma interrupt_lock e now (q : seq_st) q' e' : interrupt e now q = Some (q', e') -> q_locked q' = q_locked q.
  Proof.
    unfold interrupt. destruct (st_value (q_status q)), (q_run q); try discriminate; intros [= <- <-];
      try reflexivity; apply end_lock.
  Qed.
  Lemma advance_lock p (q : seq_st) : q_locked (advance cf p q) = q_locked q.
  Proof.
    destruct p as [r duration now|now]; cbn [advance]; [apply turn_lock|].
    destruct (q_timer q); [|reflexivity]. cbn [q_set_timer q_locked]. destruct (q_locked q) eqn:U; [exact U|].
    destruct (interrupt (Some ErrTimeout) now (q_set_timer q false)) as [[q' e']|] eqn:E; [|exact U].
    rewrite settle_lock. rewrite (interrupt_lock _ _ _ _ _ E). exact U.
  Qed.
  Lemma advances_lock l (q : seq_st) : q_locked (fold_left (fun q p => advance cf p q) l q) = q_locked q.
  Proof. revert q. induction l as [|p l IH]; cbn; intros q; [reflexivity|]. rewrite IH. apply advance_lock. Qed.
  Lemma wait_lock f d start ps (q : seq_st) q' e : wait_seq cf f d start ps q = Some (q', e) -> q_locked q' = q_locked q.
  Proof.
    unfold wait_seq. destruct (st_value (q_status q)); try (intros [= <- _]; reflexivity).
    destruct (never_finish cf f d); [intros [= <- _]; reflexivity|].
    unfold wait_timeout. intros H. apply wait_loop_spec in H.
    destruct H as (l & now & p & l' & _ & _ & H).
    assert (Ha : forall l (q : seq_st), q_locked (after (fun l q => fold_left (fun q p => advance cf p q) l q) l q) = q_locked q).
    { unfold after. clear. induction l as [|x l IH]; cbn; intros q; [reflexivity|]. rewrite IH. apply advances_lock. }
    destruct H as [(_ & H)|(_ & _ & H)]; injection H as -> _; rewrite advances_lock; apply Ha.
  Qed.

  Lemma batch_sound r start now mid ps q q' e : rest q -> q_locked q = false ->
    batch_seq cf r start now mid ps q = Some (q', e) -> sound false q'.
  Proof.
    intros Hq U. unfold batch_seq.
    destruct (interrupt_sound None now q Hq U) as (q1 & e1 & E1 & S1). rewrite E1.
    pose proof (settle_rest now q1 S1) as R1.
    assert (U1 : q_locked (settle cf now q1) = false) by (rewrite settle_lock, (interrupt_lock _ _ _ _ _ E1); exact U).
    destruct (play_sound r _ R1 U1) as (q2 & e2 & E2 & S2). rewrite E2.
    pose proof (rest_lock r _ _ _ R1 U1 E2) as U2.
    destruct e2 as [e2|]; [intros [= <- _]; exact S2|].
    pose proof (advances_rest mid _ (settle_rest now q2 S2)) as R2.
    destruct (wait_seq cf None 0 start ps (fold_left (fun q p => advance cf p q) mid (settle cf now q2))) as [[q3 e3]|] eqn:E3; [|discriminate].
    pose proof (wait_sound _ _ _ _ _ _ _ R2 E3) as R3.
    destruct e3 as [e3|]; [intros [= <- _]; apply R3|].
    assert (U3 : q_locked q3 = false) by (rewrite (wait_lock _ _ _ _ _ _ _ E3), advances_lock, settle_lock; exact U2).
    destruct (interrupt_sound None now q3 R3 U3) as (q4 & e4 & E4 & S4). rewrite E4. intros [= <- _]. exact S4.
  Qed.

  Lemma call_sound c a q q' e : rest q -> call_seq cf c a q = Some (q', e) -> exists b, sound b q'.
  Proof.
    intros Hq. unfold call_seq. destruct c;
      try (destruct (q_locked q) eqn:U; [discriminate|]).
    - intros [= H]. exists false. pose proof (init_sound (a_init a) q Hq U) as S. rewrite H in S. exact S.
    - destruct (play_sound (a_init a) q Hq U) as (q1 & e1 & -> & S). intros [= <- _]. eauto.
    - destruct (pause_sound q Hq U) as (q1 & e1 & -> & S). intros [= <- _]. eauto.
    - destruct (interrupt_sound None (a_end a) q Hq U) as (q1 & e1 & -> & S). intros [= <- _]. eauto.
    - intros H. apply wait_sound in H; [|exact Hq]. exists false. apply H.
    - destruct (push_sound (a_push a) (a_init a) (a_now a) q Hq U) as (q1 & e1 & b & -> & S). intros [= <- _]. eauto.
    - intros H. apply batch_sound in H; eauto.
    - intros [= <- _]. exists false. apply Hq.
    - intros [= <- _]. exists false. apply Hq.
  Qed.

  Lemma act_rest x q q' : rest q -> act cf x q = Some q' -> rest q'.
  Proof.
    intros Hq. destruct x as [c a|p]; cbn [act]; [|intros [= <-]; apply advance_rest; exact Hq].
    destruct (call_seq cf c a q) as [[q1 e]|] eqn:E; [|discriminate]. intros [= <-].
    destruct (call_sound c a q q1 e Hq E) as (b & K & R & L & B). apply settle_rest.
    split; [eapply core_return; exact K|]. split; [exact R|]. split; [exact L|exact B].
  Qed.

  Lemma seq0_rest : rest (@seq0 C).
  Proof.
    split; [|discriminate]. split; [|split; [|split]].
    - split; [|repeat split; reflexivity|repeat split; reflexivity|reflexivity|cbn; lia].
      + split; [|split].
        * intros l1 a b l2 H. cbn in H. destruct l1 as [|? [|? ?]]; discriminate.
        * exists []. reflexivity.
        * constructor.
    - left. reflexivity.
    - discriminate.
    - discriminate.
  Qed.
  Lemma acts_rest xs q q' : rest q -> acts cf xs q = Some q' -> rest q'.
  Proof.
    revert q. induction xs as [|x xs IH]; cbn; intros q H E; [congruence|].
    destruct (act cf x q) as [q1|] eqn:E1; [|discriminate]. eapply IH; [|exact E]. eapply act_rest; eauto.
  Qed.
  Lemma reach_rest q : seq_reachable cf q -> rest q.
  Proof. intros (xs & E). eapply acts_rest; [apply seq0_rest|exact E]. Qed.
End SeqProofs.
