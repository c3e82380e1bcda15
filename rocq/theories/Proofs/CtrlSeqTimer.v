(** The timer of a run, at call granularity. *)
From Coq Require Import List ZArith Bool Lia.
From Verif Require Import Base.Go Base.Num Model.Status Model.Finish Model.CtrlLang Model.CtrlCode Model.CtrlSeq
  Spec.CtrlSpec Spec.CtrlSeqSpec Proofs.CtrlSeqProofs Proofs.CtrlSeqMain Proofs.CtrlSeqEx.
Import ListNotations.
Local Open Scope list_scope.

Section Timer.
  Context {C : Type} (cf : cconf).
  Notation seq_st := (seq_st C).

  Lemma timer_end err now (q : seq_st) : q_timer (end_run err now q) = q_timer q.
  Proof. destruct err; cbn; [reflexivity|]. destruct (status_eqb _ _); reflexivity. Qed.
  Lemma timer_settle now (q : seq_st) : q_timer (settle cf now q) = q_timer q.
  Proof. unfold settle. destruct (q_run q); try reflexivity. destruct (_ && _); [reflexivity|apply timer_end]. Qed.
  Lemma timer_turn r d now (q : seq_st) : q_timer (turn cf r d now q) = q_timer q.
  Proof.
    unfold turn. destruct (q_run q); try reflexivity. destruct r as [c f [n|]|n]; try apply timer_end.
    rewrite timer_settle. destruct c; reflexivity.
  Qed.
  Lemma timer_interrupt e now (q : seq_st) q' e' : interrupt e now q = Some (q', e') -> q_timer q' = q_timer q.
  Proof.
    unfold interrupt. destruct (st_value (q_status q)), (q_run q); intros H; try discriminate H; injection H as <- _; first [reflexivity|apply timer_end].
  Qed.

  (** Every timer that is enabled was asked for by the configuration. *)
  Definition allowed (q : seq_st) : Prop := q_timer q = true -> cf_timeout cf = true.
  Lemma allowed_eq (q q' : seq_st) : q_timer q' = q_timer q -> allowed q -> allowed q'.
  Proof. unfold allowed. intros ->. auto. Qed.
  Lemma allowed_advance p q : allowed q -> allowed (advance cf p q).
  Proof.
    intros H. destruct p as [r d now|now]; cbn [advance]; [apply (allowed_eq q); [apply timer_turn|exact H]|].
    destruct (q_timer q) eqn:E; [|exact H]. cbn [q_locked q_set_timer]. destruct (q_locked q); [intros X; discriminate X|].
    destruct (interrupt _ _ _) as [[q' e]|] eqn:I; [|intros X; discriminate X].
    unfold allowed. rewrite timer_settle, (timer_interrupt _ _ _ _ _ I). intros X; discriminate X.
  Qed.
  Lemma allowed_advances l q : allowed q -> allowed (fold_left (fun q p => advance cf p q) l q).
  Proof. revert q. induction l as [|p l IH]; intros q H; [exact H|]. apply IH, allowed_advance, H. Qed.
  Lemma timer_init r (q : seq_st) : q_timer (fst (init_seq r q)) = q_timer q.
  Proof. unfold init_seq, init_common_seq. destruct (st_value (q_status q)); try reflexivity; destruct (snd r); reflexivity. Qed.
  Lemma allowed_start q : allowed (start_seq cf q).
  Proof. intros X. exact X. Qed.
  Lemma allowed_play r q q' e : allowed q -> play_seq cf r q = Some (q', e) -> allowed q'.
  Proof.
    intros H. unfold play_seq. pose proof (timer_init r q) as T. destruct (init_seq r q) as [q0 err]. cbn [fst] in T.
    destruct (st_value (q_status q)), (q_run q); intros X; try discriminate X; try (injection X as <- _; first [exact H|apply allowed_start]);
      (destruct err as [[]|]; injection X as <- _; try apply allowed_start; unfold allowed; cbn [q_timer q_lock]; rewrite T; exact H).
  Qed.
  Lemma allowed_wait f d start ps q q' e : allowed q -> wait_seq cf f d start ps q = Some (q', e) -> allowed q'.
  Proof.
    intros H. unfold wait_seq. destruct (st_value (q_status q)); try (intros X; injection X as <- _; exact H).
    destruct (never_finish cf f d); [intros X; injection X as <- _; exact H|].
    intros X. apply wait_main in X. destruct X as (l & now & p & l' & _ & _ & -> & _). apply allowed_advances.
    clear p l' now. revert q H. induction l as [|x l IH]; intros q H; [exact H|]. cbn [fold_left]. apply IH, allowed_advances, H.
  Qed.
  Lemma allowed_call c a q q' e : allowed q -> call_seq cf c a q = Some (q', e) -> allowed q'.
  Proof.
    intros H. unfold call_seq. destruct c; try (intros X; injection X as <- _; exact H); destruct (q_locked q); try discriminate; intros X.
    - injection X as X. apply (f_equal fst) in X. cbn [fst] in X. subst q'. apply (allowed_eq q); [apply timer_init|exact H].
    - exact (allowed_play _ _ _ _ H X).
    - unfold pause_seq in X. destruct (st_value (q_status q)), (q_run q); try discriminate X; injection X as <- _; exact H.
    - apply (allowed_eq q); [apply (timer_interrupt _ _ _ _ _ X)|exact H].
    - exact (allowed_wait _ _ _ _ _ _ _ H X).
    - unfold push_seq in X. destruct (a_push a); [injection X as <- _; exact H|]. destruct (_ =? 0)%Z; [|injection X as <- _; exact H].
      match type of X with match play_seq cf ?r ?q0 with _ => _ end = _ => destruct (play_seq cf r q0) as [[q1 e1]|] eqn:P; [|discriminate X]; assert (H0 : allowed q0) by exact H end.
      injection X as <- _. exact (allowed_play _ _ _ _ H0 P).
    - unfold batch_seq in X. destruct (interrupt _ _ q) as [[q1 e1]|] eqn:I1; [|discriminate X].
      assert (H1 : allowed (settle cf (a_end a) q1)) by (apply (allowed_eq q); [rewrite timer_settle; apply (timer_interrupt _ _ _ _ _ I1)|exact H]).
      destruct (play_seq cf _ _) as [[q2 [e2|]]|] eqn:P; [injection X as <- _; exact (allowed_play _ _ _ _ H1 P)| |discriminate X].
      pose proof (allowed_play _ _ _ _ H1 P) as H2.
      destruct (wait_seq _ _ _ _ _ _) as [[q3 [e3|]]|] eqn:W; [| |discriminate X].
      + injection X as <- _. refine (allowed_wait _ _ _ _ _ _ _ _ W). apply allowed_advances. apply (allowed_eq q2); [apply timer_settle|exact H2].
      + assert (H3 : allowed q3). { refine (allowed_wait _ _ _ _ _ _ _ _ W). apply allowed_advances. apply (allowed_eq q2); [apply timer_settle|exact H2]. }
        destruct (interrupt _ _ q3) as [[q4 e4]|] eqn:I2; [|discriminate X]. injection X as <- _. apply (allowed_eq q3); [apply (timer_interrupt _ _ _ _ _ I2)|exact H3].
    - injection X as <- _. exact H.
  Qed.
  Lemma allowed_acts xs : forall q q', allowed q -> acts cf xs q = Some q' -> allowed q'.
  Proof.
    induction xs as [|x xs IH]; intros q q' H E; cbn [acts] in E; [injection E as <-; exact H|].
    destruct (act cf x q) as [q1|] eqn:A; [|discriminate E]. apply (IH q1 q'); [|exact E].
    destruct x as [c a|p]; cbn [act] in A.
    - destruct (call_seq cf c a q) as [[q2 e]|] eqn:K; [|discriminate A]. injection A as <-. apply (allowed_eq q2); [rewrite timer_settle; reflexivity|exact (allowed_call _ _ _ _ _ H K)].
    - injection A as <-. apply allowed_advance, H.
  Qed.

  Lemma seq_timer : forall (q : seq_st) now, seq_reachable cf q -> q_locked q = false ->
    let q' := advance cf (PTimer now) q in
    (cf_timeout cf = false -> q_timer q = false) /\
    (q_timer q = false -> q' = q) /\
    (q_timer q = true -> q_timer q' = false /\ q_run q' = NoRun /\
       m_centroids (q_model q') = m_centroids (q_model q) /\ iterations_saved (q_log q') = iterations_saved (q_log q) /\
       (st_alive (q_status q) = true -> q_status q' = new_status_error ErrTimeout) /\
       (st_alive (q_status q) = false -> q_status q' = q_status q /\ q_model q' = q_model q /\ q_log q' = q_log q)) /\
    (forall a q1 e, call_seq cf DPlay a q = Some (q1, e) ->
       (e = None -> st_value (q_status q) <> Idle -> q_timer q1 = cf_timeout cf) /\
       (e <> None \/ st_value (q_status q) = Idle -> q_timer q1 = q_timer q)).
  Proof.
    intros q now H U. cbv zeta. pose proof (reach_rest cf q H) as Hq.
    split; [|split; [|split]].
    - intros T. destruct H as [xs H]. assert (A : allowed q) by (refine (allowed_acts xs _ _ _ H); intros X; discriminate X).
      destruct (q_timer q) eqn:E; [|reflexivity]. rewrite (A E) in T. discriminate T.
    - intros T. cbn [advance]. rewrite T. reflexivity.
    - intros T. cbn [advance]. rewrite T. cbn [q_locked q_set_timer]. rewrite U.
      destruct q as [[v err] m r t l lg]. cbn [q_timer q_locked] in T, U. subst t l. unfold st_alive, interrupt, end_run, settle, q_fin.
      destruct (rest_run cf _ Hq) as [[R S]|[[R S]|[R S]]]; cbn [q_run q_status st_value] in R, S; subst r.
      + destruct S as [->|[->| ->]]; cbn; intuition (try discriminate; auto).
      + subst v. cbn. intuition (try discriminate; auto).
      + subst v. cbn. intuition (try discriminate; auto).
    - intros a q1 e. unfold call_seq. rewrite U. intros P. unfold play_seq in P. pose proof (timer_init (a_init a) q) as T.
      destruct (rest_run cf _ Hq) as [[R S]|[[R S]|[R S]]]; rewrite R in P.
      + destruct S as [S|[S|S]]; rewrite S in P |- *.
        2: { injection P as <- <-. split; [intros _ _; reflexivity|]. intros [X|X]; [contradiction X; reflexivity|discriminate X]. }
        all: destruct (init_result (a_init a) q) as (I1 & _); [auto|];
          destruct (init_seq (a_init a) q) as [q0 err]; cbn [fst snd] in T, I1; destruct (snd (a_init a)) as [n|]; destruct I1 as [-> I1];
          injection P as <- <-; (split; [intros X _; try discriminate X; reflexivity|intros [X|X]; [try (contradiction X; reflexivity); exact T|discriminate X]]).
      + rewrite S in P. injection P as <- <-. split; [intros X; discriminate X|intros _; reflexivity].
      + rewrite S in P |- *. injection P as <- <-. split; [intros _ X; contradiction X; reflexivity|intros _; reflexivity].
  Qed.
End Timer.

(** One second of timeout: the timer fires while the run is between two turns. *)
Definition conf_timed : cconf := mkCConf 0 0 0 true None None.
Lemma timed_case : let q := use conf_timed u_running in seq_reachable conf_timed q /\ q_locked q = false /\ q_timer q = true /\
  st_value (q_status q) = Running /\ q_status (advance conf_timed (PTimer 5) q) = new_status_error ErrTimeout /\
  let q1 := use conf_timed (u_running ++ [ok_call DStop]) in q_timer q1 = true /\ q_status q1 = new_status Finished /\
  q_status (advance conf_timed (PTimer 5) q1) = new_status Finished.
Proof. cbv zeta. split; [apply use_reachable; vm_compute; reflexivity|]. vm_compute. repeat split; reflexivity. Qed.
