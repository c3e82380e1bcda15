(** Executions of the acting goroutine, the notification loop and the run goroutine among others. *)
From Coq Require Import List ZArith Bool Lia.
From Verif Require Import Base.Go Base.Num Model.Status Model.Finish Model.CtrlLang Model.CtrlCode Proofs.GoLemmas Proofs.SimLang.
Import ListNotations.
Local Open Scope list_scope.

Ltac lrun := repeat (progress (cbn
  [local_run local_step fst snd th_code th_loc th_kind th_defer lock_of set_lock rw_holder rw_pending rw_readers rw_free
   sh_status sh_lock_s sh_lock_m sh_model sh_notif sh_ack sh_nack sh_closed sh_timeout sh_timers sh_log sh_crashed
   set_status_ set_model set_notif make_ack close_ack set_timers add_log app
   eval_st eval_err eval_cond eval_get mop_log mop_model channel_of
   set_recv set_note set_val set_got set_ok set_go set_zero set_err set_panic set_cent set_figs set_timer set_deadline
   l_recv l_note l_val l_got l_ok l_go l_zero l_err l_panic l_cent l_figs l_timer l_deadline
   set_status send_ack receive_status send_status status_code model_code andb negb
   st_value st_error status_eqb new_status new_status_error closed option_map o_init o_iter o_push o_time]; rewrite ?Nat.eqb_refl)).

Section World.
  Context {C : Type}.
  Variable cf : cconf.
  Notation thread := (thread C).
  Notation shared := (shared C).
  Notation state := (state C).
  Notation oracle := (oracle C).
  Notation go := (go cf).

  (** A step that reads no oracle but the clock. *)
  Definition at_time (now : Z) : oracle := mkOracle (None, None) (IterRes None None None) None now.
  Notation o0 := (at_time 0).

  (** The notification loop, waiting. *)
  Definition ncode : list instr := IReceiving ChNotif :: model_code ++ [ILoop CLoop (IRecv FldNotif :: model_code)].
  Definition nrest (ln : locals C) : thread := mkThread KNotifier ncode ln None.

  Lemma notify_go ths t n s kd e k l d ln rd : t <> n -> nth_error ths t = Some (mkThread kd (ISend FldNotif e :: k) l d) ->
    nth_error ths n = Some (nrest ln) -> sh_crashed s = false -> sh_notif s = true -> sh_lock_m s = mkRw HFree None rd ->
    exists ln', go (mkState s ths) (mkState (add_log s (EvNotified t (eval_st e l))) (upd (upd ths t (mkThread kd k l d)) n (nrest ln'))).
  Proof.
    intros Hn Ht Hnr Hc Hno Hm. set (v := eval_st e l). exists (set_note ln v).
    eapply go_trans; [apply (local_go cf t [o0] (mkThread kd (ISend FldNotif e :: k) l d) s (mkThread kd (ISending ChNotif v :: k) l d) s ths)|].
    - destruct s. cbn in *. subst. reflexivity.
    - exact Ht.
    - eapply go_trans; [eapply (comm_go cf t n)|].
      + exact Hn.
      + exact Hc.
      + apply get_upd. exact (lt_of _ _ _ Ht).
      + rewrite get_upd_other by exact Hn. exact Hnr.
      + unfold comm_at. cbn [th_code]. split; [reflexivity|]. split; reflexivity.
      + cbn [deliver_log deliver th_kind th_loc th_defer nrest]. rewrite upd_upd.
        set (s' := add_log s (EvNotified t v)).
        rewrite <- (upd_upd (upd ths t (mkThread kd k l d)) n (mkThread KNotifier (model_code ++ [ILoop CLoop (IRecv FldNotif :: model_code)]) (set_note ln v) None) (nrest (set_note ln v))).
        eapply (local_go cf n [o0; o0; o0; o0]).
        2: { apply get_upd. rewrite upd_length. exact (lt_of _ _ _ Hnr). }
        subst s'. destruct s. cbn in *. subst. lrun. reflexivity.
  Qed.

  (** Three goroutines among [ths]. *)
  Definition W (ths : list thread) (t n r : nat) (a b c : thread) : list thread := upd (upd (upd ths t a) n b) r c.
  Definition W2 (ths : list thread) (t n : nat) (a b : thread) : list thread := upd (upd ths t a) n b.

  Section Slots.
    Variables (ths : list thread) (t n r : nat).
    Hypotheses (Hl : t < length ths /\ n < length ths /\ r < length ths) (Hd : t <> n /\ t <> r /\ n <> r).
    Notation V := (W ths t n r).
    Lemma Wt a b c x : upd (V a b c) t x = V x b c.
    Proof.
      unfold W. destruct Hd as (H1 & H2 & H3). rewrite (upd_comm _ r t) by congruence. rewrite (upd_comm _ n t) by congruence. rewrite upd_upd. reflexivity.
    Qed.
    Lemma Wn a b c x : upd (V a b c) n x = V a x c.
    Proof. unfold W. destruct Hd as (H1 & H2 & H3). rewrite (upd_comm _ r n) by congruence. rewrite upd_upd. reflexivity. Qed.
    Lemma Wr a b c x : upd (V a b c) r x = V a b x.
    Proof. unfold W. rewrite upd_upd. reflexivity. Qed.
    Lemma Gt a b c : nth_error (V a b c) t = Some a.
    Proof. unfold W. destruct Hd as (H1 & H2 & H3). rewrite !get_upd_other by congruence. apply get_upd. apply Hl. Qed.
    Lemma Gn a b c : nth_error (V a b c) n = Some b.
    Proof. unfold W. destruct Hd as (H1 & H2 & H3). rewrite get_upd_other by congruence. apply get_upd. rewrite upd_length. apply Hl. Qed.
    Lemma Gr a b c : nth_error (V a b c) r = Some c.
    Proof. unfold W. apply get_upd. rewrite !upd_length. apply Hl. Qed.
    Lemma Go a b c i : i <> t -> i <> n -> i <> r -> nth_error (V a b c) i = nth_error ths i.
    Proof. intros. unfold W. rewrite !get_upd_other by congruence. reflexivity. Qed.
    Lemma Wlen a b c : length (V a b c) = length ths.
    Proof. unfold W. rewrite !upd_length. reflexivity. Qed.

    Lemma w_t os a s a' s' b c : local_run cf t os (a, s) = Some (a', s') -> go (mkState s (V a b c)) (mkState s' (V a' b c)).
    Proof. intros H. rewrite <- (Wt a b c a'). apply (local_go cf t os a s a' s'); [exact H|apply Gt]. Qed.
    Lemma w_r os c s c' s' a b : local_run cf r os (c, s) = Some (c', s') -> go (mkState s (V a b c)) (mkState s' (V a b c')).
    Proof. intros H. rewrite <- (Wr a b c c'). apply (local_go cf r os c s c' s'); [exact H|apply Gr]. Qed.
    Lemma w_tr s a b c ch v k kr : sh_crashed s = false -> comm_at t r s a c ch v k kr ->
      go (mkState s (V a b c)) (mkState (deliver_log t ch v s)
        (V (mkThread (th_kind a) k (th_loc a) (th_defer a)) b (mkThread (th_kind c) kr (deliver ch v (th_loc c)) (th_defer c)))).
    Proof.
      intros Hc H. pose proof (comm_go cf t r s (V a b c) a c ch v k kr ltac:(apply Hd) Hc (Gt a b c) (Gr a b c) H) as X.
      rewrite Wt, Wr in X. exact X.
    Qed.
    Lemma w_rt s a b c ch v k kr : sh_crashed s = false -> comm_at r t s c a ch v k kr ->
      go (mkState s (V a b c)) (mkState (deliver_log r ch v s)
        (V (mkThread (th_kind a) kr (deliver ch v (th_loc a)) (th_defer a)) b (mkThread (th_kind c) k (th_loc c) (th_defer c)))).
    Proof.
      intros Hc H. pose proof (comm_go cf r t s (V a b c) c a ch v k kr ltac:(apply not_eq_sym, Hd) Hc (Gr a b c) (Gt a b c) H) as X.
      rewrite Wr, Wt in X. exact X.
    Qed.
    Lemma w_notify_t s kd e k l d ln c rd : sh_crashed s = false -> sh_notif s = true -> sh_lock_m s = mkRw HFree None rd ->
      exists ln', go (mkState s (V (mkThread kd (ISend FldNotif e :: k) l d) (nrest ln) c))
        (mkState (add_log s (EvNotified t (eval_st e l))) (V (mkThread kd k l d) (nrest ln') c)).
    Proof.
      intros Hc Hn Hm. destruct (notify_go (V (mkThread kd (ISend FldNotif e :: k) l d) (nrest ln) c) t n s kd e k l d ln rd) as [ln' H]; auto; [apply Hd|apply Gt|apply Gn|].
      exists ln'. rewrite Wt, Wn in H. exact H.
    Qed.
    Lemma w_notify_r s kd e k l d ln a rd : sh_crashed s = false -> sh_notif s = true -> sh_lock_m s = mkRw HFree None rd ->
      exists ln', go (mkState s (V a (nrest ln) (mkThread kd (ISend FldNotif e :: k) l d)))
        (mkState (add_log s (EvNotified r (eval_st e l))) (V a (nrest ln') (mkThread kd k l d))).
    Proof.
      intros Hc Hn Hm. destruct (notify_go (V a (nrest ln) (mkThread kd (ISend FldNotif e :: k) l d)) r n s kd e k l d ln rd) as [ln' H]; auto; [apply not_eq_sym, Hd|apply Gr|apply Gn|].
      exists ln'. rewrite Wr, Wn in H. exact H.
    Qed.
  End Slots.

  Section Slots2.
    Variables (ths : list thread) (t n : nat).
    Hypotheses (Hl : t < length ths /\ n < length ths) (Hd : t <> n).
    Notation V2 := (W2 ths t n).
    Lemma W2t a b x : upd (V2 a b) t x = V2 x b.
    Proof. unfold W2. rewrite (upd_comm _ n t) by congruence. rewrite upd_upd. reflexivity. Qed.
    Lemma W2n a b x : upd (V2 a b) n x = V2 a x.
    Proof. unfold W2. rewrite upd_upd. reflexivity. Qed.
    Lemma G2t a b : nth_error (V2 a b) t = Some a.
    Proof. unfold W2. rewrite get_upd_other by congruence. apply get_upd. apply Hl. Qed.
    Lemma G2n a b : nth_error (V2 a b) n = Some b.
    Proof. unfold W2. apply get_upd. rewrite upd_length. apply Hl. Qed.
    Lemma G2o a b i : i <> t -> i <> n -> nth_error (V2 a b) i = nth_error ths i.
    Proof. intros. unfold W2. rewrite !get_upd_other by congruence. reflexivity. Qed.
    Lemma W2len a b : length (V2 a b) = length ths.
    Proof. unfold W2. rewrite !upd_length. reflexivity. Qed.
    Lemma w2_t os a s a' s' b : local_run cf t os (a, s) = Some (a', s') -> go (mkState s (V2 a b)) (mkState s' (V2 a' b)).
    Proof. intros H. rewrite <- (W2t a b a'). apply (local_go cf t os a s a' s'); [exact H|apply G2t]. Qed.
    Lemma w2_notify s kd e k l d ln rd : sh_crashed s = false -> sh_notif s = true -> sh_lock_m s = mkRw HFree None rd ->
      exists ln', go (mkState s (V2 (mkThread kd (ISend FldNotif e :: k) l d) (nrest ln)))
        (mkState (add_log s (EvNotified t (eval_st e l))) (V2 (mkThread kd k l d) (nrest ln'))).
    Proof.
      intros Hc Hn Hm. destruct (notify_go (V2 (mkThread kd (ISend FldNotif e :: k) l d) (nrest ln)) t n s kd e k l d ln rd) as [ln' H]; auto; [apply G2t|apply G2n|].
      exists ln'. rewrite W2t, W2n in H. exact H.
    Qed.
  End Slots2.
  Lemma W_id ths t n r a b c : nth_error ths t = Some a -> nth_error ths n = Some b -> nth_error ths r = Some c -> W ths t n r a b c = ths.
  Proof. intros H1 H2 H3. unfold W. rewrite (upd_same ths t a H1), (upd_same ths n b H2), (upd_same ths r c H3). reflexivity. Qed.
  Lemma W2_id ths t n a b : nth_error ths t = Some a -> nth_error ths n = Some b -> W2 ths t n a b = ths.
  Proof. intros H1 H2. unfold W2. rewrite (upd_same ths t a H1), (upd_same ths n b H2). reflexivity. Qed.

  (** No goroutine is parked on a send. *)
  Definition not_sending (th : thread) : Prop := match th_code th with ISending _ _ :: _ => False | _ => True end.
  Definition quiet (ths : list thread) : Prop := forall i th, nth_error ths i = Some th -> not_sending th.
  Lemma quiet_upd ths i th : quiet ths -> not_sending th -> quiet (upd ths i th).
  Proof.
    intros H Hn j x. rewrite nth_error_upd. destruct (Nat.eqb j i && Nat.ltb i (length ths)); [intros [= <-]; exact Hn|apply H].
  Qed.
  Lemma quiet_app ths th : quiet ths -> not_sending th -> quiet (ths ++ [th]).
  Proof.
    intros H Hn j x Hj. destruct (Nat.ltb_spec j (length ths)) as [L|L].
    - rewrite nth_error_app1 in Hj by exact L. exact (H j x Hj).
    - rewrite nth_error_app2 in Hj by exact L. destruct (j - length ths) as [|m]; cbn in Hj; [injection Hj as <-; exact Hn|destruct m; discriminate].
  Qed.
  Lemma quiet_parked c ths : quiet ths -> sender_parked c ths = false.
  Proof.
    intros H. unfold sender_parked. destruct (existsb _ ths) eqn:E; [|reflexivity]. apply existsb_exists in E. destruct E as (x & Hx & Hs).
    apply In_nth_error in Hx. destruct Hx as [i Hi]. specialize (H i x Hi). unfold not_sending, head in *. destruct (th_code x) as [|[] ?]; try discriminate. contradiction.
  Qed.
  Lemma try_go (ths : list thread) i (s : shared) kd k (l : locals C) d : nth_error ths i = Some (mkThread kd (ITryStatus :: k) l d) -> quiet ths -> sh_crashed s = false ->
    go (mkState s ths) (mkState s (upd ths i (mkThread kd k (set_got l false) d))).
  Proof.
    intros Hi Hq Hc. apply (go_move cf (Solo i o0)). unfold do_move, step. cbn [s_sh s_th]. rewrite Hc, Hi. cbn [th_code]. rewrite (quiet_parked _ _ Hq). reflexivity.
  Qed.
  Lemma try_ack_go (ths : list thread) i (s : shared) kd p k (l : locals C) d : nth_error ths i = Some (mkThread kd (ITryAck p :: k) l d) -> quiet ths -> sh_crashed s = false ->
    closed (ChAck (sh_ack s)) s = false ->
    go (mkState s ths) (mkState s (upd ths i (mkThread kd (p ++ k) l d))).
  Proof.
    intros Hi Hq Hc Hcl. apply (go_move cf (Solo i o0)). unfold do_move, step. cbn [s_sh s_th]. rewrite Hc, Hi. cbn [th_code]. rewrite Hcl, (quiet_parked _ _ Hq). reflexivity.
  Qed.
  Lemma spawn_go (ths : list thread) i (s : shared) kd ck p k (l : locals C) d : nth_error ths i = Some (mkThread kd (ISpawn ck p :: k) l d) -> sh_crashed s = false ->
    go (mkState s ths) (mkState s (upd ths i (mkThread kd k l d) ++ [mkThread ck p locals0 None])).
  Proof.
    intros Hi Hc. apply (go_move cf (Solo i o0)). unfold do_move, step. cbn [s_sh s_th]. rewrite Hc, Hi. cbn [th_code]. unfold go_on. cbn [th_kind th_defer].
    f_equal. f_equal. revert i Hi. induction ths as [|x ths IH]; intros [|i] Hi; cbn in *; try discriminate; [reflexivity|]. f_equal. exact (IH i Hi).
  Qed.
  Lemma timer_go (ths : list thread) i (s : shared) kd p k (l : locals C) d : nth_error ths i = Some (mkThread kd (IStartTimer p :: k) l d) -> sh_crashed s = false ->
    go (mkState s ths) (mkState (set_timers s (Some (length (sh_timers s))) (sh_timers s ++ [true]))
      (upd ths i (mkThread kd k l d) ++ [mkThread KTimer p (set_timer locals0 (length (sh_timers s))) None])).
  Proof.
    intros Hi Hc. apply (go_move cf (Solo i o0)). unfold do_move, step. cbn [s_sh s_th]. rewrite Hc, Hi. cbn [th_code]. unfold go_on. cbn [th_kind th_defer].
    f_equal. f_equal. revert i Hi. induction ths as [|x ths IH]; intros [|i] Hi; cbn in *; try discriminate; [reflexivity|]. f_equal. exact (IH i Hi).
  Qed.
End World.
