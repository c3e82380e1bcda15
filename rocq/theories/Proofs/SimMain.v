(** Every behaviour at call granularity is an execution of the code. *)
From Coq Require Import List ZArith Bool Lia.
From Verif Require Import Base.Go Base.Num Model.Status Model.Finish Model.CtrlLang Model.CtrlCode Model.CtrlSeq Spec.CtrlSpec Spec.CtrlSeqSpec Spec.SimSpec
  Proofs.GoLemmas Proofs.SimLang Proofs.SimWorld Proofs.SimRun Proofs.SimSeq Proofs.SimCall Proofs.CtrlSeqProofs.
Import ListNotations.
Local Open Scope list_scope.

Section Main.
  Context {C : Type}.
  Variable cf : cconf.
  Hypothesis Hcf : cf_notifier cf = None.
  Notation thread := (thread C).
  Notation shared := (shared C).
  Notation state := (state C).
  Notation seq_st := (seq_st C).
  Notation go := (go cf).
  Notation o0 := (@at_time C 0).
  Notation F := (rw_free, @nil nat).
  Notation does := (does cf KClient).
  Notation rest := (rest cf).

  Lemma me (q : seq_st) : actor q KClient.
  Proof. left. reflexivity. Qed.
  Lemma rest_status (q : seq_st) : rest q -> q_run q <> NoRun -> st_value (q_status q) <> Created.
  Proof. intros ((_ & R & _) & T) Hn. unfold run_ok in R. destruct (q_run q); try contradiction; try congruence. Qed.
  Lemma sound_status b (q : seq_st) : sound cf b q -> q_run q <> NoRun -> st_value (q_status q) <> Created.
  Proof. intros (_ & R & _) Hn. unfold run_ok in R. destruct (q_run q); try contradiction; try congruence. destruct R as [R|R]; rewrite R; discriminate. Qed.

  (** What happens without the client. *)
  Definition quietly (q q' : seq_st) : Prop := forall s ths, sim (fst (lk q)) (snd (lk q)) q s ths ->
    exists s' ths', go (mkState s ths) (mkState s' ths') /\ sim (fst (lk q')) (snd (lk q')) q' s' ths' /\
      forall i th, nth_error ths i = Some th -> th_kind th = KClient -> nth_error ths' i = Some th.

  Lemma quietly_refl q : quietly q q.
  Proof. intros s ths H. exists s, ths. split; [apply go_refl|auto]. Qed.
  Lemma quietly_trans q1 q2 q3 : quietly q1 q2 -> quietly q2 q3 -> quietly q1 q3.
  Proof.
    intros H1 H2 s ths H. destruct (H1 s ths H) as (s1 & ths1 & G1 & S1 & F1). destruct (H2 s1 ths1 S1) as (s2 & ths2 & G2 & S2 & F2).
    exists s2, ths2. split; [exact (go_trans cf _ _ _ G1 G2)|]. split; [exact S2|]. intros i th Hi Hk. exact (F2 i th (F1 i th Hi Hk) Hk).
  Qed.
  Lemma quietly_does t q q' A : quietly q q' -> does t (lk q) (lk q') [] q q' A A.
  Proof.
    intros H k l d s ths Hk Hs Ht HA. destruct (H s ths Hs) as (s' & ths' & G & S & Fr). exists s', ths', l.
    split; [exact G|]. split; [exact S|]. split; [exact (Fr t _ Ht eq_refl)|]. split; [exact HA|].
    intros i th _ Hi [Hi'|[H' _]]; [exact (Fr i th Hi Hi')|discriminate].
  Qed.
  Lemma frame_quiet (ths ths' : list thread) : frame None ths ths' -> forall i th, nth_error ths i = Some th -> th_kind th = KClient -> nth_error ths' i = Some th.
  Proof. intros H i th Hi Hk. apply (H i th); [discriminate|exact Hi|left; exact Hk]. Qed.

  Lemma quietly_settle b now q : sound cf b q -> quietly q (settle cf now q).
  Proof.
    intros Hq. destruct (q_run q) eqn:Er; try (unfold settle; rewrite Er; apply quietly_refl).
    assert (U : q_locked q = false) by (eapply sound_unlocked; [exact Hq|congruence]).
    assert (Hc : st_value (q_status q) <> Created) by (eapply sound_status; [exact Hq|congruence]).
    intros s ths. unfold lk. rewrite settle_lock, U. cbn [fst snd]. intros H.
    destruct (settle_sim cf now q s ths H Er Hc) as (s' & ths' & G & S & Fr). exists s', ths'. split; [exact G|]. split; [exact S|apply frame_quiet; exact Fr].
  Qed.
  Lemma quietly_turn x d now q : rest q -> quietly q (turn cf x d now q).
  Proof.
    intros Hq. destruct (q_run q) eqn:Er; try (unfold turn; rewrite Er; apply quietly_refl).
    assert (U : q_locked q = false) by (eapply sound_unlocked; [apply Hq|congruence]).
    assert (Hc : st_value (q_status q) <> Created) by (apply rest_status; [exact Hq|congruence]).
    intros s ths. unfold lk. rewrite turn_lock, U. cbn [fst snd]. intros H.
    destruct (turn_sim cf x d now q s ths H Er Hc) as (s' & ths' & G & S & Fr). exists s', ths'. split; [exact G|]. split; [exact S|apply frame_quiet; exact Fr].
  Qed.
  Lemma rest_timer (q : seq_st) b : rest q -> rest (q_set_timer q b).
  Proof. intros ((K & R & L & B) & T). split; [|exact T]. split; [apply core_timer; exact K|auto]. Qed.
  Lemma sim_timer ls rd (q : seq_st) s ths : sim ls rd q s ths -> sim ls rd (q_set_timer q false) s ths.
  Proof. intros [[] Hp]. split; [split; auto|]. apply (thp_env q s); auto. discriminate. Qed.

  Lemma quietly_timer now q : rest q -> quietly q (advance cf (PTimer now) q).
  Proof.
    intros Hq. cbn [advance]. destruct (q_timer q) eqn:Et; [|apply quietly_refl].
    set (q0 := q_set_timer q false). assert (Hq0 : rest q0) by (apply rest_timer; exact Hq).
    assert (T0 : quietly q q0).
    { intros s ths H. exists s, ths. split; [apply go_refl|]. split; [apply sim_timer; exact H|auto]. }
    destruct (q_locked q0) eqn:U; [exact T0|]. destruct (interrupt (Some ErrTimeout) now q0) as [[q1 e1]|] eqn:Ei; [|exact T0].
    apply (quietly_trans q q1).
    2: { destruct (interrupt_sound cf (Some ErrTimeout) now q0 Hq0 U) as (q2 & e2 & E2 & S2). rewrite Ei in E2. injection E2 as <- <-. exact (quietly_settle false now q1 S2). }
    intros s ths H. destruct H as [Hs Hp]. destruct (t_timer _ _ _ Hp Et) as (i & l & Hi & Hen).
    set (th1 := mkThread KTimer (interrupt_code (Some ErrTimeout)) l None).
    assert (G1 : go (mkState s ths) (mkState s (upd ths i th1))).
    { eapply (local_go cf i [o0]); [|exact Hi]. unfold timer_code. cbn [app local_run local_step th_code fst snd th_loc th_kind th_defer eval_cond]. rewrite (h_crash _ _ _ _ Hs), Hen, app_nil_r. reflexivity. }
    assert (E1 : q_locked q1 = false) by (rewrite (interrupt_lock _ _ _ _ _ Ei); exact U).
    assert (Ha : actor q0 KTimer) by (right; split; reflexivity).
    unfold lk in *. change (q_locked q) with (q_locked q0) in *. rewrite U in *. rewrite E1. cbn [fst snd] in *.
    assert (S1 : sim rw_free [] q0 s (upd ths i th1)).
    { destruct (sim_timer _ _ _ _ _ (conj Hs Hp)) as [Hs0 Hp0]. split; [exact Hs0|]. apply (thp_me q0 s ths i _ _ Hp0 Hi); [reflexivity|exact Ha|exact Logic.I]. }
    destruct (d_interrupt cf KTimer i (Some ErrTimeout) now q0 q1 e1 Ha Ei [] l None s (upd ths i th1) Logic.I S1) as (s2 & ths2 & l2 & G2 & S2 & _ & _ & F2).
    - rewrite app_nil_r. apply get_upd. exact (lt_of _ _ _ Hi).
    - exact Logic.I.
    - exists s2, ths2. split; [exact (go_trans cf _ _ _ G1 G2)|]. split; [exact S2|].
      intros j th Hj Hk. assert (Hn : j <> i) by (intros ->; rewrite Hi in Hj; injection Hj as <-; discriminate).
      apply (F2 j th); [congruence| |left; exact Hk]. rewrite get_upd_other by congruence. exact Hj.
  Qed.
  Lemma quietly_advance p q : rest q -> quietly q (advance cf p q).
  Proof. intros H. destruct p; [apply quietly_turn; exact H|apply quietly_timer; exact H]. Qed.
  Lemma quietly_advances l q : rest q -> quietly q (fold_left (fun q p => advance cf p q) l q).
  Proof. revert q. induction l as [|p l IH]; cbn; intros q H; [apply quietly_refl|]. eapply quietly_trans; [apply quietly_advance; exact H|]. apply IH. apply advance_rest. exact H. Qed.

  (** Wait. *)
  Lemma does_loop t x y c p p2 (b : bool) q q' (A B : locals C -> Prop) : calm p -> calm p2 -> (forall s l, shs (fst x) (snd x) q s -> A l -> eval_cond cf c s l = b) ->
    does t x y ((if b then p ++ [ILoop c p] else []) ++ p2) q q' A B -> does t x y ([ILoop c p] ++ p2) q q' A B.
  Proof.
    intros Hc Hc2 He H k l d s ths Hk Hsim Ht HA. destruct Hsim as [Hs Hp].
    set (th1 := mkThread KClient (((if b then p ++ [ILoop c p] else []) ++ p2) ++ k) l d).
    destruct (H k l d s (upd ths t th1) Hk) as (s2 & ths2 & l2 & G2 & S2 & T2 & P2 & F2).
    - split; [exact Hs|]. apply (thp_me q s ths t _ _ Hp Ht); [reflexivity|apply me|]. cbn. apply calm_app; [|exact Hk]. apply calm_app; [|exact Hc2]. destruct b; [|exact Logic.I]. apply calm_app; [exact Hc|exact Logic.I].
    - apply get_upd. exact (lt_of _ _ _ Ht).
    - exact HA.
    - exists s2, ths2, l2. split; [|split; [exact S2|split; [exact T2|split; [exact P2|exact (frame_trans _ _ _ _ (frame_me _ _ _) F2)]]]].
      eapply go_trans; [|exact G2]. eapply (local_go cf t [o0]); [|exact Ht]. cbn [local_run local_step th_code fst snd th_loc th_kind th_defer app]. rewrite (h_crash _ _ _ _ Hs), (He s l Hs HA).
      unfold th1. destruct b; [rewrite <- !app_assoc|]; reflexivity.
  Qed.

  Definition polled f d dl now (q : seq_st) (l : locals C) : Prop :=
    l_deadline l = dl /\
    (if is_finished (wait_finishing f) (q_fin q) then l_go l = false /\ l_err l = None
     else if (0 <? d)%Z && (dl <? now)%Z then l_go l = false /\ l_err l = Some ErrTimeout else l_go l = true).
  Lemma d_poll t f d dl now q : does t F F (wait_poll f d) q q (fun l => l_deadline l = dl) (polled f d dl now q).
  Proof.
    apply does_local; auto; [apply me|]. intros k l dd s Hs HA. destruct s as [v0 ls lm md no ack nack cl to tms lg cr]. destruct Hs.
    cbn [fst snd sh_crashed sh_notif sh_lock_s sh_lock_m sh_ack sh_nack sh_closed sh_status sh_model sh_log] in *. subst.
    unfold wait_poll. eexists [o0; o0; o0; o0; o0; o0; at_time now], _, _.
    split; [unfold status_code; lrun; reflexivity|]. split; [split; auto|]. split; [|auto]. unfold polled, q_fin.
    cbn [set_figs set_val l_val l_figs l_deadline set_err set_go l_go l_err].
    destruct (is_finished _ _); [cbn; auto|]. destruct ((0 <? d)%Z && (l_deadline l <? now)%Z) eqn:E; cbn; rewrite ?E; cbn; auto.
  Qed.

  Lemma lk_free (q : seq_st) : q_locked q = false -> lk q = F.
  Proof. intros H. unfold lk. rewrite H. reflexivity. Qed.

  Lemma d_wait_loop t f d dl ps : forall (q q' : seq_st) e, rest q -> q_locked q = false ->
    wait_loop q_fin (fun l q => fold_left (fun q p => advance cf p q) l q) (wait_finishing f) d dl ps q = Some (q', e) ->
    does t F F (wait_poll f d ++ [ILoop CGo (wait_poll f d)] ++ status_code ++ [IGet GWaitErr]) q q' (fun l : locals C => l_deadline l = dl) (err_is e).
  Proof.
    induction ps as [|[now p] ps IH]; intros q q' e Hq U H; [discriminate|]. cbn [wait_loop] in H.
    set (q1 := fold_left (fun q p => advance cf p q) p q) in *.
    assert (R1 : rest q1) by (apply advances_rest; exact Hq). assert (U1 : q_locked q1 = false) by (unfold q1; rewrite advances_lock; exact U).
    pose proof (quietly_advances p q Hq) as Q. fold q1 in Q. pose proof (fun A => quietly_does t q q1 A Q) as Q'. rewrite (lk_free q U), (lk_free q1 U1) in Q'.
    eapply does_app; [exact Logic.I|apply (d_poll t f d dl now)|]. eapply (does_app cf KClient t F F F []); [exact Logic.I|apply Q'|].
    assert (K : forall e0, does t F F (status_code ++ [IGet GWaitErr]) q1 q1 (err_is e0) (err_is (match e0 with None => st_error (q_status q1) | Some x => Some x end))).
    { intros e0. eapply does_app; [exact Logic.I|apply (d_status cf KClient t [] q1 (err_is e0)); apply me|].
      apply does_local; auto; [apply me|]. intros k l dd s Hs (Hv & l0 & H0 & H1 & _). exists [o0], (match e0 with None => set_err l (st_error (l_val l)) | Some _ => l end), s.
      unfold err_is in *. destruct s as [v0 ls lm md no ack nack cl to tms lg cr]. pose proof Hs as Hs'. destruct Hs'. cbn in h_crash. subst cr.
      split; [lrun; rewrite H1, H0; destruct e0; reflexivity|]. split; [exact Hs|]. split; [|auto]. destruct e0; [congruence|]. cbn. rewrite Hv. reflexivity. }
    destruct (is_finished (wait_finishing f) (q_fin q)) eqn:Ef.
    - injection H as <- <-.
      apply (does_loop t F F CGo (wait_poll f d) _ false); [exact Logic.I|exact Logic.I|intros s l _ (_ & Hl); rewrite Ef in Hl; cbn; apply Hl|].
      eapply does_weak; [|intros l Hl; exact Hl|apply (K None)]. intros l (_ & Hl). rewrite Ef in Hl. apply Hl.
    - destruct ((0 <? d)%Z && (dl <? now)%Z) eqn:Ed.
      + injection H as <- <-.
        apply (does_loop t F F CGo (wait_poll f d) _ false); [exact Logic.I|exact Logic.I|intros s l _ (_ & Hl); rewrite Ef, Ed in Hl; cbn; apply Hl|].
        eapply does_weak; [|intros l Hl; exact Hl|apply (K (Some ErrTimeout))]. intros l (_ & Hl). rewrite Ef, Ed in Hl. apply Hl.
      + apply (does_loop t F F CGo (wait_poll f d) _ true); [exact Logic.I|exact Logic.I|intros s l _ (_ & Hl); rewrite Ef, Ed in Hl; cbn; apply Hl|].
        rewrite <- app_assoc. eapply does_weak; [|intros l Hl; exact Hl|exact (IH q1 q' e R1 U1 H)]. intros l (Hl & _). exact Hl.
  Qed.

  Lemma d_wait t f d start ps (q q' : seq_st) e : rest q -> q_locked q = false -> wait_seq cf f d start ps q = Some (q', e) ->
    does t F F (wait_call f d) q q' any (err_is e).
  Proof.
    intros Hq U H. unfold wait_call. eapply does_cons; [exact Logic.I|apply (d_err cf KClient t F q None any); apply me|].
    eapply does_app; [exact Logic.I|apply (d_status cf KClient t [] q (err_is None)); apply me|].
    set (B := fun l' : locals C => l_val l' = q_status q /\ exists l, err_is None l /\ l_err l' = l_err l /\ l_deadline l' = l_deadline l).
    assert (Hif : forall v p p' q2 e2, calm (if status_eqb (st_value (q_status q)) v then p else p') ->
      does t F F (if status_eqb (st_value (q_status q)) v then p else p') q q2 B (err_is e2) -> does t F F [IIf (CVal v) p p'] q q2 B (err_is e2)).
    { intros v p p' q2 e2 Hc Hd. eapply does_if; [apply me|exact Hc| |exact Hd]. intros s l _ [Hv _]. cbn. rewrite Hv. reflexivity. }
    assert (Herr : forall e0, does t F F [IGet (GErr e0)] q q B (err_is e0)) by (intros; apply d_err; apply me).
    assert (Hnil : does t F F [] q q B (err_is None)).
    { eapply does_weak; [intros l Hl; exact Hl| |apply does_nil]. intros l (_ & l0 & Hl & El & _). unfold err_is in *. congruence. }
    unfold wait_seq in H. destruct (st_value (q_status q)) eqn:Est;
      try (injection H as <- <-; repeat (apply Hif; cbn [status_eqb]; [exact Logic.I|]); first [exact Hnil|apply Herr]).
    apply Hif; cbn [status_eqb]; [exact Logic.I|]. eapply does_app; [exact Logic.I|apply d_model; apply me|].
    destruct (never_finish cf f d) eqn:En.
    - injection H as <- <-. eapply does_if with (b := true); [apply me|exact Logic.I|intros s l _ _; exact En|]. apply Herr.
    - eapply does_if with (b := false); [apply me|exact Logic.I|intros s l _ _; exact En|]. unfold wait_code.
      eapply does_cons; [exact Logic.I| |exact (d_wait_loop t f d (start + d)%Z ps q q' e Hq U H)].
      apply does_local; auto; [apply me|]. intros k l dd s Hs HA. destruct s as [v0 ls lm md no ack nack cl to tms lg cr]. pose proof Hs as Hs'. destruct Hs'. cbn in h_crash. subst cr.
      eexists [at_time start], _, _. split; [lrun; reflexivity|]. split; [exact Hs|]. split; [reflexivity|auto].
  Qed.

  (** Push. *)
  Lemma d_push t err r now (q q' : seq_st) e : rest q -> q_locked q = false -> push_seq cf err r now q = Some (q', e) ->
    does t F F (push_call cf) q q' any (err_is e).
  Proof.
    intros Hq U H. unfold push_call. eapply does_cons; [exact Logic.I|apply (d_err cf KClient t F q None any); apply me|].
    eapply does_app; [exact Logic.I|apply (d_status cf KClient t [] q (err_is None)); apply me|].
    eapply (does_cons cf KClient t F F F); [exact Logic.I| |].
    { instantiate (1 := err_is (option_map ErrImpl err)). instantiate (1 := q). apply does_local; auto; [apply me|]. intros k l dd s Hs HA.
      destruct s as [v0 ls lm md no ack nack cl to tms lg cr]. pose proof Hs as Hs'. destruct Hs'. cbn in h_crash. subst cr.
      eexists [mkOracle (None, None) (IterRes None None None) err 0%Z], _, _. split; [lrun; reflexivity|]. split; [exact Hs|]. split; [reflexivity|auto]. }
    destruct err as [n|].
    - injection H as <- <-. eapply does_if with (b := false); [apply me|exact Logic.I|intros s l _ Hl; cbn; rewrite Hl; reflexivity|]. apply does_nil.
    - eapply does_if with (b := true); [apply me|exact Logic.I|intros s l _ Hl; cbn; rewrite Hl; reflexivity|].
      destruct Hq as ((K & R & L & Bd) & T). rewrite push_eq in H by apply (c_pos _ _ K). set (q1 := pushed cf now q) in *.
      rewrite !app_assoc.
      eapply (does_app cf KClient t F F F) with (q2 := q1) (B := any); [exact Logic.I| |].
      { apply does_local; auto; [apply me|]. intros k l dd s Hs HA. destruct s as [v0 ls lm md no ack nack cl to tms lg cr]. destruct Hs.
        cbn [fst snd sh_crashed sh_notif sh_lock_s sh_lock_m sh_ack sh_nack sh_closed sh_status sh_model sh_log] in *. subst.
        eexists [o0; o0; at_time now; o0; o0; o0; o0; o0; o0], _, _. split; [unfold status_code; lrun; reflexivity|].
        split; [split; cbn [fst snd sh_crashed sh_notif sh_lock_s sh_lock_m sh_ack sh_nack sh_closed sh_status sh_model sh_log unnumbered]; auto; cbn; f_equal; assumption|]. split; [exact Logic.I|auto]. }
      assert (Hz : (m_new (q_model q1) =? 0)%Z = starts cf q).
      { unfold q1. rewrite pushed_new. destruct (starts cf q) eqn:Es; [reflexivity|]. apply Z.eqb_neq. pose proof (c_pos _ _ K). lia. }
      eapply (does_cons cf KClient t F (rw_free, [t]) F) with (q2 := q1) (B := any); [exact Logic.I| |].
      { apply does_local; auto; [apply me|]. intros k l dd s Hs HA. destruct s as [v0 ls lm md no ack nack cl to tms lg cr]. destruct Hs.
        cbn [fst snd sh_crashed sh_notif sh_lock_s sh_lock_m sh_ack sh_nack sh_closed sh_status sh_model sh_log] in *. subst.
        eexists [o0], _, _. split; [lrun; reflexivity|]. split; [split; auto|]. split; [exact Logic.I|auto]. }
      eapply (does_cons cf KClient t (rw_free, [t]) (rw_free, [t]) F) with (q2 := q1) (B := fun l => l_zero l = starts cf q); [exact Logic.I| |].
      { apply does_local; auto; [apply me|]. intros k l dd s Hs HA. destruct s as [v0 ls lm md no ack nack cl to tms lg cr]. pose proof Hs as Hs'. destruct Hs'. cbn in h_crash, h_model. subst cr md.
        eexists [o0], _, _. split; [lrun; reflexivity|]. split; [exact Hs|]. split; [exact Hz|auto]. }
      assert (Hlast : forall q2 : seq_st, does t (rw_free, [t]) F [IGet (GErr None); IRUnlock MModel] q2 q2 any (err_is None)).
      { intros q2. apply does_local; auto; [apply me|]. intros k l dd s Hs HA. destruct s as [v0 ls lm md no ack nack cl to tms lg cr]. destruct Hs.
        cbn [fst snd sh_crashed sh_notif sh_lock_s sh_lock_m sh_ack sh_nack sh_closed sh_status sh_model sh_log] in *. subst.
        eexists [o0; o0], _, _. split; [lrun; reflexivity|]. split; [split; auto|]. split; [reflexivity|auto]. }
      destruct (starts cf q) eqn:Es.
      + injection H as <- <-. eapply does_cons; [exact Logic.I| |apply Hlast].
        eapply does_if with (b := true); [apply me|exact Logic.I|intros s l _ Hl; exact Hl|].
        assert (Er : st_value (q_status q) = Ready) by (unfold starts in Es; apply andb_true_iff in Es; destruct Es as [Es _]; apply andb_true_iff in Es; destruct Es as [Es _]; destruct (st_value (q_status q)); try discriminate; reflexivity).
        eapply does_weak; [|intros l Hl; exact Hl|apply (d_play_push cf KClient t [t] q1); [reflexivity| |exact Er]]; [intros l _; exact Logic.I|].
        change (q_run q1) with (q_run q). unfold run_ok in R. destruct (q_run q); [reflexivity|congruence|congruence|congruence].
      + injection H as <- <-. eapply does_cons; [exact Logic.I| |apply Hlast].
        eapply does_if with (b := false); [apply me|exact Logic.I|intros s l _ Hl; exact Hl|].
        eapply does_weak; [intros l Hl; exact Hl| |apply does_nil]. intros l _. exact Logic.I.
  Qed.

  (** Play, Stop, Batch. *)
  Lemma d_play' t r (q q' : seq_st) e : rest q -> q_locked q = false -> play_seq cf r q = Some (q', e) -> does t F (lk q') (play_call cf) q q' any (err_is e).
  Proof.
    intros Hq U H. destruct Hq as ((K & R & L & Bd) & T). apply (d_play cf KClient t q r q' e); auto.
    - unfold run_ok in R. destruct (q_run q); auto. contradiction.
    - unfold run_ok in R. intros E. rewrite E in R. destruct (q_run q); [destruct R as [R|[R|R]]|destruct R as [R|R]|..]; discriminate.
  Qed.
  Lemma does_quiet t x z p (q1 q2 q3 : seq_st) (A B : locals C -> Prop) : quietly q1 q2 -> lk q1 = x -> lk q2 = x -> calm p -> does t x z p q2 q3 A B -> does t x z p q1 q3 A B.
  Proof.
    intros Q E1 E2 Hp H. pose proof (quietly_does t q1 q2 A Q) as Q'. rewrite E1, E2 in Q'. exact (does_app cf KClient t x x z [] p q1 q2 q3 A A B Hp Q' H).
  Qed.

  Lemma d_batch t r start now mid ps (q q' : seq_st) e : rest q -> q_locked q = false -> batch_seq cf r start now mid ps q = Some (q', e) ->
    does t F (lk q') (batch_call cf) q q' any (err_is e).
  Proof.
    intros Hq U H. unfold batch_seq in H. unfold batch_call.
    destruct (interrupt_sound cf None now q Hq U) as (q1 & e1 & E1 & S1). rewrite E1 in H.
    assert (U1 : q_locked q1 = false) by (rewrite (interrupt_lock _ _ _ _ _ E1); exact U).
    set (q2 := settle cf now q1) in *. assert (R2 : rest q2) by (apply settle_rest; exact S1). assert (U2 : q_locked q2 = false) by (unfold q2; rewrite settle_lock; exact U1).
    eapply does_app; [exact Logic.I|exact (d_interrupt cf KClient t None now q q1 e1 (me q) E1)|].
    eapply does_quiet; [exact (quietly_settle false now q1 S1)|exact (lk_free q1 U1)|exact (lk_free q2 U2)|exact Logic.I|]. fold q2.
    destruct (play_sound cf r _ R2 U2) as (q3 & e3 & E3 & S3). rewrite E3 in H. pose proof (rest_lock cf r _ _ _ R2 U2 E3) as U3.
    eapply does_app; [exact Logic.I|eapply does_weak; [|intros l Hl; exact Hl|exact (d_play' t r q2 q3 _ R2 U2 E3)]; intros l _; exact Logic.I|].
    destruct e3 as [e3|].
    { injection H as <- <-. eapply does_if with (b := false); [apply me|exact Logic.I|intros s l _ Hl; cbn; rewrite Hl; reflexivity|]. apply does_nil. }
    rewrite (lk_free q3 U3).
    set (q4 := fold_left (fun q p => advance cf p q) mid (settle cf now q3)) in *.
    assert (R3 : rest (settle cf now q3)) by (apply settle_rest; exact S3).
    assert (R4 : rest q4) by (apply advances_rest; exact R3). assert (U4 : q_locked q4 = false) by (unfold q4; rewrite advances_lock, settle_lock; exact U3).
    destruct (wait_seq cf None 0 start ps q4) as [[q5 e5]|] eqn:E5; [|discriminate].
    pose proof (wait_sound cf _ _ _ _ _ _ _ R4 E5) as R5. assert (U5 : q_locked q5 = false) by (rewrite (wait_lock cf _ _ _ _ _ _ _ E5); exact U4).
    eapply does_if with (b := true); [apply me|exact Logic.I|intros s l _ Hl; cbn; rewrite Hl; reflexivity|].
    eapply does_quiet; [eapply quietly_trans; [exact (quietly_settle false now q3 S3)|apply (quietly_advances mid); exact R3]|exact (lk_free q3 U3)|exact (lk_free q4 U4)|exact Logic.I|]. fold q4.
    eapply does_app; [exact Logic.I|eapply does_weak; [|intros l Hl; exact Hl|exact (d_wait t _ _ _ _ q4 q5 e5 R4 U4 E5)]; intros l _; exact Logic.I|].
    destruct e5 as [e5|].
    { injection H as <- <-. rewrite (lk_free q5 U5). eapply does_if with (b := false); [apply me|exact Logic.I|intros s l _ Hl; cbn; rewrite Hl; reflexivity|]. apply does_nil. }
    destruct (interrupt_sound cf None now q5 R5 U5) as (q6 & e6 & E6 & S6). rewrite E6 in H. injection H as <- <-.
    assert (U6 : q_locked q6 = false) by (rewrite (interrupt_lock _ _ _ _ _ E6); exact U5). rewrite (lk_free q6 U6).
    eapply does_if with (b := true); [apply me|exact Logic.I|intros s l _ Hl; cbn; rewrite Hl; reflexivity|].
    eapply does_app; [exact Logic.I| |apply d_err; apply me].
    eapply does_weak; [|intros l Hl; exact Hl|exact (d_interrupt cf KClient t None now q5 q6 e6 (me q5) E6)]. intros l _. exact Logic.I.
  Qed.

  (** Every call. *)
  Lemma d_call t c a (q q' : seq_st) e : rest q -> call_seq cf c a q = Some (q', e) ->
    does t (lk q) (lk q') (call_code cf c) q q' any (fun l => returns_error c = true -> l_err l = e).
  Proof.
    intros Hq H. assert (W : forall x y p, does t x y p q q' any (err_is e) -> does t x y p q q' any (fun l => returns_error c = true -> l_err l = e)).
    { intros x y p. apply does_weak; auto. }
    assert (V : forall x y p, does t x y p q q' any any -> returns_error c = false -> does t x y p q q' any (fun l => returns_error c = true -> l_err l = e)).
    { intros x y p Hd Hc. revert Hd. apply does_weak; auto. intros l _. congruence. }
    unfold call_seq in H. destruct c; cbn [call_code]; try (destruct (q_locked q) eqn:U; [discriminate|]; rewrite (lk_free q U)).
    - injection H as H. apply W. assert (U' : q_locked q' = false).
      { change q' with (fst (q', e)). rewrite <- H. unfold init_seq, init_common_seq. destruct (st_value (q_status q)), (snd (a_init a)); exact U. }
      rewrite (lk_free q' U'). unfold init_call. cbn [app].
      eapply does_cons; [exact Logic.I|apply (d_err cf KClient t F q None any); apply me|].
      eapply does_cons; [exact Logic.I|apply (d_lock cf KClient t [] q); apply me|].
      pose proof (d_init cf KClient t q (a_init a) (err_is None) Hcf (me q)) as D. rewrite H in D. cbn [fst snd] in D.
      eapply does_app; [exact Logic.I|exact D|]. apply d_unlock. apply me.
    - apply W. apply (d_play' t (a_init a)); assumption.
    - apply W. assert (U' : q_locked q' = false).
      { unfold pause_seq in H. destruct (st_value (q_status q)), (q_run q); try discriminate; injection H as <- _; exact U. }
      rewrite (lk_free q' U'). apply d_pause; [apply me|exact H].
    - apply W. rewrite (lk_free q'); [|rewrite (interrupt_lock _ _ _ _ _ H); exact U]. apply (d_interrupt cf KClient t None (a_end a)); [apply me|exact H].
    - apply W. rewrite (lk_free q'); [|rewrite (wait_lock cf _ _ _ _ _ _ _ H); exact U]. exact (d_wait t f d _ _ q q' e Hq U H).
    - apply W. rewrite (lk_free q'); [exact (d_push t _ _ _ q q' e Hq U H)|].
      destruct (a_push a) as [n|]; [injection H as <- _; exact U|]. rewrite push_eq in H by apply (c_pos _ _ (proj1 (proj1 Hq))).
      destruct (starts cf q); injection H as <- _; exact U.
    - apply W. exact (d_batch t _ _ _ _ _ q q' e Hq U H).
    - injection H as <- <-. rewrite (lk_free q U). apply V; [|reflexivity]. eapply does_weak; [intros l Hl; exact Hl| |apply (d_status cf KClient t [] q any); apply me]. intros l _. exact Logic.I.
    - injection H as <- <-. apply V; [|reflexivity]. apply d_model. apply me.
  Qed.

  Lemma act_go t x (q q' : seq_st) k l d s ths : rest q -> act cf x q = Some q' -> calm k -> sim (fst (lk q)) (snd (lk q)) q s ths ->
    nth_error ths t = Some (mkThread KClient (client_code cf (calls_of [x]) ++ k) l d) ->
    exists s' ths' l', go (mkState s ths) (mkState s' ths') /\ sim (fst (lk q')) (snd (lk q')) q' s' ths' /\ nth_error ths' t = Some (mkThread KClient k l' d).
  Proof.
    intros Hq H Hk Hs Ht. destruct x as [c a|p]; cbn [act calls_of client_code flat_map app] in *.
    - destruct (call_seq cf c a q) as [[q1 e]|] eqn:E; [|discriminate]. injection H as <-.
      set (q2 := q_event q1 _). assert (S2 : sound cf false q2).
      { destruct (call_sound cf c a q q1 e Hq E) as (b & K & R & L & B). split; [eapply core_return; exact K|]. split; [exact R|]. split; [exact L|exact B]. }
      assert (D : does t (lk q) (lk q2) ((call_code cf c ++ [IReturn (returns_error c)])) q q2 any any).
      { eapply does_app; [exact Logic.I|exact (d_call t c a q q1 e Hq E)|]. change (lk q2) with (lk q1).
        unfold q2. destruct (returns_error c) eqn:Er.
        - apply (d_return cf KClient t (lk q1) q1 true _ e); [apply me|auto].
        - apply does_local; auto; [apply me|]. intros k0 l0 d0 s0 Hs0 _. destruct s0 as [v0 ls lm md no ack nack cl to tms lg cr]. destruct Hs0.
          cbn [fst snd sh_crashed sh_notif sh_lock_s sh_lock_m sh_ack sh_nack sh_closed sh_status sh_model sh_log] in *. subst.
          eexists [o0], _, _. split; [lrun; reflexivity|].
          split; [split; cbn [fst snd sh_crashed sh_notif sh_lock_s sh_lock_m sh_ack sh_nack sh_closed sh_status sh_model sh_log unnumbered]; auto; cbn; f_equal; assumption|]. split; [exact Logic.I|auto]. }
      rewrite app_nil_r in Ht. destruct (D k l d s ths Hk Hs Ht Logic.I) as (s1 & ths1 & l1 & G1 & S1 & T1 & _ & _).
      destruct (quietly_settle false (a_end a) q2 S2 s1 ths1 S1) as (s3 & ths3 & G3 & S3 & F3).
      exists s3, ths3, l1. split; [exact (go_trans cf _ _ _ G1 G3)|]. split; [exact S3|]. apply F3; [exact T1|reflexivity].
    - injection H as <-. destruct (quietly_advance p q Hq s ths Hs) as (s1 & ths1 & G1 & S1 & F1). exists s1, ths1, l. split; [exact G1|]. split; [exact S1|]. apply F1; [exact Ht|reflexivity].
  Qed.

  Lemma calls_cons (x : action C) xs : client_code cf (calls_of (x :: xs)) = client_code cf (calls_of [x]) ++ client_code cf (calls_of xs).
  Proof. destruct x; cbn [calls_of client_code flat_map app]; [rewrite app_nil_r|]; reflexivity. Qed.
  Lemma calm_client cs k : calm k -> calm (client_code cf cs ++ k).
  Proof. destruct cs as [|c cs]; [intros H; exact H|intros _]. destruct c; exact Logic.I. Qed.
  Lemma acts_go t xs : forall (q q' : seq_st) l d s ths, rest q -> acts cf xs q = Some q' -> sim (fst (lk q)) (snd (lk q)) q s ths ->
    nth_error ths t = Some (mkThread KClient (client_code cf (calls_of xs)) l d) ->
    exists s' ths' l', go (mkState s ths) (mkState s' ths') /\ sim (fst (lk q')) (snd (lk q')) q' s' ths' /\ nth_error ths' t = Some (mkThread KClient [] l' d).
  Proof.
    induction xs as [|x xs IH]; intros q q' l d s ths Hq H Hs Ht; cbn [acts] in H.
    - injection H as <-. exists s, ths, l. split; [apply go_refl|]. split; [exact Hs|exact Ht].
    - destruct (act cf x q) as [q1|] eqn:E; [|discriminate]. rewrite calls_cons in Ht.
      destruct (act_go t x q q1 (client_code cf (calls_of xs)) l d s ths Hq E) as (s1 & ths1 & l1 & G1 & S1 & T1); auto.
      { rewrite <- (app_nil_r (client_code cf _)). apply calm_client. exact Logic.I. }
      destruct (IH q1 q' l1 d s1 ths1 (act_rest cf x q q1 Hq E) H S1 T1) as (s2 & ths2 & l2 & G2 & S2 & T2).
      exists s2, ths2, l2. split; [exact (go_trans cf _ _ _ G1 G2)|]. split; assumption.
  Qed.

  Lemma sim_main xs (q : seq_st) : acts cf xs seq0 = Some q -> exists st, all_returned cf (calls_of xs) st /\
    sh_status (s_sh st) = q_status q /\ sh_model (s_sh st) = q_model q /\ unnumbered (sh_log (s_sh st)) = q_log q /\
    (q_locked q = true -> rw_holder (sh_lock_s (s_sh st)) = HLeaked).
  Proof.
    intros H.
    assert (X : sim rw_free [] (@seq0 C) shared0 (s_th (start [client_code cf (calls_of xs)]))).
    { split; [split; try reflexivity; cbn; lia|]. split; cbn; auto; try discriminate; try congruence.
      intros i th Hi. destruct i as [|i]; [|destruct i; discriminate]. injection Hi as <-. cbn. rewrite <- (app_nil_r (client_code cf _)). apply calm_client. exact Logic.I. }
    destruct (acts_go 0 xs seq0 q locals0 None _ _ (seq0_rest cf) H X eq_refl) as (s & ths & l & [ms G] & [[] _] & T).
    exists (mkState s ths). split.
    - split; [exists ms; exact G|]. split; [exact h_crash|]. exists (mkThread KClient [] l None). split; [exact T|reflexivity].
    - repeat split; auto. intros U. cbn. rewrite h_lock_s. unfold lk. rewrite U. reflexivity.
  Qed.

  (** ** Calls that can return *)
  Definition fail_turn : progress C := PTurn (IterRes None None (Some 0)) 0 0.
  Definition lucky (d : Z) : answers C := mkAnswers (None, None) None 0 0 [] [((d + 1)%Z, [fail_turn]); (0%Z, [])].
  Lemma turn_fail (q : seq_st) : rest q -> st_value (q_status q) = Running -> st_value (q_status (turn cf (IterRes None None (Some 0)) 0 0 q)) = Finished.
  Proof.
    intros ((_ & R & _) & T) E. unfold run_ok in R. rewrite E in R. unfold turn. destruct (q_run q); [destruct R as [R|[R|R]]; discriminate|congruence| |discriminate]. reflexivity.
  Qed.
  Lemma wait_lucky f d (q : seq_st) : rest q -> match f with Some _ => (0 < d)%Z | None => True end ->
    exists q' e, wait_seq cf f d 0 (a_polls (lucky d)) q = Some (q', e).
  Proof.
    intros Hq Hd. unfold wait_seq. destruct (st_value (q_status q)) eqn:E; eauto. destruct (never_finish cf f d); eauto.
    unfold wait_timeout, lucky. cbn [a_polls wait_loop fold_left advance fail_turn]. destruct (is_finished (wait_finishing f) (q_fin q)); eauto.
    destruct (Z.ltb_spec 0 d) as [L|L]; cbn [andb].
    - replace (0 + d <? d + 1)%Z with true by (symmetry; apply Z.ltb_lt; lia). eauto.
    - destruct f; [lia|]. pose proof (turn_fail q Hq E) as Hf. set (q1 := turn _ _ _ _ _) in *.
      assert (X : is_finished (wait_finishing None) (q_fin q1) = true).
      { clearbody q1. unfold q_fin. destruct (q_status q1) as [v er]. cbn in Hf. subst v. destruct er; reflexivity. }
      rewrite X. eauto.
  Qed.
  Lemma play_lucky (q : seq_st) : rest q -> q_locked q = false -> exists q' e, play_seq cf (None, None) q = Some (q', e) /\ q_locked q' = false.
  Proof.
    intros Hq U. destruct (play_sound cf (None, None) q Hq U) as (q1 & e1 & E & S). exists q1, e1. split; [exact E|].
    unfold play_seq, init_seq in E. destruct (st_value (q_status q)); try (injection E as <- _; exact U). destruct (q_run q); try discriminate. injection E as <- _; exact U.
  Qed.
  Lemma call_lucky c (q : seq_st) : rest q -> q_locked q = false -> bounded_wait c -> exists a q' e, call_seq cf c a q = Some (q', e) /\ q_locked q' = false.
  Proof.
    intros Hq U Hb. exists (match c with DWait _ d => lucky d | _ => lucky 0 end). unfold call_seq. rewrite U. destruct c; cbn [lucky a_init a_push a_now a_end a_mid].
    - exists (fst (init_seq (None, None) q)), (snd (init_seq (None, None) q)). split; [destruct (init_seq _ q); reflexivity|]. unfold init_seq, init_common_seq. cbn [snd fst]. destruct (st_value (q_status q)); exact U.
    - apply play_lucky; assumption.
    - destruct (pause_sound cf q Hq U) as (q1 & e1 & E & S). exists q1, e1. split; [exact E|].
      unfold pause_seq in E. destruct (st_value (q_status q)), (q_run q); try discriminate; injection E as <- _; exact U.
    - destruct (interrupt_sound cf None 0 q Hq U) as (q1 & e1 & E & S). exists q1, e1. split; [exact E|]. rewrite (interrupt_lock _ _ _ _ _ E). exact U.
    - destruct (wait_lucky f d q Hq) as (q1 & e1 & E); [exact Hb|]. exists q1, e1. split; [exact E|]. rewrite (wait_lock cf _ _ _ _ _ _ _ E). exact U.
    - destruct (push_sound cf None (None, None) 0 q Hq U) as (q1 & e1 & b & E & S). exists q1, e1. split; [exact E|].
      rewrite push_eq in E by apply (c_pos _ _ (proj1 (proj1 Hq))). destruct (starts cf q); injection E as <- _; exact U.
    - unfold batch_seq. cbn [fold_left].
      destruct (interrupt_sound cf None 0 q Hq U) as (q1 & e1 & E1 & S1). rewrite E1.
      assert (U1 : q_locked (settle cf 0 q1) = false) by (rewrite settle_lock, (interrupt_lock _ _ _ _ _ E1); exact U).
      pose proof (settle_rest cf 0 q1 S1) as R1. destruct (play_sound cf (None, None) _ R1 U1) as (q2 & e2 & E2 & S2).
      destruct (play_lucky _ R1 U1) as (q2' & e2' & E2' & U2). rewrite E2 in E2'. injection E2' as <- <-. rewrite E2. destruct e2; [eauto|].
      pose proof (settle_rest cf 0 q2 S2) as R2. assert (U2' : q_locked (settle cf 0 q2) = false) by (rewrite settle_lock; exact U2).
      destruct (wait_lucky None 0 _ R2 Logic.I) as (q3 & e3 & E3). rewrite E3.
      assert (U3 : q_locked q3 = false) by (rewrite (wait_lock cf _ _ _ _ _ _ _ E3); exact U2').
      pose proof (wait_sound cf _ _ _ _ _ _ _ R2 E3) as R3. destruct e3; [eauto|].
      destruct (interrupt_sound cf None 0 q3 R3 U3) as (q4 & e4 & E4 & S4). rewrite E4. do 2 eexists. split; [reflexivity|]. rewrite (interrupt_lock _ _ _ _ _ E4). exact U3.
    - eauto.
    - eauto.
  Qed.
  Lemma calls_lucky cs : forall q : seq_st, rest q -> q_locked q = false -> Forall bounded_wait cs ->
    exists xs q', acts cf xs q = Some q' /\ calls_of xs = cs.
  Proof.
    induction cs as [|c cs IH]; intros q Hq U H; [exists [], q; split; reflexivity|]. inversion H as [|c' cs' Hc Hcs]; subst.
    destruct (call_lucky c q Hq U Hc) as (a & q1 & e & E & U1).
    assert (A : exists q2, act cf (ACall c a) q = Some q2 /\ q_locked q2 = false) by (cbn [act]; rewrite E; eexists; split; [reflexivity|]; rewrite settle_lock; exact U1).
    destruct A as (q2 & A & U2). destruct (IH q2 (act_rest cf _ q q2 Hq A) U2 Hcs) as (xs & q' & X & Y).
    exists (ACall c a :: xs), q'. cbn [acts calls_of]. rewrite A, Y. auto.
  Qed.
  Lemma acts_app' xs : forall ys (q : seq_st), acts cf (xs ++ ys) q = match acts cf xs q with None => None | Some q' => acts cf ys q' end.
  Proof. induction xs as [|x xs IH]; intros ys q; [reflexivity|]. cbn [app acts]. destruct (act cf x q); [apply IH|reflexivity]. Qed.
  Lemma calls_app (xs ys : list (action C)) : calls_of (xs ++ ys) = calls_of xs ++ calls_of ys.
  Proof. induction xs as [|[] xs IH]; cbn; rewrite ?IH; reflexivity. Qed.

  Lemma returns_main xs (q : seq_st) cs : acts cf xs seq0 = Some q -> q_locked q = false -> Forall bounded_wait cs ->
    exists st : state, all_returned cf (calls_of xs ++ cs) st.
  Proof.
    intros H U Hb. destruct (calls_lucky cs q) as (ys & q' & Y & E); auto; [apply (acts_rest cf xs seq0); [apply seq0_rest|exact H]|].
    destruct (sim_main (xs ++ ys) q') as (st & X & _); [rewrite acts_app', H; exact Y|]. exists st. rewrite calls_app, E in X. exact X.
  Qed.
  Lemma transfer_main (P : oc_status -> model_st C -> list (event C) -> Prop) :
    (forall cs (st : state), all_returned cf cs st -> P (sh_status (s_sh st)) (sh_model (s_sh st)) (unnumbered (sh_log (s_sh st)))) ->
    forall xs q, acts cf xs seq0 = Some q -> P (q_status q) (q_model q) (q_log q).
  Proof. intros H xs q Hx. destruct (sim_main xs q Hx) as (st & A & E1 & E2 & E3 & _). rewrite <- E1, <- E2, <- E3. exact (H _ _ A). Qed.
End Main.
