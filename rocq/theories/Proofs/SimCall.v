(** The calls of a client as executions of their code. *)
From Coq Require Import List ZArith Bool Lia.
From Verif Require Import Base.Go Base.Num Model.Status Model.Finish Model.CtrlLang Model.CtrlCode Model.CtrlSeq Spec.SimSpec
  Proofs.GoLemmas Proofs.SimLang Proofs.SimWorld Proofs.SimRun Proofs.SimSeq.
Import ListNotations.
Local Open Scope list_scope.

Section Call.
  Context {C : Type}.
  Variable cf : cconf.
  Notation thread := (thread C).
  Notation shared := (shared C).
  Notation state := (state C).
  Notation seq_st := (seq_st C).
  Notation go := (go cf).
  Notation o0 := (@at_time C 0).
  Notation sim := (@sim C).

  (** Goroutine [t] of kind [kd], at [p] followed by [k], executes [p] while [q] becomes [q']; [x] and [y]: statusMutex and the readers of the model mutex. *)
  Definition does kd t (x y : rwlock * list nat) (p : list instr) (q q' : seq_st) (pre post : locals C -> Prop) : Prop :=
    forall k l d s ths, calm k -> sim (fst x) (snd x) q s ths -> nth_error ths t = Some (mkThread kd (p ++ k) l d) -> pre l ->
      exists s' ths' l', go (mkState s ths) (mkState s' ths') /\ sim (fst y) (snd y) q' s' ths' /\ nth_error ths' t = Some (mkThread kd k l' d) /\ post l' /\
        frame (Some t) ths ths'.

  Lemma calm_app p k : calm p -> calm k -> calm (p ++ k).
  Proof. destruct p as [|[] p]; cbn; auto. Qed.
  Lemma does_app kd t x y z p1 p2 q1 q2 q3 A B D : calm p2 -> does kd t x y p1 q1 q2 A B -> does kd t y z p2 q2 q3 B D ->
    does kd t x z (p1 ++ p2) q1 q3 A D.
  Proof.
    intros Hp H1 H2 k l d s ths Hk Hs Ht Ha. rewrite <- app_assoc in Ht.
    destruct (H1 _ l d s ths (calm_app _ _ Hp Hk) Hs Ht Ha) as (s1 & ths1 & l1 & G1 & S1 & T1 & P1 & F1).
    destruct (H2 k l1 d s1 ths1 Hk S1 T1 P1) as (s2 & ths2 & l2 & G2 & S2 & T2 & P2 & F2).
    exists s2, ths2, l2. split; [exact (go_trans cf _ _ _ G1 G2)|]. split; [exact S2|]. split; [exact T2|]. split; [exact P2|exact (frame_trans _ _ _ _ F1 F2)].
  Qed.
  Lemma does_cons kd t x y z i p q1 q2 q3 A B D : calm p -> does kd t x y [i] q1 q2 A B -> does kd t y z p q2 q3 B D -> does kd t x z (i :: p) q1 q3 A D.
  Proof. intros Hp H1 H2. exact (does_app kd t x y z [i] p q1 q2 q3 A B D Hp H1 H2). Qed.
  Lemma does_weak kd t x y p q q' (A A' B B' : locals C -> Prop) : (forall l, A' l -> A l) -> (forall l, B l -> B' l) -> does kd t x y p q q' A B -> does kd t x y p q q' A' B'.
  Proof.
    intros HA HB H k l d s ths Hk Hs Ht Ha. destruct (H k l d s ths Hk Hs Ht (HA _ Ha)) as (s' & ths' & l' & G & S & T & P & F).
    exists s', ths', l'. auto 8.
  Qed.
  Lemma does_nil kd t x q (A : locals C -> Prop) : does kd t x x [] q q A A.
  Proof. intros k l d s ths Hk Hs Ht Ha. exists s, ths, l. split; [apply go_refl|]. split; [exact Hs|]. split; [exact Ht|]. split; [exact Ha|apply frame_refl]. Qed.
  Lemma does_if kd t x y c p p' (b : bool) q q' (A B : locals C -> Prop) : actor q kd -> calm (if b then p else p') ->
    (forall s l, shs (fst x) (snd x) q s -> A l -> eval_cond cf c s l = b) ->
    does kd t x y (if b then p else p') q q' A B -> does kd t x y [IIf c p p'] q q' A B.
  Proof.
    intros Ha Hc He H k l d s ths Hk Hsim Ht HA. destruct Hsim as [Hs Hp].
    set (th1 := mkThread kd ((if b then p else p') ++ k) l d).
    destruct (H k l d s (upd ths t th1) Hk) as (s2 & ths2 & l2 & G2 & S2 & T2 & P2 & F2).
    - split; [exact Hs|]. apply (thp_me q s ths t _ _ Hp Ht); auto. apply calm_app; auto.
    - apply get_upd. exact (lt_of _ _ _ Ht).
    - exact HA.
    - exists s2, ths2, l2. split; [|split; [exact S2|split; [exact T2|split; [exact P2|exact (frame_trans _ _ _ _ (frame_me _ _ _) F2)]]]].
      eapply go_trans; [|exact G2]. eapply (local_go cf t [o0]); [|exact Ht]. cbn [local_run local_step th_code fst snd th_loc th_kind th_defer app]. rewrite (h_crash _ _ _ _ Hs), (He s l Hs HA). reflexivity.
  Qed.

  (** Steps of [t] alone that read and write nothing of the others. *)
  Lemma does_local kd t x y p q q' (A B : locals C -> Prop) : actor q kd ->
    (st_value (q_status q') <> Created -> st_value (q_status q) <> Created) -> (q_timer q' = true -> q_timer q = true) -> q_run q' = q_run q ->
    (forall k l d s, shs (fst x) (snd x) q s -> A l -> exists os l' s', local_run cf t os (mkThread kd (p ++ k) l d, s) = Some (mkThread kd k l' d, s') /\
       shs (fst y) (snd y) q' s' /\ B l' /\ sh_notif s' = sh_notif s /\ sh_timers s' = sh_timers s /\ sh_ack s' = sh_ack s /\ sh_closed s' = sh_closed s) ->
    does kd t x y p q q' A B.
  Proof.
    intros Ha H1 H2 H3 H k l d s ths Hk [Hs Hp] Ht HA. destruct (H k l d s Hs HA) as (os & l' & s' & E & S & HB & E1 & E2 & E3 & E4).
    exists s', (upd ths t (mkThread kd k l' d)), l'. split; [exact (local_go cf t os _ _ _ _ ths E Ht)|]. split; [split; [exact S|]|].
    - eapply (thp_env q s); auto. apply (thp_me q s ths t _ _ Hp Ht); auto.
    - split; [apply get_upd; exact (lt_of _ _ _ Ht)|]. split; [exact HB|apply frame_me].
  Qed.

  Definition held (t : nat) : rwlock := mkRw (HBy t) None [].
  Ltac opens := match goal with H : shs _ _ _ ?s |- _ => destruct s as [?v0 ?ls ?lm ?md ?no ?ack ?nack ?cl ?to ?tms ?lg ?cr]; destruct H; 
    cbn [fst snd sh_crashed sh_notif sh_lock_s sh_lock_m sh_ack sh_nack sh_closed sh_status sh_model sh_log] in *; subst end.
  Ltac same := cbn [fst snd]; split; [lrun; reflexivity|]; split; [split; cbn [fst snd sh_crashed sh_notif sh_lock_s sh_lock_m sh_ack sh_nack sh_closed sh_status sh_model sh_log
     q_set q_upd q_runner q_set_timer q_lock q_event q_status q_model q_run q_timer q_locked q_log unnumbered add_log set_status_ set_model]; auto|].
  Section Steps.
    Variables (kd : kind) (t : nat).
    Lemma d_lock rd q A : actor q kd -> does kd t (rw_free, rd) (held t, rd) [ILock MStatus] q q A A.
    Proof. intros Ha. apply does_local; auto. intros k l d s Hs HA. opens. eexists [o0; o0], _, _. same. auto. Qed.
    Lemma d_unlock rd q A : actor q kd -> does kd t (held t, rd) (rw_free, rd) [IUnlock MStatus] q q A A.
    Proof. intros Ha. apply does_local; auto. intros k l d s Hs HA. opens. eexists [o0], _, _. same. auto. Qed.
    Lemma d_leak rd q A : actor q kd -> does kd t (held t, rd) (mkRw HLeaked None [], rd) [ILeak MStatus] q (q_lock q) A A.
    Proof. intros Ha. apply does_local; auto. intros k l d s Hs HA. opens. eexists [o0], _, _. same. auto. Qed.
    Lemma d_err x q e (A : locals C -> Prop) : actor q kd -> does kd t x x [IGet (GErr e)] q q A (fun l => l_err l = e).
    Proof. intros Ha. apply does_local; auto. intros k l d s Hs HA. opens. eexists [o0], _, _. same. auto. Qed.
    Lemma d_model ls rd q A : actor q kd -> does kd t (ls, rd) (ls, rd) model_code q q A A.
    Proof. intros Ha. apply does_local; auto. intros k l d s Hs HA. opens. eexists [o0; o0], _, _. same. auto. Qed.
    Lemma d_status rd q (A : locals C -> Prop) : actor q kd ->
      does kd t (rw_free, rd) (rw_free, rd) status_code q q A (fun l' => l_val l' = q_status q /\ exists l, A l /\ l_err l' = l_err l /\ l_deadline l' = l_deadline l).
    Proof. intros Ha. apply does_local; auto. intros k l d s Hs HA. opens. eexists [o0; o0; o0], _, _. same. split; [|auto]. cbn. eauto. Qed.
    Lemma d_status_err x q (A : locals C -> Prop) : actor q kd -> does kd t x x [IGet GStatusErr] q q A (fun l => l_err l = st_error (q_status q)).
    Proof. intros Ha. apply does_local; auto. intros k l d s Hs HA. opens. eexists [o0], _, _. same. auto. Qed.
    Lemma d_return x q b (A : locals C -> Prop) e : actor q kd -> (forall l, A l -> l_err l = e) -> does kd t x x [IReturn b] q (q_event q (EvReturn 0 (if b then e else None))) A (fun _ => True).
    Proof.
      intros Ha He. apply does_local; auto. intros k l d s Hs HA. opens. eexists [o0], _, _. same. { rewrite (He l HA). f_equal. assumption. } auto.
    Qed.
  End Steps.

  Section Send.
    Variables (kd : kind) (t : nat).
    Lemma slots rd q s ths th : sim rw_free rd q s ths -> nth_error ths t = Some th -> actor q (th_kind th) -> st_value (q_status q) <> Created -> q_run q <> NoRun ->
      exists r n l ln, (t < length ths /\ n < length ths /\ r < length ths) /\ (t <> n /\ t <> r /\ n <> r) /\
        nth_error ths r = Some (runner_at (code_of (q_run q)) l) /\ nth_error ths n = Some (nrest ln) /\ l_err l = None /\ l_panic l = None /\ open_ack s.
    Proof.
      intros Hs Ht Ha Hc Hr. destruct (run_slots _ _ _ _ _ Hs Hc Hr) as (r & n & l & ln & Hd & Lr & Ln & Er & En & H1 & H2 & H3).
      exists r, n, l, ln. split; [split; [exact (lt_of _ _ _ Ht)|auto]|]. split; [|auto 6].
      split; [|split; [|congruence]].
      - apply (kind_neq _ _ _ _ _ Ht En). destruct Ha as [->|[-> _]]; discriminate.
      - apply (kind_neq _ _ _ _ _ Ht Er). destruct Ha as [->|[-> _]]; discriminate.
    Qed.
    (** The three goroutines have moved. *)
    Lemma sim_W rd q q' s s' ths a a' r n l ln c ln' : thp q s ths -> shs rw_free rd q' s' ->
      (t < length ths /\ n < length ths /\ r < length ths) -> (t <> n /\ t <> r /\ n <> r) ->
      nth_error ths t = Some a -> nth_error ths r = Some (runner_at (code_of (q_run q)) l) -> nth_error ths n = Some (nrest ln) ->
      actor q (th_kind a) -> th_kind a' = th_kind a -> calm (th_code a') -> calm (th_code c) -> 
      (st_value (q_status q') <> Created -> st_value (q_status q) <> Created) -> q_timer q' = q_timer q ->
      sh_notif s' = sh_notif s -> sh_timers s' = sh_timers s -> (q_run q' = NoRun \/ run_at (q_run q') s' c) ->
      sim rw_free rd q' s' (W ths t n r a' (nrest ln') c) /\ frame (Some t) ths (W ths t n r a' (nrest ln') c).
    Proof.
      intros Ht Hs Hl (D1 & D2 & D3) Et Er En Ha Hk Hc1 Hc2 H1 H2 H3 H4 H5. split; [split; [exact Hs|]|].
      - unfold W. apply (thp_run q s q' s' _ r (runner_at (code_of (q_run q)) l)); auto.
        + apply (thp_note q s _ n ln); [apply (thp_me q s ths t a); auto|]. rewrite get_upd_other by exact D1. exact En.
        + rewrite !get_upd_other by congruence. exact Er.
      - unfold W. eapply frame_trans; [apply frame_me|]. apply frame_none. eapply frame_trans.
        + apply (frame_upd _ n (nrest ln)); [rewrite get_upd_other by exact D1; exact En|exact not_mine_n].
        + apply (frame_upd _ r (runner_at (code_of (q_run q)) l)); [rewrite !get_upd_other by congruence; exact Er|exact not_mine_r].
    Qed.

    Lemma send_wait rd q e v (A : locals C -> Prop) : actor q kd -> st_value (q_status q) <> Created -> q_run q = AtWait ->
      (forall l, A l -> eval_st e l = v) ->
      does kd t (rw_free, rd) (rw_free, rd) (send_status e) q (q_runner (q_set q v) AtTest) A (fun l' => l_ok l' = true /\ exists l, A l /\ l_err l' = l_err l).
    Proof.
      intros Ha Hcr Hr Hv k l d s ths Hk Hsim Ht HA.
      destruct (slots _ _ _ _ _ Hsim Ht Ha Hcr ltac:(congruence)) as (r & n & lr & ln & Hl & Hd & Er & En & Hle & Hlp & Hop).
      pose proof (shs_idle _ _ _ _ Hsim Hcr) as Hi. destruct Hsim as [Hs Hp]. pose proof Er as Er'. rewrite Hr in Er'. cbn [code_of] in Er'.
      destruct (take_status cf ths t n r Hl Hd s kd e k l d ln lr rd Hi Hop) as [ln' G].
      change (ISend FldStatus e :: IRecv FldAck :: k) with (send_status e ++ k) in G. rewrite (W_id _ _ _ _ _ _ _ Ht En Er'), (Hv l HA) in G.
      eexists _, _, _. split; [exact G|].
      edestruct (sim_W rd q (q_runner (q_set q v) AtTest) s (stat r v s) ths (mkThread kd (send_status e ++ k) l d) (mkThread kd k (set_ok l true) d) r n lr ln (runner_at test_code (set_got (set_recv lr v) true)) ln' Hp) as [S F]; eauto.
      - apply shs_runner, shs_stat, Hs.
      - exact Logic.I.
      - right. eexists. split; [reflexivity|]. auto.
      - split; [exact S|]. split; [apply Gt; auto|]. split; [|exact F]. split; [reflexivity|]. exists l. auto.
    Qed.

    Lemma send_pause q (A : locals C -> Prop) : actor q kd -> st_value (q_status q) = Running -> q_run q = AtSelect ->
      does kd t (rw_free, []) (rw_free, []) (send_status (XValue Idle)) q (q_runner (q_set q (new_status Idle)) AtWait) A (fun l' => l_ok l' = true /\ exists l, A l /\ l_err l' = l_err l).
    Proof.
      intros Ha Hst Hr k l d s ths Hk Hsim Ht HA.
      assert (Hcr : st_value (q_status q) <> Created) by (rewrite Hst; discriminate).
      destruct (slots _ _ _ _ _ Hsim Ht Ha Hcr ltac:(congruence)) as (r & n & lr & ln & Hl & Hd & Er & En & Hle & Hlp & Hop).
      pose proof (shs_idle _ _ _ _ Hsim Hcr) as Hi. destruct Hsim as [Hs Hp]. pose proof Er as Er'. rewrite Hr in Er'. cbn [code_of] in Er'.
      destruct (take_pause cf ths t n r Hl Hd s kd k l d ln lr [] Hi Hop) as [ln' G].
      change (ISend FldStatus (XValue Idle) :: IRecv FldAck :: k) with (send_status (XValue Idle) ++ k) in G. rewrite (W_id _ _ _ _ _ _ _ Ht En Er') in G.
      eexists _, _, _. split; [exact G|].
      edestruct (sim_W [] q (q_runner (q_set q (new_status Idle)) AtWait) s (stat r (new_status Idle) s) ths (mkThread kd (send_status (XValue Idle) ++ k) l d) (mkThread kd k (set_ok l true) d) r n lr ln (runner_at recv_code (set_got (set_recv lr (new_status Idle)) true)) ln' Hp) as [S F]; eauto.
      - apply shs_runner, shs_stat, Hs.
      - exact Logic.I.
      - right. eexists. split; [reflexivity|]. auto.
      - split; [exact S|]. split; [apply Gt; auto|]. split; [|exact F]. split; [reflexivity|]. exists l. auto.
    Qed.

    Lemma send_stop now q e (A : locals C -> Prop) : actor q kd -> st_value (q_status q) = Running -> q_run q = AtSelect ->
      does kd t (rw_free, []) (rw_free, []) (send_status (XError (SrcConst e))) q (end_run None now (q_set q (mkStatus Finished e))) A (fun _ => True).
    Proof.
      intros Ha Hst Hr k l d s ths Hk Hsim Ht HA.
      assert (Hcr : st_value (q_status q) <> Created) by (rewrite Hst; discriminate).
      destruct (slots _ _ _ _ _ Hsim Ht Ha Hcr ltac:(congruence)) as (r & n & lr & ln & Hl & Hd & Er & En & Hle & Hlp & Hop).
      pose proof (shs_idle _ _ _ _ Hsim Hcr) as Hi. destruct Hsim as [Hs Hp]. pose proof Er as Er'. rewrite Hr in Er'. cbn [code_of] in Er'.
      destruct (take_stop cf ths t n r Hl Hd s kd e k l d ln lr Hi Hop Hle) as [ln' G].
      change (ISend FldStatus (XError (SrcConst e)) :: IRecv FldAck :: k) with (send_status (XError (SrcConst e)) ++ k) in G. rewrite (W_id _ _ _ _ _ _ _ Ht En Er') in G.
      set (q1 := q_set q (mkStatus Finished e)) in *. set (s1 := stat r (mkStatus Finished e) s) in *.
      match type of G with SimLang.go _ _ (mkState _ (W _ _ _ _ _ _ ?c)) => set (c1 := c) in G end.
      set (a1 := mkThread kd (IReceiving (ChAck (sh_ack s)) :: k) l d) in *.
      assert (SF : sim rw_free [] (q_runner q1 NoRun) s1 (W ths t n r a1 (nrest ln') c1) /\ frame (Some t) ths (W ths t n r a1 (nrest ln') c1)).
      { eapply (sim_W [] q (q_runner q1 NoRun) s s1 ths (mkThread kd (send_status (XError (SrcConst e)) ++ k) l d) a1 r n lr ln c1 ln' Hp); eauto.
        - apply shs_runner, shs_stat, Hs.
        - exact Logic.I.
        - exact Logic.I. }
      destruct SF as [[S1 T1] F1]. set (ths1 := W ths t n r a1 (nrest ln') c1) in *.
      assert (Et1 : nth_error ths1 t = Some a1) by (apply Gt; auto).
      destruct (sim_over cf now q1 s1 ths1 r n (set_go (set_got (set_recv lr (mkStatus Finished e)) true) false) ln') as (ths2 & G2 & [S2 T2] & F2); auto.
      { apply shs_stat, Hs. } { subst q1. cbn. discriminate. } { apply Gr; auto. } { apply Gn; auto. }
      cbn [l_err set_go set_got set_recv] in *. rewrite Hle in *. set (s2 := over r None now s1) in *.
      assert (Et2 : nth_error ths2 t = Some a1).
      { apply (F2 t a1); [discriminate|exact Et1|]. destruct Ha as [Ek|[Ek Eq]]; [left; exact Ek|right; auto]. }
      exists s2, (upd ths2 t (mkThread kd k (set_ok l false) d)), (set_ok l false).
      split; [|split; [split; [exact S2|]|split; [apply get_upd; exact (lt_of _ _ _ Et2)|split; [exact Logic.I|]]]].
      - eapply go_trans; [exact G|]. eapply go_trans; [exact G2|]. apply (local_go cf t [o0] a1 s2); [|exact Et2].
        subst a1. cbn [local_run local_step th_code fst snd]. rewrite (h_crash _ _ _ _ S2).
        assert (Ec : closed (ChAck (sh_ack s)) s2 = true) by (unfold closed; subst s2; rewrite over_ack; cbn [mem existsb]; change (sh_ack s1) with (sh_ack s); rewrite Nat.eqb_refl; reflexivity).
        rewrite Ec. reflexivity.
      - apply (thp_me _ s2 ths2 t a1); auto.
      - eapply frame_trans; [exact F1|]. eapply frame_trans; [apply frame_none; exact F2|apply frame_me].
    Qed.
  End Send.

  Section Init.
    Variables (kd : kind) (t : nat).

    Lemma note_slot ls rd q s ths th : sim ls rd q s ths -> nth_error ths t = Some th -> actor q (th_kind th) -> st_value (q_status q) <> Created ->
      exists n ln, t <> n /\ nth_error ths n = Some (nrest ln) /\ sh_notif s = true.
    Proof.
      intros [_ Hp] Ht Ha Hc. destruct (t_notif _ _ _ Hp Hc) as (Hno & n & ln & Hn). exists n, ln. split; [|auto].
      apply (kind_neq _ _ _ _ _ Ht Hn). destruct Ha as [->|[-> _]]; discriminate.
    Qed.

    (** A notification, in a state where the notification loop is at rest. *)
    Lemma d_set x q e v (A : locals C -> Prop) : actor q kd -> st_value (q_status q) <> Created -> (forall l, A l -> eval_st e l = v) ->
      does kd t x x (set_status e false) q (q_set q v) A A.
    Proof.
      intros Ha Hc Hv k l d s ths Hk Hsim Ht HA. destruct (note_slot _ _ _ _ _ _ Hsim Ht Ha Hc) as (n & ln & Hd & Hn & Hno). destruct Hsim as [Hs Hp].
      set (s1 := add_log (set_status_ s v) (EvStatus t v)). set (th1 := mkThread kd (ISend FldNotif e :: k) l d).
      assert (G1 : go (mkState s ths) (mkState s1 (upd ths t th1))).
      { eapply (local_go cf t [o0]); [|exact Ht]. cbn [set_status app local_run local_step th_code fst snd th_loc th_kind th_defer]. rewrite (h_crash _ _ _ _ Hs), (Hv l HA). reflexivity. }
      assert (En : nth_error (upd ths t th1) n = Some (nrest ln)) by (rewrite get_upd_other by exact Hd; exact Hn).
      assert (Et : nth_error (upd ths t th1) t = Some th1) by (apply get_upd; exact (lt_of _ _ _ Ht)).
      destruct (notify_go cf (upd ths t th1) t n s1 kd e k l d ln (snd x) Hd Et En) as [ln' G2]; [exact (h_crash _ _ _ _ Hs)|exact Hno|exact (h_lock_m _ _ _ _ Hs)|].
      rewrite (Hv l HA), upd_upd in G2. exists (stat t v s), (upd (upd ths t (mkThread kd k l d)) n (nrest ln')), l.
      assert (En' : nth_error (upd ths t (mkThread kd k l d)) n = Some (nrest ln)) by (rewrite get_upd_other by exact Hd; exact Hn).
      split; [exact (go_trans cf _ _ _ G1 G2)|]. split; [split; [apply shs_stat, Hs|]|].
      - apply (thp_note _ _ _ n ln); [|exact En']. apply (thp_env q s); auto. apply (thp_me q s ths t _ _ Hp Ht); auto.
      - split; [rewrite get_upd_other by congruence; apply get_upd; exact (lt_of _ _ _ Ht)|]. split; [exact HA|].
        eapply frame_trans; [apply frame_me|]. apply frame_none. exact (frame_upd _ n _ _ En' not_mine_n).
    Qed.

    (** The first Init starts the notification loop. *)
    Lemma d_first x q v (A : locals C -> Prop) : cf_notifier cf = None -> actor q kd -> st_value (q_status q) = Created -> st_value v <> Created ->
      does kd t x x ([IMakeNotif; ISpawn KNotifier (notification_loop (cf_notifier cf))] ++ set_status (XValue (st_value v)) false) q (q_set q (new_status (st_value v))) A A.
    Proof.
      intros Hcf Ha Hc Hv k l d s ths Hk [Hs Hp] Ht HA. rewrite Hcf in Ht.
      pose proof (lt_of _ _ _ Ht) as Lt. set (n := length ths).
      set (s0 := set_notif s true).
      set (w := new_status (st_value v)).
      assert (Hs0 : shs (fst x) (snd x) q s0) by (destruct Hs; split; auto).
      assert (G1 : go (mkState s ths) (mkState s0 (upd ths t (mkThread kd (ISpawn KNotifier (notification_loop None) :: set_status (XValue (st_value v)) false ++ k) l d)))).
      { eapply (local_go cf t [o0]); [|exact Ht]. cbn [set_status app local_run local_step th_code fst snd th_loc th_kind th_defer]. rewrite (h_crash _ _ _ _ Hs). reflexivity. }
      set (ths1 := upd ths t (mkThread kd (ISpawn KNotifier (notification_loop None) :: set_status (XValue (st_value v)) false ++ k) l d)) in *.
      assert (E1 : nth_error ths1 t = Some (mkThread kd (ISpawn KNotifier (notification_loop None) :: set_status (XValue (st_value v)) false ++ k) l d)) by (apply get_upd; exact Lt).
      pose proof (spawn_go cf ths1 t s0 kd KNotifier (notification_loop None) _ l d E1 (h_crash _ _ _ _ Hs)) as G2.
      unfold ths1 in G2 at 2. rewrite upd_upd in G2.
      set (th2 := mkThread kd (set_status (XValue (st_value v)) false ++ k) l d) in *.
      set (ths2 := upd ths t th2 ++ [mkThread KNotifier (notification_loop None) locals0 None]) in *.
      assert (Ln : length (upd ths t th2) = n) by apply upd_length.
      assert (E2 : nth_error ths2 n = Some (mkThread KNotifier (notification_loop None) locals0 None)) by (unfold ths2; rewrite nth_error_app2, Ln, Nat.sub_diag by lia; reflexivity).
      assert (G3 : go (mkState s0 ths2) (mkState s0 (upd ths2 n (nrest locals0)))).
      { eapply (local_go cf n [o0; o0]); [|exact E2]. cbn [notification_loop model_code app local_run local_step th_code fst snd th_loc th_kind th_defer eval_cond channel_of sh_notif s0 set_notif].
        rewrite (h_crash _ _ _ _ Hs0). reflexivity. }
      assert (Eu : upd ths2 n (nrest locals0) = upd ths t th2 ++ [nrest locals0]).
      { unfold ths2. rewrite <- Ln. generalize (upd ths t th2). intros la. induction la as [|z la IH]; cbn; [reflexivity|]. f_equal. exact IH. }
      rewrite Eu in G3. clear Eu E2. set (ths3 := upd ths t th2 ++ [nrest locals0]) in *.
      assert (E3 : nth_error ths3 n = Some (nrest locals0)) by (unfold ths3; rewrite nth_error_app2, Ln, Nat.sub_diag by lia; reflexivity).
      assert (E4 : nth_error ths3 t = Some th2) by (unfold ths3; rewrite nth_error_app1 by (rewrite upd_length; exact Lt); apply get_upd; exact Lt).
      (* the state with the new loop, as if the status were not Created *)
      set (s1 := add_log (set_status_ s0 w) (EvStatus t w)). set (th4 := mkThread kd (ISend FldNotif (XValue (st_value v)) :: k) l d).
      assert (G4 : go (mkState s0 ths3) (mkState s1 (upd ths3 t th4))).
      { eapply (local_go cf t [o0]); [|exact E4]. cbn [th2 set_status app local_run local_step th_code fst snd th_loc th_kind th_defer]. rewrite (h_crash _ _ _ _ Hs0). reflexivity. }
      assert (Hd : t <> n) by (unfold n; lia).
      assert (En : nth_error (upd ths3 t th4) n = Some (nrest locals0)) by (rewrite get_upd_other by exact Hd; exact E3).
      assert (Et : nth_error (upd ths3 t th4) t = Some th4) by (apply get_upd; exact (lt_of _ _ _ E4)).
      destruct (notify_go cf (upd ths3 t th4) t n s1 kd (XValue (st_value v)) k l d locals0 (snd x) Hd Et En) as [ln' G5]; [exact (h_crash _ _ _ _ Hs0)|reflexivity|exact (h_lock_m _ _ _ _ Hs0)|].
      rewrite upd_upd in G5. exists (stat t w s0), (upd (upd ths3 t (mkThread kd k l d)) n (nrest ln')), l.
      assert (En' : nth_error (upd ths3 t (mkThread kd k l d)) n = Some (nrest locals0)) by (rewrite get_upd_other by exact Hd; exact E3).
      split; [|split; [split; [apply shs_stat, Hs0|]|]].
      - eapply go_trans; [exact G1|]. eapply go_trans; [exact G2|]. eapply go_trans; [exact G3|]. eapply go_trans; [exact G4|]. exact G5.
      - apply (thp_note _ _ _ n locals0); [|exact En']. assert (Hp3 : thp (q_set q w) (stat t w s0) ths3).
        { assert (Hpm : thp q s (upd ths t th2)) by (apply (thp_me q s ths t _ _ Hp Ht); [reflexivity|exact Ha|exact Logic.I]).
          destruct Hpm as [_ K2 K3 K4]. unfold ths3. split.
          - intros _. split; [reflexivity|]. exists n, locals0. exact E3.
          - destruct K2 as [K2|(r & y & Hr & lr & Hy)]; [left; exact K2|right]. exists r, y. split; [rewrite nth_error_app1; [exact Hr|exact (lt_of _ _ _ Hr)]|]. exists lr. exact Hy.
          - intros Hq. destruct (K3 Hq) as (i & li & Hi & Hen). exists i, li. split; [rewrite nth_error_app1; [exact Hi|exact (lt_of _ _ _ Hi)]|exact Hen].
          - apply quiet_app; [exact K4|exact Logic.I]. }
        apply (thp_me _ _ ths3 t _ _ Hp3 E4); auto.
      - split; [rewrite get_upd_other by congruence; apply get_upd; exact (lt_of _ _ _ E4)|]. split; [exact HA|].
        eapply frame_trans; [|eapply frame_trans; [apply (frame_me ths3)|apply frame_none; exact (frame_upd _ n _ _ En' not_mine_n)]].
        unfold ths3. eapply frame_trans; [apply (frame_me ths t th2)|apply frame_app].
    Qed.

    Lemma d_reset ls q (A : locals C -> Prop) : actor q kd ->
      does kd t (ls, []) (ls, []) [ILock MModel; IModel MReset; IUnlock MModel] q (q_event (q_upd q (model_reset (q_model q))) EvReset) A A.
    Proof. intros Ha. apply does_local; auto. intros k l d s Hs HA. opens. eexists [o0; o0; o0; o0], _, _. same; [f_equal; assumption|]. auto. Qed.
    Lemma d_impl_init x q r (A : locals C -> Prop) : actor q kd -> does kd t x x [IImplInit] q q A (fun l => l_cent l = fst r /\ l_err l = option_map ErrImpl (snd r)).
    Proof.
      intros Ha. apply does_local; auto. intros k l d s Hs HA. opens. destruct r as [c e]. eexists [mkOracle (c, e) (IterRes None None None) None 0%Z], _, _. same. split; [|auto]. cbn. auto.
    Qed.
    Lemma d_centroids ls q c e : actor q kd ->
      does kd t (ls, []) (ls, []) [ILock MModel; IModel MCentroids; IUnlock MModel] q (q_upd q (model_centroids (q_model q) c)) (fun l => l_cent l = c /\ l_err l = e) (fun l => l_err l = e).
    Proof. intros Ha. apply does_local; auto. intros k l d s Hs [HA HB]. opens. eexists [o0; o0; o0; o0], _, _. same. auto. Qed.

    Lemma d_init_rest q r (A : locals C -> Prop) : actor q kd -> st_value (q_status q) = Initializing ->
      let q1 := q_upd q (model_centroids (q_model q) (fst r)) in
      does kd t (held t, []) (held t, []) (model_code ++ model_code ++ [IImplInit] ++ [ILock MModel; IModel MCentroids; IUnlock MModel]
        ++ [IIf CErrNil (set_status (XValue Ready) false) (set_status (XError SrcErr) false)]) q
        (q_set q1 (match snd r with None => new_status Ready | Some n => new_status_error (ErrImpl n) end)) A (fun l => l_err l = option_map ErrImpl (snd r)).
    Proof.
      intros Ha Hst q1. eapply does_app; [exact Logic.I|apply d_model; exact Ha|]. eapply does_app; [exact Logic.I|apply d_model; exact Ha|].
      eapply does_app; [exact Logic.I|apply (d_impl_init _ _ r); exact Ha|]. eapply does_app; [exact Logic.I|apply d_centroids; exact Ha|].
      assert (Hc : st_value (q_status q1) <> Created) by (cbn; rewrite Hst; discriminate).
      destruct (snd r) as [n|]; cbn [option_map].
      - apply (does_if _ _ _ _ _ _ _ false); auto; [exact Logic.I|intros s l _ Hl; cbn; rewrite Hl; reflexivity|].
        apply d_set; auto. intros l Hl. cbn. rewrite Hl. reflexivity.
      - apply (does_if _ _ _ _ _ _ _ true); auto; [exact Logic.I|intros s l _ Hl; cbn; rewrite Hl; reflexivity|].
        apply d_set; auto.
    Qed.

    Lemma actor_eq (q q' : seq_st) k : q_timer q' = q_timer q -> actor q k -> actor q' k.
    Proof. intros H [E|[E F]]; [left|right]; auto. split; congruence. Qed.

    Lemma d_init q r (A : locals C -> Prop) : cf_notifier cf = None -> actor q kd ->
      does kd t (held t, []) (held t, []) (init_code cf) q (fst (init_seq r q)) A (fun l => l_err l = snd (init_seq r q)).
    Proof.
      intros Hcf Ha. unfold init_code, init_seq.
      assert (Hfin : forall q0, snd (init_common_seq r q0) = option_map ErrImpl (snd r)) by (intros; unfold init_common_seq; destruct (snd r); reflexivity).
      assert (Hst0 : forall q0, fst (init_common_seq r q0) = q_set (q_upd (q_set q0 (new_status Initializing)) (model_centroids (q_model q0) (fst r))) (match snd r with None => new_status Ready | Some n => new_status_error (ErrImpl n) end))
        by (intros; unfold init_common_seq; destruct (snd r); reflexivity).
      assert (Hif : forall v p p' B q', calm (if status_eqb (st_value (q_status q)) v then p else p') ->
        does kd t (held t, []) (held t, []) (if status_eqb (st_value (q_status q)) v then p else p') q q' A B -> does kd t (held t, []) (held t, []) [IIf (CStatus v) p p'] q q' A B).
      { intros v p p' B q' Hp H. eapply does_if; [exact Ha|exact Hp| |exact H]. intros s l Hs _. cbn. rewrite (h_status _ _ _ _ Hs). reflexivity. }
      assert (Hno : st_value (q_status q) <> Created -> st_value (q_status q) <> Finished ->
        does kd t (held t, []) (held t, []) [IIf (CStatus Finished) ([ILock MModel; IModel MReset; IUnlock MModel] ++ init_common)
          [IIf (CStatus Created) ([IMakeNotif; ISpawn KNotifier (notification_loop (cf_notifier cf))] ++ init_common) [IGet (GErr (Some ErrAlreadyCreated))]]]
          q q A (fun l => l_err l = Some ErrAlreadyCreated)).
      { intros H1 H2. assert (E1 : status_eqb (st_value (q_status q)) Finished = false) by (destruct (st_value (q_status q)); try reflexivity; contradiction).
        assert (E2 : status_eqb (st_value (q_status q)) Created = false) by (destruct (st_value (q_status q)); try reflexivity; contradiction).
        apply Hif; rewrite E1; [exact Logic.I|]. eapply does_if with (b := false); [exact Ha|exact Logic.I| |apply d_err; exact Ha].
        intros s l Hs _. cbn [eval_cond]. rewrite (h_status _ _ _ _ Hs). exact E2. }
      destruct (st_value (q_status q)) eqn:Est; try (apply Hno; discriminate).
      - (* Created *) apply Hif; cbn [status_eqb]; [exact Logic.I|].
        eapply does_if with (b := true); [exact Ha|exact Logic.I|intros s l Hs _; cbn; rewrite (h_status _ _ _ _ Hs), Est; reflexivity|].
        rewrite Hfin, Hst0. unfold init_common. rewrite app_assoc.
        eapply does_app; [exact Logic.I|apply (d_first _ q (new_status Initializing) A Hcf Ha Est); discriminate|].
        exact (d_init_rest (q_set q (new_status Initializing)) r A Ha eq_refl).
      - (* Finished *) apply Hif; cbn [status_eqb]; [exact Logic.I|]. rewrite Hfin, Hst0. unfold init_common.
        eapply does_app; [exact Logic.I|apply d_reset; exact Ha|]. set (q0 := q_event _ _).
        eapply does_app; [exact Logic.I|apply (d_set _ q0 _ (new_status Initializing)); [exact Ha|cbn; rewrite Est; discriminate|reflexivity]|].
        exact (d_init_rest (q_set q0 (new_status Initializing)) r A Ha eq_refl).
    Qed.
  End Init.

  Notation F := (rw_free, @nil nat).
  (** The branch of a test of the status, known by [E]. *)
  Ltac dif Ha E bb := eapply does_if with (b := bb); [exact Ha|exact Logic.I|intros ? ? Hshs _; cbn [eval_cond]; rewrite (h_status _ _ _ _ Hshs), E; reflexivity|].

  Section Calls.
    Variables (kd : kind) (t : nat).
    Definition any (l : locals C) : Prop := True.
    Definition err_is e (l : locals C) : Prop := l_err l = e.

    Lemma d_interrupt e now q q' err : actor q kd -> interrupt e now q = Some (q', err) ->
      does kd t F F (interrupt_code e) q q' any (err_is err).
    Proof.
      intros Ha H. unfold interrupt_code. eapply does_cons; [exact Logic.I|apply (d_err kd t F q None); exact Ha|].
      eapply does_cons; [exact Logic.I|apply (d_lock kd t [] q (err_is None)); exact Ha|].
      unfold interrupt in H. destruct (st_value (q_status q)) eqn:E.
      - injection H as <- <-. dif Ha E false. dif Ha E false. dif Ha E false. eapply does_cons; [exact Logic.I|apply d_unlock; exact Ha|apply d_err; exact Ha].
      - injection H as <- <-. dif Ha E false. dif Ha E false. dif Ha E false. eapply does_cons; [exact Logic.I|apply d_unlock; exact Ha|apply d_err; exact Ha].
      - injection H as <- <-. dif Ha E true. eapply does_app; [exact Logic.I|apply (d_set kd t _ q _ (mkStatus Finished e)); [exact Ha|rewrite E; discriminate|reflexivity]|]. apply (d_unlock kd t [] _ (err_is None)). exact Ha.
      - destruct (q_run q) eqn:Er; try discriminate. injection H as <- <-. dif Ha E false. dif Ha E false. dif Ha E true.
        eapply does_cons; [exact Logic.I|apply d_unlock; exact Ha|]. eapply does_app; [exact Logic.I|apply (send_stop kd t now); auto|]. apply d_status_err. unfold end_run. cbn. exact Ha.
      - destruct (q_run q) eqn:Er; try discriminate. injection H as <- <-. dif Ha E false. dif Ha E true.
        eapply does_cons; [exact Logic.I|apply d_unlock; exact Ha|].
        eapply does_app; [exact Logic.I|apply (send_wait kd t [] q _ (mkStatus Finished e)); [exact Ha|rewrite E; discriminate|exact Er|reflexivity]|]. apply d_status_err. exact Ha.
      - injection H as <- <-. dif Ha E false. dif Ha E false. dif Ha E false. eapply does_cons; [exact Logic.I|apply d_unlock; exact Ha|apply d_err; exact Ha].
    Qed.

    Lemma d_pause q q' err : actor q kd -> pause_seq q = Some (q', err) -> does kd t F F pause_call q q' any (err_is err).
    Proof.
      intros Ha H. unfold pause_call. eapply does_cons; [exact Logic.I|apply (d_err kd t F q None); exact Ha|].
      eapply does_cons; [exact Logic.I|apply (d_lock kd t [] q (err_is None)); exact Ha|].
      assert (K : st_value (q_status q) <> Running -> (q', err) = (q, Some ErrNotRunning) ->
        does kd t (held t, []) F [IIf (CStatus Running) (IUnlock MStatus :: send_status (XValue Idle) ++ [IIf CAckNo [IGet (GErr (Some ErrNotRunning))] []])
          [IGet (GErr (Some ErrNotRunning)); IUnlock MStatus]] q q' (err_is None) (err_is err)).
      { intros Hn [= -> ->]. assert (E : status_eqb (st_value (q_status q)) Running = false) by (destruct (st_value (q_status q)); try reflexivity; contradiction).
        eapply does_if with (b := false); [exact Ha|exact Logic.I|intros s l Hs _; cbn [eval_cond]; rewrite (h_status _ _ _ _ Hs); exact E|].
        eapply does_cons; [exact Logic.I|apply d_err; exact Ha|apply (d_unlock kd t [] q (err_is (Some ErrNotRunning))); exact Ha]. }
      unfold pause_seq in H. destruct (st_value (q_status q)) eqn:E; try (apply K; [discriminate|congruence]).
      destruct (q_run q) eqn:Er; try discriminate. injection H as <- <-. dif Ha E true.
      eapply does_cons; [exact Logic.I|apply d_unlock; exact Ha|]. eapply does_app; [exact Logic.I|apply (send_pause kd t q); auto|].
      eapply does_if with (b := false); [exact Ha|exact Logic.I|intros s l _ [Hl _]; cbn; rewrite Hl; reflexivity|].
      eapply does_weak; [intros l Hl; exact Hl| |apply does_nil]. intros l (_ & l0 & Hl & El). unfold err_is in *. congruence.
    Qed.

    Lemma d_spawn x q (A : locals C -> Prop) : actor q kd -> q_run q = NoRun -> does kd t x x [ISpawn KRunner run_code] q (q_runner q AtWait) A A.
    Proof.
      intros Ha Hr k l d s ths Hk [Hs Hp] Ht HA. pose proof (lt_of _ _ _ Ht) as Lt.
      pose proof (spawn_go cf ths t s kd KRunner run_code k l d Ht (h_crash _ _ _ _ Hs)) as G1.
      set (th2 := mkThread kd k l d) in *. set (n := length ths). assert (Ln : length (upd ths t th2) = n) by apply upd_length.
      set (ths2 := upd ths t th2 ++ [mkThread KRunner run_code locals0 None]) in *.
      assert (E2 : nth_error ths2 n = Some (mkThread KRunner run_code locals0 None)) by (unfold ths2; rewrite nth_error_app2, Ln, Nat.sub_diag by lia; reflexivity).
      assert (G3 : go (mkState s ths2) (mkState (make_ack s) (upd ths2 n (runner_at recv_code locals0)))).
      { eapply (local_go cf n [o0; o0; o0; o0]); [|exact E2]. unfold run_code. cbn [set_status app local_run local_step th_code fst snd th_loc th_kind th_defer]. 
        cbn [make_ack sh_crashed]. rewrite (h_crash _ _ _ _ Hs). reflexivity. }
      assert (Eu : upd ths2 n (runner_at recv_code locals0) = upd ths t th2 ++ [runner_at recv_code locals0]).
      { unfold ths2. rewrite <- Ln. generalize (upd ths t th2). intros la. induction la as [|z la IH]; cbn; [reflexivity|]. f_equal. exact IH. }
      rewrite Eu in G3. exists (make_ack s), (upd ths t th2 ++ [runner_at recv_code locals0]), l.
      split; [exact (go_trans cf _ _ _ G1 G3)|]. split; [split|].
      - destruct Hs. split; cbn [make_ack sh_crashed sh_status sh_model sh_log sh_lock_m sh_lock_s sh_ack sh_nack sh_closed]; auto.
        intros a Hle. apply h_closed. lia.
      - assert (Hpm : thp q s (upd ths t th2)) by (apply (thp_me q s ths t _ _ Hp Ht); [reflexivity|exact Ha|exact Hk]).
        destruct Hpm as [K1 _ K3 K4]. split.
        + intros Hn. destruct (K1 Hn) as (Hno & m & ln & Hm). split; [exact Hno|]. exists m, ln. rewrite nth_error_app1; [exact Hm|exact (lt_of _ _ _ Hm)].
        + right. exists n, (runner_at recv_code locals0). split; [rewrite nth_error_app2, Ln, Nat.sub_diag by lia; reflexivity|].
          exists locals0. repeat split. unfold open_ack. cbn [make_ack sh_ack sh_closed]. apply (h_closed _ _ _ _ Hs). lia.
        + intros Hq. destruct (K3 Hq) as (i & li & Hi & Hen). exists i, li. split; [rewrite nth_error_app1; [exact Hi|exact (lt_of _ _ _ Hi)]|exact Hen].
        + apply quiet_app; [exact K4|exact Logic.I].
      - split; [rewrite nth_error_app1 by (rewrite upd_length; exact Lt); apply get_upd; exact Lt|]. split; [exact HA|].
        eapply frame_trans; [apply (frame_me ths t th2)|apply frame_app].
    Qed.

    Lemma d_disable x q (A : locals C -> Prop) : actor q kd -> does kd t x x [IIf CHasTimeout [IDisable] []] q (q_set_timer q false) A A.
    Proof.
      intros Ha k l d s ths Hk [Hs Hp] Ht HA.
      set (s' := match sh_timeout s with None => s | Some n => set_timers s (Some n) (upd (sh_timers s) n false) end).
      exists s', (upd ths t (mkThread kd k l d)), l. split; [|split; [split|split; [apply get_upd; exact (lt_of _ _ _ Ht)|split; [exact HA|apply frame_me]]]].
      - unfold s'. destruct (sh_timeout s) as [n|] eqn:Et.
        + eapply (local_go cf t [o0; o0]); [|exact Ht]. cbn [app local_run local_step th_code fst snd th_loc th_kind th_defer eval_cond]. rewrite (h_crash _ _ _ _ Hs), Et. cbn [app local_run local_step th_code fst snd th_loc th_kind th_defer]. rewrite ?Et. reflexivity.
        + eapply (local_go cf t [o0]); [|exact Ht]. cbn [app local_run local_step th_code fst snd th_loc th_kind th_defer eval_cond]. rewrite (h_crash _ _ _ _ Hs), Et. reflexivity.
      - unfold s'. destruct Hs. destruct (sh_timeout s); split; auto.
      - assert (Hpm : thp q s (upd ths t (mkThread kd k l d))) by (apply (thp_me q s ths t _ _ Hp Ht); [reflexivity|exact Ha|exact Hk]).
        destruct Hpm as [K1 K2 K3 K4]. unfold s'. destruct (sh_timeout s); (split; [exact K1|exact K2|discriminate|exact K4]).
    Qed.
    Lemma d_start_timer x q (A : locals C -> Prop) : actor q kd -> kd = KClient -> q_timer q = false -> does kd t x x [IIf CConfTimeout [IStartTimer timer_code] []] q (q_set_timer q (cf_timeout cf)) A A.
    Proof.
      intros Ha Hkd Hq k l d s ths Hk [Hs Hp] Ht HA. pose proof (lt_of _ _ _ Ht) as Lt.
      destruct (cf_timeout cf) eqn:Ec.
      - set (th1 := mkThread kd (IStartTimer timer_code :: k) l d).
        assert (G1 : go (mkState s ths) (mkState s (upd ths t th1))).
        { eapply (local_go cf t [o0]); [|exact Ht]. cbn [app local_run local_step th_code fst snd th_loc th_kind th_defer eval_cond]. rewrite (h_crash _ _ _ _ Hs), Ec. reflexivity. }
        assert (E1 : nth_error (upd ths t th1) t = Some th1) by (apply get_upd; exact Lt).
        pose proof (timer_go cf (upd ths t th1) t s kd timer_code k l d E1 (h_crash _ _ _ _ Hs)) as G2. rewrite upd_upd in G2.
        set (th2 := mkThread kd k l d) in *. assert (Ln : length (upd ths t th2) = length ths) by apply upd_length.
        eexists _, _, l. split; [exact (go_trans cf _ _ _ G1 G2)|]. split; [split|].
        + destruct Hs. split; auto.
        + assert (Hpm : thp q s (upd ths t th2)) by (apply (thp_me q s ths t _ _ Hp Ht); [reflexivity|exact Ha|exact Hk]).
          destruct Hpm as [K1 K2 K3 K4]. split.
          * intros Hn. destruct (K1 Hn) as (Hno & m & ln & Hm). split; [exact Hno|]. exists m, ln. rewrite nth_error_app1; [exact Hm|exact (lt_of _ _ _ Hm)].
          * destruct K2 as [K2|(r & y & Hr & lr & Hy)]; [left; exact K2|right]. exists r, y. split; [rewrite nth_error_app1; [exact Hr|exact (lt_of _ _ _ Hr)]|]. exists lr. exact Hy.
          * intros _. exists (length ths), (set_timer locals0 (length (sh_timers s))). split; [rewrite nth_error_app2, Ln, Nat.sub_diag by lia; reflexivity|].
            cbn [l_timer set_timer set_timers sh_timers]. rewrite app_nth2, Nat.sub_diag by lia. reflexivity.
          * apply quiet_app; [exact K4|exact Logic.I].
        + split; [rewrite nth_error_app1 by (rewrite upd_length; exact Lt); apply get_upd; exact Lt|]. split; [exact HA|].
          eapply frame_trans; [apply (frame_me ths t th2)|apply frame_app].
      - assert (K : does kd t x x [IIf CConfTimeout [IStartTimer timer_code] []] (q_set_timer q false) (q_set_timer q false) A A).
        { apply does_if with (b := false); [left; exact Hkd|exact Logic.I|intros; cbn; exact Ec|apply does_nil]. }
        apply (K k l d s ths Hk); [split|exact Ht|exact HA].
        + destruct Hs. split; auto.
        + apply (thp_env q s); auto. cbn. discriminate.
    Qed.

    Lemma d_ready rd q : kd = KClient -> q_run q = NoRun -> st_value (q_status q) = Ready ->
      does kd t (held t, rd) (rw_free, rd) play_ready q (start_seq cf q) (err_is None) (err_is None).
    Proof.
      intros Hkd Hr E. assert (Ha : forall q0, @actor C q0 kd) by (intros; left; exact Hkd). unfold play_ready.
      eapply does_app; [exact Logic.I|eapply does_cons; [exact Logic.I|apply (d_spawn _ q (err_is None)); auto|apply d_unlock; auto]|].
      eapply does_app; [exact Logic.I|apply (send_wait kd t rd (q_runner q AtWait) _ (new_status Running)); [apply Ha|cbn; rewrite E; discriminate|reflexivity|reflexivity]|].
      eapply does_app; [exact Logic.I|apply d_disable; auto|]. eapply does_app; [exact Logic.I|apply d_model; auto|].
      eapply does_weak; [intros l Hl; exact Hl| |apply d_start_timer; auto].
      intros l (_ & l0 & Hl & El). unfold err_is in *. congruence.
    Qed.

    Definition lk (q : seq_st) : rwlock * list nat := (if q_locked q then mkRw HLeaked None [] else rw_free, []).

    Lemma d_play q r q' err : cf_notifier cf = None -> kd = KClient -> (q_run q = NoRun \/ st_value (q_status q) = Running \/ st_value (q_status q) = Idle) ->
      st_value (q_status q) <> Initializing -> q_locked q = false -> play_seq cf r q = Some (q', err) ->
      does kd t F (lk q') (play_call cf) q q' any (err_is err).
    Proof.
      intros Hcf Hkd Hr Hni Hlo H. assert (Ha : forall q0, @actor C q0 kd) by (intros; left; exact Hkd).
      unfold play_call. eapply does_cons; [exact Logic.I|apply (d_err kd t F q None); apply Ha|].
      eapply does_cons; [exact Logic.I|apply (d_lock kd t [] q (err_is None)); apply Ha|].
      unfold play_seq in H.
      assert (KI : st_value (q_status q) = Created \/ st_value (q_status q) = Finished -> q_run q = NoRun ->
        (let (q0, err0) := init_seq r q in match err0 with None | Some ErrAlreadyCreated => Some (start_seq cf q0, None) | Some e => Some (q_lock q0, Some e) end) = Some (q', err) ->
        does kd t (held t, []) (lk q') (play_init cf) q q' (err_is None) (err_is err)).
      { intros Hst Hn H'. unfold play_init. eapply does_app; [exact Logic.I|apply (d_init kd t q r (err_is None) Hcf (Ha q))|].
        assert (X : exists q1, init_seq r q = (q1, option_map ErrImpl (snd r)) /\ q_run q1 = NoRun /\ q_locked q1 = false /\ (snd r = None -> st_value (q_status q1) = Ready)).
        { unfold init_seq. destruct Hst as [E|E]; rewrite E; unfold init_common_seq; destruct (snd r); eexists; (split; [reflexivity|]); repeat split; try exact Hn; try exact Hlo; try discriminate. }
        destruct X as (q1 & Eq & En & El & Es). rewrite Eq in *. cbn [fst snd]. destruct (snd r) as [m|]; cbn [option_map] in *.
        - injection H' as <- <-. eapply does_if with (b := true); [apply Ha|exact Logic.I|intros s l _ Hl; cbn; rewrite Hl; reflexivity|].
          apply (d_leak kd t [] q1 (err_is (Some (ErrImpl m)))). apply Ha.
        - injection H' as <- <-. eapply does_if with (b := false); [apply Ha|exact Logic.I|intros s l _ Hl; cbn; rewrite Hl; reflexivity|].
          eapply does_cons; [exact Logic.I|apply d_err; apply Ha|]. unfold lk. cbn [start_seq q_set_timer q_runner q_set q_locked]. rewrite El. apply d_ready; auto. }
      destruct (st_value (q_status q)) eqn:E; try contradiction.
      - destruct Hr as [Hr|[Hr|Hr]]; try discriminate. dif (Ha q) E false. dif (Ha q) E false. dif (Ha q) E true. apply KI; auto.
      - destruct Hr as [Hr|[Hr|Hr]]; try discriminate. dif (Ha q) E false. dif (Ha q) E false. dif (Ha q) E false. dif (Ha q) E true.
        injection H as <- <-. unfold lk. cbn [start_seq q_set_timer q_runner q_set q_locked]. rewrite Hlo. apply d_ready; auto.
      - dif (Ha q) E false. dif (Ha q) E false. dif (Ha q) E false. dif (Ha q) E false. dif (Ha q) E true. injection H as <- <-.
        eapply does_cons; [exact Logic.I|apply d_unlock; apply Ha|]. unfold lk. rewrite Hlo. apply d_err. apply Ha.
      - dif (Ha q) E true. destruct (q_run q) eqn:Er; try discriminate. injection H as <- <-. eapply does_cons; [exact Logic.I|apply d_unlock; apply Ha|].
        unfold lk. cbn [q_runner q_set q_locked]. rewrite Hlo. eapply does_weak; [intros l Hl; exact Hl| |apply (send_wait kd t [] q _ (new_status Running)); [apply Ha|rewrite E; discriminate|exact Er|reflexivity]].
        intros l (_ & l0 & Hl & El). unfold err_is in *. congruence.
      - destruct Hr as [Hr|[Hr|Hr]]; try discriminate. dif (Ha q) E false. dif (Ha q) E true. apply KI; auto.
    Qed.

    (** Play inside Push. *)
    Lemma d_play_push rd q : kd = KClient -> q_run q = NoRun -> st_value (q_status q) = Ready ->
      does kd t (rw_free, rd) (rw_free, rd) (play_call cf) q (start_seq cf q) any any.
    Proof.
      intros Hkd Hr E. assert (Ha : forall q0, @actor C q0 kd) by (intros; left; exact Hkd).
      unfold play_call. eapply does_cons; [exact Logic.I|apply (d_err kd t _ q None); apply Ha|].
      eapply does_cons; [exact Logic.I|apply (d_lock kd t rd q (err_is None)); apply Ha|].
      dif (Ha q) E false. dif (Ha q) E false. dif (Ha q) E false. dif (Ha q) E true.
      eapply does_weak; [intros l Hl; exact Hl| |apply d_ready; auto]. intros l _. exact Logic.I.
    Qed.
  End Calls.
End Call.
