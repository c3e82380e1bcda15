(** The states at call granularity and the states at statement granularity that stand for them. *)
From Coq Require Import List ZArith Bool Lia.
From Verif Require Import Base.Go Base.Num Model.Status Model.Finish Model.CtrlLang Model.CtrlCode Model.CtrlSeq Spec.SimSpec
  Proofs.GoLemmas Proofs.SimLang Proofs.SimWorld Proofs.SimRun.
Import ListNotations.
Local Open Scope list_scope.

Section Sim.
  Context {C : Type}.
  Variable cf : cconf.
  Notation thread := (thread C).
  Notation shared := (shared C).
  Notation state := (state C).
  Notation seq_st := (seq_st C).
  Notation go := (go cf).
  Notation o0 := (@at_time C 0).

  Definition code_of (x : runner) : list instr :=
    match x with NoRun => [] | AtTest => test_code | AtSelect => select_code | AtWait => recv_code end.
  Definition run_at (x : runner) (s : shared) (th : thread) : Prop :=
    exists l, th = runner_at (code_of x) l /\ l_err l = None /\ l_panic l = None /\ open_ack s.

  (** The shared fields. *)
  Record shs (ls : rwlock) (rd : list nat) (q : seq_st) (s : shared) : Prop := mkShs {
    h_crash : sh_crashed s = false;
    h_status : sh_status s = q_status q;
    h_model : sh_model s = q_model q;
    h_log : unnumbered (sh_log s) = q_log q;
    h_lock_m : sh_lock_m s = mkRw HFree None rd;
    h_lock_s : sh_lock_s s = ls;
    h_ack : sh_ack s < sh_nack s;
    h_closed : forall a, sh_nack s <= a -> mem a (sh_closed s) = false
  }.
  (** The goroutines. *)
  Record thp (q : seq_st) (s : shared) (ths : list thread) : Prop := mkThp {
    t_notif : st_value (q_status q) <> Created -> sh_notif s = true /\ exists n ln, nth_error ths n = Some (nrest ln);
    t_run : q_run q = NoRun \/ exists r th, nth_error ths r = Some th /\ run_at (q_run q) s th;
    t_timer : q_timer q = true -> exists i l, nth_error ths i = Some (mkThread KTimer timer_code l None) /\ nth (l_timer l) (sh_timers s) false = true;
    t_quiet : quiet ths
  }.
  Definition sim ls rd q s ths : Prop := shs ls rd q s /\ thp q s ths.

  Definition mine (k : kind) : Prop := k = KClient \/ k = KTimer.
  Definition actor (q : seq_st) (k : kind) : Prop := k = KClient \/ (k = KTimer /\ q_timer q = false).
  Definition calm (k : list instr) : Prop := match k with ISending _ _ :: _ => False | _ => True end.
  (** The clients other than [o] do not move; nor do the timers, without [o]. *)
  Definition kept (o : option nat) (k : kind) : Prop := k = KClient \/ (o = None /\ k = KTimer).
  Definition frame (o : option nat) (ths ths' : list thread) : Prop :=
    forall i th, o <> Some i -> nth_error ths i = Some th -> kept o (th_kind th) -> nth_error ths' i = Some th.

  Lemma frame_refl o ths : frame o ths ths.
  Proof. intros i th _ H _. exact H. Qed.
  Lemma frame_trans o a b c : frame o a b -> frame o b c -> frame o a c.
  Proof. intros H1 H2 i th Ho Hi Hk. exact (H2 i th Ho (H1 i th Ho Hi Hk) Hk). Qed.
  Lemma frame_none o a b : frame None a b -> frame o a b.
  Proof. intros H i th Ho Hi Hk. apply (H i th); [discriminate|exact Hi|]. destruct Hk as [Hk|[_ Hk]]; [left|right]; auto. Qed.
  Lemma frame_upd ths i th th' : nth_error ths i = Some th -> ~ mine (th_kind th) -> frame None ths (upd ths i th').
  Proof.
    intros Hi Hk j x _ Hj Hx. rewrite nth_error_upd. destruct (Nat.eqb_spec j i) as [->|]; [|exact Hj].
    exfalso. apply Hk. replace th with x by congruence. destruct Hx as [Hx|[_ Hx]]; [left|right]; exact Hx.
  Qed.
  Lemma frame_me ths t th' : frame (Some t) ths (upd ths t th').
  Proof. intros j x Ho Hj Hx. rewrite nth_error_upd. destruct (Nat.eqb_spec j t) as [->|]; [congruence|exact Hj]. Qed.
  Lemma frame_app o ths x : frame o ths (ths ++ [x]).
  Proof. intros j y _ Hj _. rewrite nth_error_app1; [exact Hj|exact (lt_of _ _ _ Hj)]. Qed.
  Lemma not_mine_r : ~ mine KRunner.
  Proof. intros [H|H]; discriminate. Qed.
  Lemma not_mine_n : ~ mine KNotifier.
  Proof. intros [H|H]; discriminate. Qed.

  Lemma kind_neq (ths : list thread) i j a b : nth_error ths i = Some a -> nth_error ths j = Some b -> th_kind a <> th_kind b -> i <> j.
  Proof. intros Hi Hj H ->. congruence. Qed.

  (** The acting goroutine moves. *)
  Lemma thp_me q s ths t th th' : thp q s ths -> nth_error ths t = Some th -> th_kind th' = th_kind th -> actor q (th_kind th) -> calm (th_code th') ->
    thp q s (upd ths t th').
  Proof.
    intros [H1 H2 H3 H4] Ht Hk Ha Hc. assert (Hm : mine (th_kind th)) by (destruct Ha as [->|[-> _]]; [left|right]; reflexivity).
    split.
    - intros Hn. destruct (H1 Hn) as (Hno & n & ln & Hnr). split; [exact Hno|]. exists n, ln. rewrite get_upd_other; [exact Hnr|].
      apply (kind_neq ths t n _ _ Ht Hnr). cbn. destruct Hm as [->| ->]; discriminate.
    - destruct H2 as [H2|(r & x & Hr & Hx)]; [left; exact H2|right]. exists r, x. split; [|exact Hx]. rewrite get_upd_other; [exact Hr|].
      apply (kind_neq ths t r _ _ Ht Hr). destruct Hx as (l & -> & _). cbn. destruct Hm as [->| ->]; discriminate.
    - intros Hq. destruct (H3 Hq) as (i & l & Hi & Hen). exists i, l. split; [|exact Hen]. rewrite get_upd_other; [exact Hi|].
      apply (kind_neq ths t i _ _ Ht Hi). destruct Ha as [->|[_ Ha]]; [discriminate|congruence].
    - apply quiet_upd; [exact H4|]. exact Hc.
  Qed.
  Lemma thp_note q s ths n ln ln' : thp q s ths -> nth_error ths n = Some (nrest ln) -> thp q s (upd ths n (nrest ln')).
  Proof.
    intros [H1 H2 H3 H4] Ht. split.
    - intros Hn. destruct (H1 Hn) as (Hno & _). split; [exact Hno|]. exists n, ln'. apply get_upd. exact (lt_of _ _ _ Ht).
    - destruct H2 as [H2|(r & x & Hr & Hx)]; [left; exact H2|right]. exists r, x. split; [|exact Hx]. rewrite get_upd_other; [exact Hr|].
      apply (kind_neq ths n r _ _ Ht Hr). destruct Hx as (l & -> & _). discriminate.
    - intros Hq. destruct (H3 Hq) as (i & l & Hi & Hen). exists i, l. split; [|exact Hen]. rewrite get_upd_other; [exact Hi|].
      apply (kind_neq ths n i _ _ Ht Hi). discriminate.
    - apply quiet_upd; [exact H4|]. exact Logic.I.
  Qed.
  (** The state and the run goroutine change. *)
  Lemma thp_run q s q' s' ths r th th' : thp q s ths -> nth_error ths r = Some th -> th_kind th = KRunner -> calm (th_code th') ->
    (st_value (q_status q') <> Created -> st_value (q_status q) <> Created) -> q_timer q' = q_timer q ->
    sh_notif s' = sh_notif s -> sh_timers s' = sh_timers s -> (q_run q' = NoRun \/ run_at (q_run q') s' th') ->
    thp q' s' (upd ths r th').
  Proof.
    intros [H1 H2 H3 H4] Ht Hk Hc Hcr Hti Hno Htm Hr. split.
    - intros Hn. destruct (H1 (Hcr Hn)) as (Hno' & n & ln & Hnr). split; [congruence|]. exists n, ln. rewrite get_upd_other; [exact Hnr|].
      apply (kind_neq ths r n _ _ Ht Hnr). rewrite Hk. discriminate.
    - destruct Hr as [Hr|Hr]; [left; exact Hr|right]. exists r, th'. split; [|exact Hr]. apply get_upd. exact (lt_of _ _ _ Ht).
    - rewrite Hti, Htm. intros Hq. destruct (H3 Hq) as (i & l & Hi & Hen). exists i, l. split; [|exact Hen]. rewrite get_upd_other; [exact Hi|].
      apply (kind_neq ths r i _ _ Ht Hi). rewrite Hk. discriminate.
    - apply quiet_upd; [exact H4|]. exact Hc.
  Qed.
  (** The state changes. *)
  Lemma thp_env q s q' s' ths : thp q s ths ->
    (st_value (q_status q') <> Created -> st_value (q_status q) <> Created) -> (q_timer q' = true -> q_timer q = true) ->
    sh_notif s' = sh_notif s -> sh_timers s' = sh_timers s -> q_run q' = q_run q -> sh_ack s' = sh_ack s -> sh_closed s' = sh_closed s ->
    thp q' s' ths.
  Proof.
    intros [H1 H2 H3 H4] Hcr Hti Hno Htm Hr Ha Hc. split.
    - intros Hn. rewrite Hno. exact (H1 (Hcr Hn)).
    - rewrite Hr. destruct H2 as [H2|(r & x & Hx & l & El & E1 & E2 & E3)]; [left; exact H2|right]. exists r, x. split; [exact Hx|]. exists l. unfold open_ack in *. rewrite Ha, Hc. auto.
    - rewrite Htm. intros Hq. exact (H3 (Hti Hq)).
    - exact H4.
  Qed.

  Lemma shs_idle rd q s ths : sim rw_free rd q s ths -> st_value (q_status q) <> Created -> idle rd s.
  Proof. intros [[] []] Hcr. unfold idle. destruct (t_notif0 Hcr). auto. Qed.

  (** A turn of the run goroutine. *)
  Lemma run_slots ls rd q s ths : sim ls rd q s ths -> st_value (q_status q) <> Created -> q_run q <> NoRun ->
    exists r n l ln, r <> n /\ r < length ths /\ n < length ths /\ nth_error ths r = Some (runner_at (code_of (q_run q)) l) /\
      nth_error ths n = Some (nrest ln) /\ l_err l = None /\ l_panic l = None /\ open_ack s.
  Proof.
    intros [_ []] Hcr Hr. destruct (t_notif0 Hcr) as (_ & n & ln & Hn). destruct t_run0 as [E|(r & th & Hth & l & -> & H1 & H2 & H3)]; [contradiction|].
    exists r, n, l, ln. repeat split; auto; [apply (kind_neq _ _ _ _ _ Hth Hn); discriminate|exact (lt_of _ _ _ Hth)|exact (lt_of _ _ _ Hn)].
  Qed.

  Lemma frame_two (ths : list thread) r n th th' ln b : nth_error ths r = Some th -> th_kind th = KRunner -> nth_error ths n = Some (nrest ln) -> r <> n ->
    frame None ths (W2 ths r n th' b).
  Proof.
    intros Hr Hk Hn Hd. unfold W2. eapply frame_trans; [apply (frame_upd ths r th th'); [exact Hr|rewrite Hk; exact not_mine_r]|].
    apply (frame_upd (upd ths r th') n (nrest ln)); [rewrite get_upd_other by exact Hd; exact Hn|exact not_mine_n].
  Qed.
  Lemma mem_cons a b l : mem a (b :: l) = (Nat.eqb a b || mem a l).
  Proof. reflexivity. Qed.
  Lemma shs_close ls rd q s : shs ls rd q s -> shs ls rd q (close_ack s).
  Proof.
    intros []. split; cbn [close_ack sh_crashed sh_status sh_model sh_log sh_lock_m sh_lock_s sh_ack sh_nack sh_closed]; auto.
    intros a Ha. rewrite mem_cons, (h_closed0 a Ha). destruct (Nat.eqb_spec a (sh_ack s)); [lia|reflexivity].
  Qed.
  Lemma shs_stat ls rd q s t v : shs ls rd q s -> shs ls rd (q_set q v) (stat t v s).
  Proof.
    intros []. split; cbn [stat add_log set_status_ sh_crashed sh_status sh_model sh_log sh_lock_m sh_lock_s sh_ack sh_nack sh_closed q_set q_status q_model q_log q_locked unnumbered]; auto.
    f_equal. exact h_log0.
  Qed.
  Lemma shs_upd ls rd q s m : shs ls rd q s -> shs ls rd (q_upd q m) (set_model s m).
  Proof. intros []. split; cbn [set_model sh_crashed sh_status sh_model sh_log sh_lock_m sh_lock_s sh_ack sh_nack sh_closed q_upd q_status q_model q_log q_locked]; auto. Qed.
  Lemma shs_runner ls rd q s x : shs ls rd q s -> shs ls rd (q_runner q x) s.
  Proof. intros []. split; auto. Qed.
  Lemma shs_over r err now q s : shs rw_free [] q s -> shs rw_free [] (end_run err now q) (over r err now s).
  Proof.
    intros H. unfold end_run, over. apply shs_runner.
    assert (X : shs rw_free [] (match err with None => if status_eqb (st_value (q_status q)) Running then q_set q (new_status Ready) else q | Some e => q_set q (new_status_error e) end)
      (match err with None => if status_eqb (st_value (sh_status s)) Running then stat r (new_status Ready) s else s | Some e => stat r (new_status_error e) s end)).
    { destruct err; [apply shs_stat, H|]. rewrite (h_status _ _ _ _ H). destruct (status_eqb _ _); [apply shs_stat, H|exact H]. }
    rewrite (h_model _ _ _ _ X). apply shs_close, shs_upd, X.
  Qed.
  Lemma over_notif (r : nat) err now (s : shared) : sh_notif (over r err now s) = sh_notif s.
  Proof. unfold over. destruct err; [reflexivity|]. destruct (status_eqb _ _); reflexivity. Qed.
  Lemma over_timers (r : nat) err now (s : shared) : sh_timers (over r err now s) = sh_timers s.
  Proof. unfold over. destruct err; [reflexivity|]. destruct (status_eqb _ _); reflexivity. Qed.
  Lemma over_ack (r : nat) err now (s : shared) : sh_closed (over r err now s) = sh_ack s :: sh_closed s.
  Proof. unfold over. destruct err; [reflexivity|]. destruct (status_eqb _ _); reflexivity. Qed.
  Lemma sim_over now q s ths r n l ln : shs rw_free [] q s -> thp (q_runner q NoRun) s ths -> st_value (q_status q) <> Created ->
    nth_error ths r = Some (runner_at (run_end ++ recover_code) l) -> nth_error ths n = Some (nrest ln) -> l_panic l = None -> open_ack s ->
    exists ths', go (mkState s ths) (mkState (over r (l_err l) now s) ths') /\ sim rw_free [] (end_run (l_err l) now q) (over r (l_err l) now s) ths' /\ frame None ths ths'.
  Proof.
    intros Hs Ht Hcr Hr Hn Hp Ha. assert (Hd : r <> n) by (apply (kind_neq _ _ _ _ _ Hr Hn); discriminate).
    assert (Hi : idle [] s). { apply (shs_idle [] (q_runner q NoRun) s ths); [split; [apply shs_runner, Hs|exact Ht]|exact Hcr]. }
    destruct (ended cf ths r n (conj (lt_of _ _ _ Hr) (lt_of _ _ _ Hn)) Hd (t_quiet _ _ _ Ht) now s l ln Hi Ha Hp) as [x Hx].
    rewrite (W2_id ths r n _ _ Hr Hn) in Hx. eexists. split; [exact Hx|]. split.
    - split; [apply shs_over, Hs|]. unfold W2. eapply (thp_note _ _ _ n ln); [|rewrite get_upd_other by exact Hd; exact Hn].
      apply (thp_run (q_runner q NoRun) s _ _ ths r _ _ Ht Hr eq_refl); [exact Logic.I|intros _; exact Hcr| | | |left; reflexivity].
      + unfold end_run. destruct (l_err l); [reflexivity|]. destruct (status_eqb _ _); reflexivity.
      + apply over_notif.
      + apply over_timers.
    - apply (frame_two ths r n _ _ ln _ Hr eq_refl Hn Hd).
  Qed.

  Lemma settle_sim now q s ths : sim rw_free [] q s ths -> q_run q = AtTest -> st_value (q_status q) <> Created ->
    exists s' ths', go (mkState s ths) (mkState s' ths') /\ sim rw_free [] (settle cf now q) s' ths' /\ frame None ths ths'.
  Proof.
    intros Hsim Hr Hcr . destruct (run_slots _ _ _ _ _ Hsim Hcr ltac:(congruence)) as (r & n & l & ln & Hd & Lr & Ln & Er & En & Hle & Hlp & Ha).
    rewrite Hr in Er. cbn [code_of] in Er. pose proof (shs_idle _ _ _ _ Hsim Hcr) as Hi. destruct Hsim as [Hs Ht].
    pose proof (tested cf ths r n (conj Lr Ln) Hd s l ln Hi Hle) as X. rewrite (W2_id ths r n _ _ Er En) in X.
    unfold settle. rewrite Hr. unfold goes, the_model in X. rewrite (h_status _ _ _ _ Hs), (h_model _ _ _ _ Hs) in X. change (mkFinModel (q_status q) (m_figs (q_model q))) with (q_fin q) in X.
    destruct (status_eqb _ _ && negb _) eqn:Eg.
    - eexists _, _. split; [exact X|]. split.
      + split; [apply shs_runner, Hs|]. unfold W2. eapply (thp_note _ _ _ n ln); [|rewrite get_upd_other by exact Hd; exact En].
        apply (thp_run q s _ _ ths r _ _ Ht Er eq_refl); try exact Logic.I; auto. right. eexists. split; [reflexivity|]. auto.
      + apply (frame_two ths r n _ _ ln _ Er eq_refl En Hd).
    - match type of X with SimLang.go _ _ (mkState _ ?V) => set (ths1 := V) in *; assert (F1 : frame None ths ths1) by apply (frame_two ths r n _ _ ln _ Er eq_refl En Hd) end.
      destruct (sim_over now q s ths1 r n (set_go l false) ln) as (ths' & G & S & F); auto.
      + unfold ths1, W2. eapply (thp_note _ _ _ n ln); [|rewrite get_upd_other by exact Hd; exact En].
        apply (thp_run q s _ _ ths r _ _ Ht Er eq_refl); try exact Logic.I; auto.
      + apply G2t; auto.
      + apply G2n; auto.
      + exists (over r (l_err (set_go l false)) now s), ths'. split; [exact (go_trans cf _ _ _ X G)|].
        cbn [l_err set_go] in S. rewrite Hle in S. cbn [l_err set_go]. rewrite Hle. split; [exact S|]. exact (frame_trans _ _ _ _ F1 F).
  Qed.

  Lemma turn_sim x d now q s ths : sim rw_free [] q s ths -> q_run q = AtSelect -> st_value (q_status q) <> Created ->
    exists s' ths', go (mkState s ths) (mkState s' ths') /\ sim rw_free [] (turn cf x d now q) s' ths' /\ frame None ths ths'.
  Proof.
    intros Hsim Hr Hcr . destruct (run_slots _ _ _ _ _ Hsim Hcr ltac:(congruence)) as (r & n & l & ln & Hd & Lr & Ln & Er & En & Hle & Hlp & Ha).
    rewrite Hr in Er. cbn [code_of] in Er. pose proof (shs_idle _ _ _ _ Hsim Hcr) as Hi. destruct Hsim as [Hs Ht].
    pose proof (turned cf ths r n (conj Lr Ln) Hd (t_quiet _ _ _ Ht) x d s l ln Hi) as X. rewrite (W2_id ths r n _ _ Er En) in X.
    match type of X with SimLang.go _ _ (mkState _ ?V) => set (ths1 := V) in *; assert (F1 : frame None ths ths1) by apply (frame_two ths r n _ _ ln _ Er eq_refl En Hd) end.
    unfold turn. rewrite Hr.
    assert (K : forall q1 s1, shs rw_free [] q1 s1 -> go (mkState s ths) (mkState s1 ths1) -> thp q1 s1 ths1 -> q_run q1 = AtTest -> st_value (q_status q1) <> Created  ->
      exists s' ths', go (mkState s ths) (mkState s' ths') /\ sim rw_free [] (settle cf now q1) s' ths' /\ frame None ths ths').
    { intros q1 s1 H1 H2 H3 H4 H5. destruct (settle_sim now q1 s1 ths1 (conj H1 H3) H4 H5) as (s' & ths' & G & S & F).
      exists s', ths'. split; [exact (go_trans cf _ _ _ H2 G)|]. split; [exact S|exact (frame_trans _ _ _ _ F1 F)]. }
    assert (Kn : forall q1 s1, (st_value (q_status q1) <> Created -> st_value (q_status q) <> Created) -> q_timer q1 = q_timer q ->
        sh_notif s1 = sh_notif s -> sh_timers s1 = sh_timers s -> (q_run q1 = NoRun \/ run_at (q_run q1) s1 (turn_thread x l)) -> thp q1 s1 ths1).
    { intros q1 s1 K1 K2 K3 K4 K5. unfold ths1, W2. eapply (thp_note _ _ _ n ln); [|rewrite get_upd_other by exact Hd; exact En].
      apply (thp_run q s _ _ ths r _ _ Ht Er eq_refl); auto. destruct x; exact Logic.I. }
    destruct x as [c f [e|]|m].
    - (* error *)
      pose proof (tested_err cf ths1 r n) as T. unfold ths1 in T. rewrite !W2len in T. specialize (T (conj Lr Ln) Hd s (set_err (set_figs (set_cent (set_got l false) c) f) (Some (ErrImpl e))) ln (ErrImpl e) Hi eq_refl).
      fold ths1 in T. assert (Ex : nth_error ths1 r = Some (runner_at test_code (set_err (set_figs (set_cent (set_got l false) c) f) (Some (ErrImpl e))))) by (apply G2t; auto).
      assert (Ey : nth_error ths1 n = Some (nrest ln)) by (apply G2n; auto). rewrite (W2_id ths1 r n _ _ Ex Ey) in T.
      match type of T with SimLang.go _ _ (mkState _ ?V) => set (ths2 := V) in *; assert (F2 : frame None ths1 ths2) by apply (frame_two ths1 r n _ _ ln _ Ex eq_refl Ey Hd) end.
      assert (Htt : thp (q_runner q NoRun) s ths1) by (apply Kn; auto).
      destruct (sim_over now q s ths2 r n (set_go (set_err (set_figs (set_cent (set_got l false) c) f) (Some (ErrImpl e))) false) ln) as (ths' & G & S & F); auto.
      + unfold ths2, W2. eapply (thp_note _ _ _ n ln); [|rewrite get_upd_other by exact Hd; exact Ey].
        apply (thp_run _ _ _ _ ths1 r _ _ Htt Ex eq_refl); try exact Logic.I; auto.
      + apply G2t; auto. unfold ths1. rewrite W2len. auto.
      + apply G2n; auto. unfold ths1. rewrite W2len. auto.
      + eexists _, ths'. split; [|split; [exact S|exact (frame_trans _ _ _ _ F1 (frame_trans _ _ _ _ F2 F))]].
        assert (X' : go (mkState s ths) (mkState s ths1)) by (destruct c; exact X).
        exact (go_trans cf _ _ _ X' (go_trans cf _ _ _ T G)).
    - destruct c as [c|].
      + apply (K _ (saved c f d s)); auto.
        * unfold saved. apply shs_runner. rewrite (h_model _ _ _ _ Hs). pose proof (shs_upd _ _ _ _ (model_save (q_model q) (Some c) f d) Hs) as [].
          split; cbn [add_log sh_crashed sh_status sh_model sh_log sh_lock_m sh_lock_s sh_ack sh_nack sh_closed q_event q_status q_model q_log q_locked unnumbered]; auto. f_equal. exact h_log0.
        * apply Kn; auto. right. eexists. split; [reflexivity|]. auto.
      + apply (K _ s); auto.
        * apply shs_runner, Hs.
        * apply Kn; auto. right. eexists. split; [reflexivity|]. auto.
    - (* panic *)
      destruct (recovered cf ths1 r n) with (now := now) (s := s) (l := set_panic (set_got l false) (Some (ErrImpl m))) (ln := ln) (d := @None (list instr)) as [y Hy]; auto.
      + unfold ths1. rewrite W2len. auto.
      + apply quiet2; [exact (t_quiet _ _ _ Ht)|exact Logic.I|exact Logic.I].
      + assert (Ex : nth_error ths1 r = Some (mkThread KRunner recover_code (set_panic (set_got l false) (Some (ErrImpl m))) None)) by (apply G2t; auto).
        assert (Ey : nth_error ths1 n = Some (nrest ln)) by (apply G2n; auto). rewrite (W2_id ths1 r n _ _ Ex Ey) in Hy.
        eexists _, _. split; [exact (go_trans cf _ _ _ X Hy)|]. split.
        * split; [exact (shs_over r (Some (ErrImpl m)) now q s Hs)|].
          unfold W2 at 1. eapply (thp_note _ _ _ n ln); [|rewrite get_upd_other by exact Hd; exact Ey].
          assert (Htt : thp (q_runner q NoRun) s ths1) by (apply Kn; auto).
          apply (thp_run _ _ _ _ ths1 r _ _ Htt Ex eq_refl); try exact Logic.I; auto.
        * exact (frame_trans _ _ _ _ F1 (frame_two ths1 r n _ _ ln _ Ex eq_refl Ey Hd)).
  Qed.
End Sim.
