(** The controller with an implementation: simulation by the controller alone, and an induction
    principle for the states of the implementation and of the centroids. *)
From Coq Require Import List ZArith Lia Bool.
From Verif Require Import Base.Go Base.Num Model.Status Model.Finish Model.CtrlLang Model.CtrlCode Model.CtrlSeq Model.System
  Spec.CtrlSpec Spec.CtrlSeqSpec Proofs.CtrlCheck Proofs.CtrlSound Proofs.CtrlMain Proofs.CtrlSeqProofs Proofs.CtrlSeqMain.
Import ListNotations.
Local Open Scope list_scope.

Section Sim.
  Context {E C I D : Type}.
  Variable cf : cconf.
  Variable im : implem E C I D.
  Notation sys_st := (sys_st C I).
  Notation sys_progress := (sys_progress D).

  Lemma advance_sim (p : sys_progress) (s : sys_st) : exists l, fst (sys_advance cf im p s) = fold_left (fun q p => advance cf p q) l (fst s).
  Proof.
    destruct s as [q i]. destruct p as [d duration now|now]; cbn [sys_advance].
    - destruct (q_run q); try (exists []; reflexivity). destruct (im_iterate im d i (m_centroids (q_model q))) as [i' r].
      exists [PTurn r duration now]. reflexivity.
    - exists [PTimer now]. reflexivity.
  Qed.
  Lemma advances_sim l (s : sys_st) : exists l', fst (sys_advances cf im l s) = fold_left (fun q p => advance cf p q) l' (fst s).
  Proof.
    revert s. induction l as [|p l IH]; intros s; [exists []; reflexivity|]. cbn [sys_advances fold_left].
    destruct (advance_sim p s) as [l1 H1]. destruct (IH (sys_advance cf im p s)) as [l2 H2]. exists (l1 ++ l2).
    unfold sys_advances in H2. rewrite H2, H1, fold_left_app. reflexivity.
  Qed.

  Lemma wait_sim f d start ps (s s' : sys_st) e : sys_wait cf im f d start ps s = Some (s', e) ->
    exists ps', wait_seq cf f d start ps' (fst s) = Some (fst s', e).
  Proof.
    unfold sys_wait, wait_seq. destruct (st_value (q_status (fst s))); try (intros [= <- <-]; exists []; reflexivity).
    destruct (never_finish cf f d); [intros [= <- <-]; exists []; reflexivity|].
    unfold wait_timeout. generalize (start + d)%Z as deadline. intros deadline. revert s. induction ps as [|[now p] ps IH]; intros s; [discriminate|].
    cbn [wait_loop]. destruct (advances_sim p s) as [l Hl]. intros H.
    destruct (is_finished (wait_finishing f) (q_fin (fst s))) eqn:F.
    { injection H as <- <-. exists [(now, l)]. cbn [wait_loop]. rewrite F, <- Hl. reflexivity. }
    destruct ((0 <? d)%Z && (deadline <? now)%Z) eqn:T.
    { injection H as <- <-. exists [(now, l)]. cbn [wait_loop]. rewrite F, T, <- Hl. reflexivity. }
    destruct (IH _ H) as [ps' Hp]. exists ((now, l) :: ps'). cbn [wait_loop]. rewrite F, T, <- Hl. exact Hp.
  Qed.

  Definition ask (r : option C * option nat) (p : option nat) (now fin : Z) (mid : list (progress C)) (ps : list (Z * list (progress C))) : answers C :=
    mkAnswers r p now fin mid ps.

  Lemma play_sim d (s s' : sys_st) e : sys_play cf im d s = Some (s', e) -> exists r, play_seq cf r (fst s) = Some (fst s', e).
  Proof.
    unfold sys_play. destruct (impl_result im d s) as [[i r]|]; [|discriminate]. destruct (play_seq cf r (fst s)) as [[q e']|] eqn:P; [|discriminate].
    intros [= <- <-]. exists r. exact P.
  Qed.

  Lemma batch_sim d start now mid ps (s s' : sys_st) e : sys_batch cf im d start now mid ps s = Some (s', e) ->
    exists r mid' ps', batch_seq cf r start now mid' ps' (fst s) = Some (fst s', e).
  Proof.
    unfold sys_batch, batch_seq. destruct (interrupt None now (fst s)) as [[q1 e1]|]; [|discriminate].
    destruct (sys_play cf im d (settle cf now q1, snd s)) as [[s2 e2]|] eqn:P; [|discriminate].
    destruct (play_sim _ _ _ _ P) as [r Hr]. cbn [fst] in Hr.
    destruct e2 as [e2|]; [intros [= <- <-]; exists r, [], []; rewrite Hr; reflexivity|].
    destruct (sys_wait cf im None 0 start ps (sys_advances cf im mid (settle cf now (fst s2), snd s2))) as [[s3 e3]|] eqn:W; [|discriminate].
    destruct (wait_sim _ _ _ _ _ _ _ W) as [ps' Hw]. destruct (advances_sim mid (settle cf now (fst s2), snd s2)) as [mid' Hm].
    cbn [fst] in Hm. intros H. exists r, mid', ps'. rewrite Hr, <- Hm, Hw. destruct e3 as [e3|]; [injection H as <- <-; reflexivity|].
    destruct (interrupt None now (fst s3)) as [[q4 e4]|]; [injection H as <- <-; reflexivity|discriminate].
  Qed.

  Definition plain_of (c : sys_call E D) : dcall :=
    match c with
    | YInit _ => DInit | YPlay _ => DPlay | YPause => DPause | YStop => DStop | YWait f d _ _ => DWait f d
    | YPush _ _ => DPush | YBatch _ _ _ _ => DBatch
    end.

  Lemma do_sim c now (s s' : sys_st) e : sys_do cf im c now s = Some (s', e) ->
    exists a, a_end a = now /\ call_seq cf (plain_of c) a (fst s) = Some (fst s', e).
  Proof.
    unfold sys_do, call_seq. destruct (q_locked (fst s)); [discriminate|].
    destruct c as [d|d| | |f d start ps|x n|d start mid ps]; cbn [plain_of].
    - unfold sys_init. destruct (impl_result im d s) as [[i r]|]; [|discriminate]. destruct (init_seq r (fst s)) as [q e'] eqn:Q. intros [= <- <-].
      exists (ask r None 0 now [] []). cbn. rewrite Q. auto.
    - intros H. destruct (play_sim _ _ _ _ H) as [r Hr]. exists (ask r None 0 now [] []). auto.
    - unfold lift. destruct (pause_seq (fst s)) as [[q e']|]; [|discriminate]. intros [= <- <-]. exists (ask (None, None) None 0 now [] []). auto.
    - unfold lift. destruct (interrupt None now (fst s)) as [[q e']|] eqn:Q; [|discriminate]. intros [= <- <-]. exists (ask (None, None) None 0 now [] []). auto.
    - intros H. destruct (wait_sim _ _ _ _ _ _ _ H) as [ps' Hw]. exists (ask (None, None) None start now [] ps'). auto.
    - unfold sys_push, lift. destruct s as [q i]. cbn [fst]. destruct (im_push im i x (st_alive (q_status q))) as [[i' err]|]; [|discriminate].
      destruct (push_seq cf err (None, None) n q) as [[q' e']|] eqn:Q; [|discriminate]. intros [= <- <-]. exists (ask (None, None) err n now [] []). auto.
    - intros H. destruct (batch_sim _ _ _ _ _ _ _ _ H) as (r & mid' & ps' & Hb). exists (ask r None start now mid' ps'). auto.
  Qed.

  Lemma acts_app xs : forall ys (q : seq_st C), acts cf (xs ++ ys) q = match acts cf xs q with None => None | Some q' => acts cf ys q' end.
  Proof. induction xs as [|x xs IH]; intros ys q; [reflexivity|]. cbn. destruct (act cf x q); [apply IH|reflexivity]. Qed.
  Lemma acts_progress l : forall q : seq_st C, acts cf (map (@AProgress C) l) q = Some (fold_left (fun q p => advance cf p q) l q).
  Proof. induction l as [|p l IH]; intros q; [reflexivity|]. cbn. apply IH. Qed.

  Lemma act_sim x (s s' : sys_st) : sys_act cf im x s = Some s' -> exists ys, acts cf ys (fst s) = Some (fst s').
  Proof.
    destruct x as [c now|p]; cbn [sys_act].
    - destruct (sys_do cf im c now s) as [[[q i] e]|] eqn:H; [|discriminate]. intros [= <-].
      destruct (do_sim _ now _ _ _ H) as (a & Ha & Hc). cbn [fst] in *. exists [ACall (plain_of c) a]. cbn [acts act].
      rewrite Hc, Ha. destruct c; reflexivity.
    - intros [= <-]. destruct (advance_sim p s) as [l Hl]. exists (map (@AProgress C) l). rewrite acts_progress, <- Hl. reflexivity.
  Qed.
  Lemma acts_sim xs : forall (s s' : sys_st), sys_acts cf im xs s = Some s' -> exists ys, acts cf ys (fst s) = Some (fst s').
  Proof.
    induction xs as [|x xs IH]; intros s s'; cbn [sys_acts]; [intros [= <-]; exists []; reflexivity|].
    destruct (sys_act cf im x s) as [s1|] eqn:H; [|discriminate]. intros H2.
    destruct (act_sim _ _ _ H) as [y1 Y1]. destruct (IH _ _ H2) as [y2 Y2]. exists (y1 ++ y2). rewrite acts_app, Y1. exact Y2.
  Qed.
  Lemma sys_reachable xs i s' : sys_acts cf im xs (seq0, i) = Some s' -> seq_reachable cf (fst s').
  Proof. intros H. exact (acts_sim _ _ _ H). Qed.
End Sim.

(** ** Induction *)
Section Inv.
  Context {E C I D : Type}.
  Variable cf : cconf.
  Variable im : implem E C I D.
  Notation sys_st := (sys_st C I).
  Variable P : E -> Prop.
  (** What holds of history, centroids and implementation when the status is alive, or not. *)
  Variables JA JD : list (event C) -> option C -> I -> Prop.

  Definition neutral (e : event C) : Prop := match e with EvStatus _ _ | EvReturn _ _ | EvReset => True | _ => False end.
  Record preserved : Prop := mkPreserved {
    pr_neutral : forall e log c i, neutral e -> (JA log c i -> JA (e :: log) c i) /\ (JD log c i -> JD (e :: log) c i);
    pr_dead : forall log c i, JA log c i -> JD log c i;
    pr_iterate : forall d log c i i' r, JA log c i -> im_iterate im d i c = (i', r) ->
      match r with
      | IterRes (Some c') f None => JA (EvSaved (Some c') f :: log) (Some c') i'
      | IterRes None _ None => JA log c i'
      | _ => JD log c i'
      end;
    pr_init : forall d log c i i' c' e, JD log c i -> im_init im d i = Some (i', (c', e)) ->
      match e with None => JA log c' i' | Some _ => JD log c' i' end;
    pr_push : forall x log c i i' err, P x ->
      (JA log c i -> im_push im i x true = Some (i', err) -> JA (match err with None => EvPushed :: log | Some _ => log end) c i') /\
      (JD log c i -> im_push im i x false = Some (i', err) -> JD (match err with None => EvPushed :: log | Some _ => log end) c i')
  }.

  Definition holds_in (q : seq_st C) (i : I) : Prop :=
    (if st_alive (q_status q) then JA else JD) (q_log q) (m_centroids (q_model q)) i.

  Hypothesis pr : preserved.

  Lemma alive_cases v : st_alive v = true <-> st_value v = Ready \/ st_value v = Running \/ st_value v = Idle.
  Proof. unfold st_alive, st_running. destruct (st_value v); cbn; split; intros H; auto; try discriminate; destruct H as [H|[H|H]]; discriminate. Qed.

  Lemma inv_set q i v : holds_in q i -> st_alive v = st_alive (q_status q) \/ st_alive v = false -> holds_in (q_set q v) i.
  Proof.
    unfold holds_in. cbn [q_set q_status q_log q_model]. intros H [->| ->].
    - destruct (st_alive (q_status q)); apply (pr_neutral pr); auto; exact Logic.I.
    - apply (pr_neutral pr); [exact Logic.I|]. destruct (st_alive (q_status q)); [apply (pr_dead pr)|]; exact H.
  Qed.
  Lemma inv_end q i err now : holds_in q i -> holds_in (end_run err now q) i.
  Proof.
    intros H. unfold end_run. destruct err as [e|].
    - exact (inv_set q i (new_status_error e) H (or_intror eq_refl)).
    - destruct (status_eqb (st_value (q_status q)) Running) eqn:S; [|exact H].
      apply status_eqb_eq in S. apply (inv_set q i (new_status Ready) H). left. symmetry. apply alive_cases. auto.
  Qed.
  Lemma inv_settle q i now : holds_in q i -> holds_in (settle cf now q) i.
  Proof.
    intros H. unfold settle. destruct (q_run q); try exact H. destruct (_ && _); [exact H|]. apply inv_end. exact H.
  Qed.
  Lemma inv_interrupt q i e now q' e' : holds_in q i -> interrupt e now q = Some (q', e') -> holds_in q' i.
  Proof.
    intros H. assert (F : holds_in (q_set q (mkStatus Finished e)) i) by (apply inv_set; [exact H|right; reflexivity]).
    unfold interrupt. destruct (st_value (q_status q)), (q_run q); try discriminate; intros [= <- _]; try exact H; exact F.
  Qed.

  Lemma inv_fail (q : seq_st C) i e now : JD (q_log q) (m_centroids (q_model q)) i -> holds_in (end_run (Some e) now q) i.
  Proof. intros H. unfold holds_in. cbn. apply (pr_neutral pr); [exact Logic.I|exact H]. Qed.

  Lemma inv_advance (p : sys_progress D) (s : sys_st) : rest cf (fst s) -> holds_in (fst s) (snd s) ->
    rest cf (fst (sys_advance cf im p s)) /\ holds_in (fst (sys_advance cf im p s)) (snd (sys_advance cf im p s)).
  Proof.
    intros Hq H. split.
    { destruct (advance_sim cf im p s) as [l ->]. apply advances_rest. exact Hq. }
    destruct s as [q i]. cbn [fst snd] in *. destruct p as [d duration now|now]; cbn [sys_advance].
    - destruct (q_run q) eqn:R; try exact H. destruct (im_iterate im d i (m_centroids (q_model q))) as [i' r] eqn:It.
      cbn [fst snd advance]. unfold turn. rewrite R.
      assert (Sv : st_value (q_status q) = Running).
      { destruct (rest_run cf q Hq) as [(X & _)|[(_ & X)|(X & _)]]; [congruence|exact X|congruence]. }
      assert (A : st_alive (q_status q) = true) by (apply alive_cases; auto).
      unfold holds_in in H. rewrite A in H. pose proof (pr_iterate pr _ _ _ _ _ _ H It) as Hi.
      destruct r as [[c'|] f [n|]|n]; try (apply inv_fail; exact Hi).
      + apply inv_settle. unfold holds_in. cbn. rewrite A. exact Hi.
      + apply inv_settle. unfold holds_in. cbn. rewrite A. exact Hi.
    - cbn [advance fst snd]. destruct (q_timer q); [|exact H]. cbn [q_set_timer q_locked].
      destruct (q_locked q); [exact H|].
      destruct (interrupt (Some ErrTimeout) now (q_set_timer q false)) as [[q' e]|] eqn:Q; [|exact H].
      apply inv_settle. apply (inv_interrupt (q_set_timer q false) i _ _ _ _ H Q).
  Qed.
  Lemma inv_advances l : forall s : sys_st, rest cf (fst s) -> holds_in (fst s) (snd s) ->
    rest cf (fst (sys_advances cf im l s)) /\ holds_in (fst (sys_advances cf im l s)) (snd (sys_advances cf im l s)).
  Proof.
    induction l as [|p l IH]; intros s Hq H; [auto|]. cbn [sys_advances fold_left].
    destruct (inv_advance p s Hq H) as [H1 H2]. apply (IH _ H1 H2).
  Qed.
  Lemma inv_wait f d start ps (s s' : sys_st) e : rest cf (fst s) -> holds_in (fst s) (snd s) ->
    sys_wait cf im f d start ps s = Some (s', e) -> rest cf (fst s') /\ holds_in (fst s') (snd s').
  Proof.
    intros Hq H. unfold sys_wait. destruct (st_value (q_status (fst s))); try (intros [= <- _]; auto).
    destruct (never_finish cf f d); [intros [= <- _]; auto|]. unfold wait_timeout. generalize (start + d)%Z as deadline. intros deadline.
    revert s Hq H. induction ps as [|[now p] ps IH]; intros s Hq H; [discriminate|]. cbn [wait_loop].
    destruct (inv_advances p s Hq H) as [H1 H2].
    destruct (is_finished (wait_finishing f) (q_fin (fst s))); [intros [= <- _]; auto|].
    destruct ((0 <? d)%Z && (deadline <? now)%Z); [intros [= <- _]; auto|]. apply IH; assumption.
  Qed.

  Lemma inv_init d (q : seq_st C) i i' r : holds_in q i -> impl_result im d (q, i) = Some (i', r) ->
    holds_in (fst (init_seq r q)) i'.
  Proof.
    unfold impl_result, inits, init_seq. cbn [fst snd]. intros H.
    destruct (st_value (q_status q)) eqn:S; try (intros [= <- <-]; exact H).
    - assert (A : st_alive (q_status q) = false) by (unfold st_alive, st_running; rewrite S; reflexivity).
      unfold holds_in in H. rewrite A in H.
      intros Hi. destruct r as [c' e]. pose proof (pr_init pr _ _ _ _ _ _ _ H Hi) as Hr. unfold init_common_seq. cbn [fst snd].
      destruct e as [n|]; cbn [fst]; unfold holds_in; cbn; repeat (apply (pr_neutral pr); [exact Logic.I|]); exact Hr.
    - assert (A : st_alive (q_status q) = false) by (unfold st_alive, st_running; rewrite S; reflexivity).
      unfold holds_in in H. rewrite A in H.
      intros Hi. destruct r as [c' e]. pose proof (pr_init pr _ _ _ _ _ _ _ H Hi) as Hr. unfold init_common_seq. cbn [fst snd].
      destruct e as [n|]; cbn [fst]; unfold holds_in; cbn; repeat (apply (pr_neutral pr); [exact Logic.I|]); exact Hr.
  Qed.
  Lemma inv_start q i : holds_in q i -> st_value (q_status q) = Ready -> holds_in (start_seq cf q) i.
  Proof. intros H S. apply (inv_set q i (new_status Running) H). left. symmetry. apply alive_cases. auto. Qed.
  Lemma inv_play d (s s' : sys_st) e : rest cf (fst s) -> holds_in (fst s) (snd s) -> sys_play cf im d s = Some (s', e) -> holds_in (fst s') (snd s').
  Proof.
    destruct s as [q i]. cbn [fst snd]. intros Hq H. unfold sys_play. destruct (impl_result im d (q, i)) as [[i' r]|] eqn:Ir; [|discriminate].
    pose proof (inv_init _ _ _ _ _ H Ir) as Hi. cbn [fst]. unfold play_seq.
    pose proof (init_result r q) as Hres.
    assert (Hni : st_value (q_status q) <> Initializing) by (intros X; destruct (rest_run cf q Hq) as [(_ & [Y|[Y|Y]])|[(_ & Y)|(_ & Y)]]; congruence).
    assert (Hsame : inits q = false -> i' = i).
    { intros Hn. unfold impl_result in Ir. cbn [fst snd] in Ir. rewrite Hn in Ir. congruence. }
    unfold inits in Hsame. destruct (init_seq r q) as [q0 err]. cbn [fst snd] in *.
    destruct (st_value (q_status q)) eqn:S; try (rewrite (Hsame eq_refl) in *).
    - destruct (Hres (or_introl eq_refl)) as (H1 & _). destruct (snd r); destruct H1 as [-> H1]; intros [= <- _]; [exact Hi|].
      apply inv_start; [exact Hi|rewrite H1; reflexivity].
    - contradiction.
    - intros [= <- _]. apply inv_start; assumption.
    - intros [= <- _]. exact H.
    - destruct (q_run q); try discriminate. intros [= <- _].
      apply (inv_set q i (new_status Running) H). left. symmetry. apply alive_cases. auto.
    - destruct (Hres (or_intror eq_refl)) as (H1 & _). destruct (snd r); destruct H1 as [-> H1]; intros [= <- _]; [exact Hi|].
      apply inv_start; [exact Hi|rewrite H1; reflexivity].
  Qed.

  Definition call_ok (c : sys_call E D) : Prop := match c with YPush x _ => P x | _ => True end.
  Definition action_ok (x : sys_action E D) : Prop := match x with YCall c _ => call_ok c | YProgress _ => True end.

  Lemma inv_push x now (s s' : sys_st) e : rest cf (fst s) -> holds_in (fst s) (snd s) -> P x -> sys_push cf im x now s = Some (s', e) ->
    holds_in (fst s') (snd s').
  Proof.
    destruct s as [q i]. cbn [fst snd]. intros Hq H HP. unfold sys_push.
    destruct (im_push im i x (st_alive (q_status q))) as [[i' err]|] eqn:Hp; [|discriminate]. unfold lift.
    destruct (pr_push pr x (q_log q) (m_centroids (q_model q)) i i' err HP) as [HA HD].
    destruct err as [n|].
    - cbn. intros [= <- _]. cbn [fst snd]. unfold holds_in in *. destruct (st_alive (q_status q)); auto.
    - rewrite push_eq by apply (c_pos _ _ (proj1 (proj1 Hq))).
      assert (Hd : holds_in (pushed cf now q) i') by (unfold holds_in in *; cbn; destruct (st_alive (q_status q)); auto).
      destruct (starts cf q) eqn:S; intros [= <- _]; [|exact Hd].
      apply inv_start; [exact Hd|]. unfold starts in S. apply andb_true_iff in S. destruct S as [S _].
      apply andb_true_iff in S. destruct S as [S _]. apply status_eqb_eq in S. exact S.
  Qed.

  Lemma inv_batch d start now mid ps (s s' : sys_st) e : rest cf (fst s) -> q_locked (fst s) = false -> holds_in (fst s) (snd s) ->
    sys_batch cf im d start now mid ps s = Some (s', e) -> holds_in (fst s') (snd s').
  Proof.
    destruct s as [q i]. cbn [fst snd]. intros Hq U H. unfold sys_batch. cbn [fst snd].
    destruct (interrupt_sound cf None now q Hq U) as (q1 & e1 & Hi & S1). rewrite Hi.
    pose proof (inv_settle _ _ now (inv_interrupt q i None now _ _ H Hi)) as H1. pose proof (settle_rest cf now q1 S1) as R1.
    destruct (sys_play cf im d (settle cf now q1, i)) as [[s2 e2]|] eqn:Hp; [|discriminate].
    pose proof (inv_play d (settle cf now q1, i) s2 e2 R1 H1 Hp) as H2.
    destruct e2 as [e2|]; [intros [= <- _]; exact H2|].
    assert (S2 : sound cf false (fst s2)).
    { destruct (play_sim _ _ _ _ _ _ Hp) as [r Hr]. cbn [fst] in Hr.
      assert (U1 : q_locked (settle cf now q1) = false).
      { clear -Hi U. unfold interrupt in Hi. destruct (st_value (q_status q)), (q_run q) eqn:R; try discriminate; injection Hi as <- _;
          unfold settle; cbn; rewrite ?R; try exact U; unfold end_run; cbn; repeat (destruct (_ && _)); cbn; try exact U;
          destruct (status_eqb _ _); exact U. }
      destruct (play_sound cf r _ R1 U1) as (q' & e' & Hr' & Hs). rewrite Hr in Hr'. injection Hr' as <- _. exact Hs. }
    pose proof (inv_advances mid (settle cf now (fst s2), snd s2) (settle_rest cf now _ S2) (inv_settle _ _ now H2)) as [R3 H3].
    destruct (sys_wait cf im None 0 start ps _) as [[s3 e3]|] eqn:W; [|discriminate].
    destruct (inv_wait _ _ _ _ _ _ _ R3 H3 W) as [R4 H4].
    destruct e3 as [e3|]; [intros [= <- _]; exact H4|].
    destruct (interrupt None now (fst s3)) as [[q5 e5]|] eqn:I5; [|discriminate]. intros [= <- _]. cbn [fst snd].
    apply (inv_interrupt _ _ _ _ _ _ H4 I5).
  Qed.

  Lemma inv_act x (s s' : sys_st) : action_ok x -> seq_reachable cf (fst s) -> holds_in (fst s) (snd s) -> sys_act cf im x s = Some s' ->
    holds_in (fst s') (snd s').
  Proof.
    intros Hx Hr H. pose proof (reach_rest cf _ Hr) as Hq. destruct x as [c now|p]; cbn [sys_act].
    - destruct (sys_do cf im c now s) as [[[q i] e]|] eqn:Hd; [|discriminate]. intros [= <-]. cbn [fst snd].
      apply inv_settle. assert (Hc : holds_in q i); [|unfold holds_in in *; cbn; destruct (st_alive (q_status q)); apply (pr_neutral pr); auto; exact Logic.I].
      unfold sys_do in Hd. destruct (q_locked (fst s)) eqn:U; [discriminate|].
      destruct c as [d|d| | |f d start ps|x n|d start mid ps].
      + unfold sys_init in Hd. destruct (impl_result im d s) as [[i' r]|] eqn:Ir; [|discriminate]. destruct s as [q0 i0]. cbn [fst snd] in *.
        pose proof (inv_init _ _ _ _ _ H Ir) as Hi. destruct (init_seq r q0) as [q1 e1]. injection Hd as <- <- _. exact Hi.
      + exact (inv_play d s (q, i) e Hq H Hd).
      + unfold lift in Hd. destruct (pause_seq (fst s)) as [[q1 e1]|] eqn:Pq; [|discriminate]. injection Hd as <- <- _.
        unfold pause_seq in Pq. destruct (st_value (q_status (fst s))) eqn:Sv; try (injection Pq as <- _; exact H).
        destruct (q_run (fst s)); try discriminate. injection Pq as <- _.
        apply (inv_set (fst s) (snd s) (new_status Idle) H). left. symmetry. apply alive_cases. auto.
      + unfold lift in Hd. destruct (interrupt None now (fst s)) as [[q1 e1]|] eqn:Pq; [|discriminate]. injection Hd as <- <- _.
        apply (inv_interrupt _ _ _ _ _ _ H Pq).
      + apply (inv_wait f d start ps s (q, i) e Hq H Hd).
      + apply (inv_push x n s (q, i) e Hq H Hx Hd).
      + apply (inv_batch d start now mid ps s (q, i) e Hq U H Hd).
    - intros [= <-]. apply inv_advance; assumption.
  Qed.

  Lemma sys_invariant xs i0 s' : JD [] None i0 -> Forall action_ok xs -> sys_acts cf im xs (seq0, i0) = Some s' -> holds_in (fst s') (snd s').
  Proof.
    intros H0 Hok.
    assert (Hgen : forall xs (s : sys_st), Forall action_ok xs -> seq_reachable cf (fst s) -> holds_in (fst s) (snd s) ->
      sys_acts cf im xs s = Some s' -> holds_in (fst s') (snd s')).
    { clear xs Hok. induction xs as [|x xs IH]; intros s Hok Hr H; cbn [sys_acts]; [intros [= <-]; exact H|].
      inversion Hok as [|? ? Hx Hxs]; subst. destruct (sys_act cf im x s) as [s1|] eqn:Ha; [|discriminate].
      apply IH; [exact Hxs| |apply (inv_act x s s1 Hx Hr H Ha)].
      destruct Hr as [ys Hys]. destruct (act_sim _ _ _ _ _ Ha) as [zs Hzs]. exists (ys ++ zs). rewrite acts_app, Hys. exact Hzs. }
    intros H. apply (Hgen xs (seq0, i0)); auto. exists []. reflexivity.
  Qed.
End Inv.
