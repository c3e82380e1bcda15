(** Batch of the controller with an implementation whose iterations do not fail. *)
From Coq Require Import List ZArith Lia Bool.
From Verif Require Import Base.Go Base.Num Model.Status Model.Finish Model.CtrlLang Model.CtrlCode Model.CtrlSeq Model.System
  Spec.CtrlSpec Spec.CtrlSeqSpec Spec.SystemSpec Proofs.CtrlCheck Proofs.CtrlSound Proofs.CtrlMain Proofs.CtrlSeqProofs Proofs.CtrlSeqMain
  Proofs.SystemProofs.
Import ListNotations.
Local Open Scope list_scope.

Section Batch.
  Context {E C I D : Type}.
  Variable cf : cconf.
  Variable im : implem E C I D.
  Notation sys_st := (sys_st C I).
  Notation seq_st := (seq_st C).

  (** What Batch does before the run starts. *)
  Lemma batch_start (q : seq_st) now n r : seq_reachable cf q -> q_locked q = false ->
    n = (if status_eqb (st_value (q_status q)) Created then pushes (q_log q) else 0%Z) ->
    exists q1 e1, interrupt None now q = Some (q1, e1) /\ inits (settle cf now q1) = true /\
      exists q0, m_centroids (q_model q0) = fst r /\
        match snd r with
        | Some m => play_seq cf r (settle cf now q1) = Some (q_lock q0, Some (ErrImpl m)) /\ q_status q0 = new_status_error (ErrImpl m)
        | None => play_seq cf r (settle cf now q1) = Some (start_seq cf q0, None) /\
                  core false q0 /\ rest cf (settle cf now (start_seq cf q0)) /\ pushes (q_log q0) = n /\ iterations_saved (q_log q0) = 0%Z
        end.
  Proof.
    intros H U En. pose proof (reach_rest cf q H) as Hq.
    destruct (interrupt_sound cf None now q Hq U) as (q1 & e1 & E1 & S1).
    destruct (stop_status _ _ _ _ _ Hq E1) as (C1 & C2 & C3 & C4 & C5).
    pose proof (settle_rest cf now q1 S1) as R1.
    assert (U1 : q_locked (settle cf now q1) = false) by (rewrite settle_lock, (interrupt_lock _ _ _ _ _ E1); exact U).
    assert (St : q_status (settle cf now q1) = q_status q1).
    { unfold settle. destruct (q_run q1) eqn:X; try reflexivity.
      destruct (status_eqb (st_value (q_status q)) Created) eqn:Y.
      - apply status_eqb_eq in Y. rewrite (C3 Y) in X. destruct Hq as [_ Hq]. contradiction.
      - assert (Z1 : st_value (q_status q1) = Finished).
        { apply C5. intros Z1. rewrite Z1 in Y. discriminate. }
        rewrite Z1. cbn [status_eqb andb]. unfold end_run. rewrite Z1. reflexivity. }
    exists q1, e1. split; [exact E1|]. set (q1' := settle cf now q1) in *.
    destruct (settle_counts cf now q1) as (D1 & D2 & _). fold q1' in D1, D2.
    assert (Hc : (st_value (q_status q) = Created /\ st_value (q_status q1') = Created /\ q1 = q) \/
                 (status_eqb (st_value (q_status q)) Created = false /\ st_value (q_status q1') = Finished)).
    { rewrite St. destruct (status_eqb (st_value (q_status q)) Created) eqn:Y.
      - apply status_eqb_eq in Y. left. rewrite (C3 Y). auto.
      - right. split; [reflexivity|]. apply C5. intros Z1. rewrite Z1 in Y. discriminate. }
    split; [unfold inits; destruct Hc as [(_ & -> & _)|(_ & ->)]; reflexivity|].
    exists (fst (init_seq r q1')).
    destruct (init_result r q1') as (I1 & I2 & I3 & I4); [destruct Hc as [(_ & X & _)|(_ & X)]; auto|].
    split; [exact I4|]. pose proof (init_sound cf r q1' R1 U1) as Si.
    assert (Hplay : play_seq cf r q1' = let (q, err) := init_seq r q1' in
        match err with None | Some ErrAlreadyCreated => Some (start_seq cf q, None) | Some e => Some (q_lock q, Some e) end).
    { unfold play_seq. destruct Hc as [(_ & X & _)|(_ & X)]; rewrite X; destruct (q_run q1'); reflexivity. }
    rewrite Hplay. destruct (snd r) as [m|] eqn:Em.
    - destruct I1 as [I1 I1']. destruct (init_seq r q1') as [q2 e2]. cbn [fst snd] in *. subst e2. auto.
    - destruct I1 as [I1 I1']. destruct (play_sound cf r q1' R1 U1) as (q2 & e2 & E2 & S2). rewrite Hplay in E2.
      destruct (init_seq r q1') as [q3 e3] eqn:Eq. cbn [fst snd] in *. subst e3. injection E2 as <- <-.
      split; [reflexivity|]. split; [apply Si|]. split; [apply settle_rest; exact S2|].
      unfold init_seq, init_common_seq in Eq. rewrite Em in Eq.
      destruct Hc as [(Y & X & Y')|(Y & X)]; rewrite X in Eq; injection Eq as <-; cbn [q_set q_upd q_event q_log];
        rewrite !(proj1 (counts_status _ _ _)), !(proj2 (counts_status _ _ _)).
      + rewrite D1, D2, C1, C2. rewrite Y in En. split; [symmetry; exact En|]. apply (created_fresh cf q H Y).
      + rewrite Y in En. rewrite En. split; reflexivity.
  Qed.

  Section Run.
    Variable n : Z.
    Hypothesis HB : only_budget cf.
    Hypothesis HT : cf_timeout cf = false.
    Hypothesis Hn : (n <= 2 ^ 53)%Z.
    Hypothesis Hb : (budget cf n <= 2 ^ 53)%Z.
    (** What is known after [j] iterations. *)
    Variable W : nat -> C -> I -> Prop.
    Hypothesis HW : forall j c i d, W j c i -> exists i' c' f, im_iterate im d i (Some c) = (i', IterRes (Some c') f None) /\ W (S j) c' i'.

    Definition bat (s : sys_st) (j : nat) : Prop :=
      rest cf (fst s) /\ q_timer (fst s) = false /\ q_locked (fst s) = false /\ pushes (q_log (fst s)) = n /\
      iterations_saved (q_log (fst s)) = Z.of_nat j /\
      (exists c, m_centroids (q_model (fst s)) = Some c /\ W j c (snd s)) /\
      ((q_status (fst s) = new_status Running /\ (Z.of_nat j < budget cf n)%Z) \/
       (q_status (fst s) = new_status Ready /\ Z.of_nat j = budget cf n)).

    Lemma settle_timer now (q : seq_st) : q_timer (settle cf now q) = q_timer q.
    Proof. unfold settle, end_run. destruct (q_run q); try reflexivity. destruct (_ && _); [reflexivity|]. destruct (status_eqb _ _); reflexivity. Qed.

    Lemma settle_bat now (q : seq_st) i j c : core false q -> q_run q = AtTest -> q_status q = new_status Running -> q_timer q = false -> q_locked q = false ->
      pushes (q_log q) = n -> iterations_saved (q_log q) = Z.of_nat j -> (Z.of_nat j <= budget cf n)%Z -> m_centroids (q_model q) = Some c -> W j c i ->
      rest cf (settle cf now q) -> bat (settle cf now q, i) j.
    Proof.
      intros K R S T U P J L Hc Hw Hr. unfold bat. cbn [fst snd]. destruct (settle_counts cf now q) as (C1 & C2 & C3).
      split; [exact Hr|]. split; [rewrite settle_timer; exact T|]. split; [rewrite settle_lock; exact U|]. split; [congruence|]. split; [congruence|].
      split; [exists c; split; [congruence|exact Hw]|].
      assert (X : exact_counts q) by (split; lia). rewrite (settle_running cf now false q K HB X R S). rewrite P, J.
      destruct (Z.ltb_spec (Z.of_nat j) (budget cf n)); [left; auto|right; split; [reflexivity|lia]].
    Qed.

    Lemma bat_turn d duration now s j : bat s j ->
      bat (sys_advance cf im (STurn d duration now) s) (if status_eqb (st_value (q_status (fst s))) Running then S j else j).
    Proof.
      intros H. pose proof H as (Hr & T & U & P & J & (c & Hc & Hw) & Hs). destruct s as [q i]. cbn [fst snd] in *. cbn [sys_advance].
      destruct Hs as [[S L]|[S L]].
      - assert (Sv : st_value (q_status q) = Running) by (rewrite S; reflexivity). destruct (run_state cf q Hr Sv) as [R _].
        rewrite R, Sv, Hc. cbn [status_eqb]. destruct (HW j c i d Hw) as (i' & c' & f & Hi & Hw'). rewrite Hi.
        pose proof (advance_rest cf (PTurn (IterRes (Some c') f None) duration now) q Hr) as Ha.
        cbn [advance] in *. unfold turn in *. rewrite R in *.
        apply (settle_bat now _ i' _ c'); try assumption; try reflexivity.
        + apply core_runner, (core_save cf). apply Hr.
        + cbn [q_runner q_event q_upd q_log]. rewrite saved_cons. lia.
        + lia.
      - assert (Sv : st_value (q_status q) = Ready) by (rewrite S; reflexivity). rewrite Sv. cbn [status_eqb].
        destruct (rest_run cf q Hr) as [(R & _)|[(R & X)|(R & X)]]; try congruence. rewrite R. exact H.
    Qed.

    Lemma bat_timer now s j : bat s j -> sys_advance cf im (STimer now) s = s.
    Proof. intros (_ & T & _). destruct s as [q i]. cbn [sys_advance advance fst] in *. rewrite T. reflexivity. Qed.

    Lemma bat_advances l : forall s j, bat s j -> exists j', bat (sys_advances cf im l s) j' /\ (j <= j')%nat /\
      (Z.of_nat j' = budget cf n \/ j' = (j + turns l)%nat).
    Proof.
      induction l as [|p l IH]; intros s j H; [exists j; cbn; split; [exact H|]; split; [lia|right; cbn; lia]|]. cbn [sys_advances fold_left].
      destruct p as [d duration now|now].
      - pose proof (bat_turn d duration now s j H) as H'. destruct (IH _ _ H') as (j' & H1 & H2 & H3). exists j'. split; [exact H1|].
        unfold turns in *. cbn [filter length].
        destruct H as (_ & _ & _ & _ & _ & _ & [[S L]|[S L]]); rewrite S in H2, H3; cbn [status_eqb new_status st_value] in H2, H3.
        + split; [lia|]. destruct H3 as [H3|H3]; [left; exact H3|right; lia].
        + split; [exact H2|]. left. destruct H3 as [H3|H3]; [exact H3|].
          destruct H1 as (_ & _ & _ & _ & _ & _ & [[_ L']|[_ L']]); lia.
      - rewrite (bat_timer now s j H). destruct (IH _ _ H) as (j' & H1 & H2 & H3). exists j'. split; [exact H1|]. split; [exact H2|exact H3].
    Qed.

    Lemma bat_finished s j : bat s j -> is_finished (wait_finishing None) (q_fin (fst s)) = status_eqb (st_value (q_status (fst s))) Ready.
    Proof. intros (_ & _ & _ & _ & _ & _ & [[S _]|[S _]]); unfold q_fin; rewrite S; reflexivity. Qed.

    Lemma never_no : never_finish cf None 0 = false.
    Proof.
      destruct HB as (B1 & B2 & B3 & B4). unfold never_finish. rewrite HT. cbn [negb andb].
      destruct (Z.eqb_spec (cf_iter cf) 0), (Z.eqb_spec (cf_ipd cf) 0); rewrite ?andb_false_r; try reflexivity. lia.
    Qed.

    Lemma bat_wait start ps : forall s j s' e, bat s j -> sys_wait cf im None 0 start ps s = Some (s', e) ->
      e = None /\ q_status (fst s') = new_status Ready /\ exists j', bat s' j' /\ Z.of_nat j' = budget cf n.
    Proof.
      assert (Hend : forall s j, bat s j -> status_eqb (st_value (q_status (fst s))) Ready = true ->
                q_status (fst s) = new_status Ready /\ Z.of_nat j = budget cf n).
      { intros s j (_ & _ & _ & _ & _ & _ & [[S L]|[S L]]) X; [rewrite S in X; discriminate|auto]. }
      intros s j s' e H. unfold sys_wait. destruct (st_value (q_status (fst s))) eqn:Sv;
        try (destruct H as (_ & _ & _ & _ & _ & _ & [[S _]|[S _]]); rewrite S in Sv; discriminate).
      - intros [= <- <-]. destruct (Hend s j H) as [H1 H2]; [rewrite Sv; reflexivity|]. split; [reflexivity|]. split; [exact H1|exists j; auto].
      - clear Sv. rewrite never_no. unfold wait_timeout. generalize (start + 0)%Z as dl. intros dl. revert s j H. induction ps as [|[now p] ps IH]; intros s j H; [discriminate|].
        cbn [wait_loop]. rewrite (bat_finished s j H). destruct (bat_advances p s j H) as (j' & H1 & H2 & H3).
        destruct (status_eqb (st_value (q_status (fst s))) Ready) eqn:Sv.
        + intros [= <- <-]. destruct (Hend s j H Sv) as [_ L].
          assert (L' : Z.of_nat j' = budget cf n).
          { destruct H1 as (_ & _ & _ & _ & _ & _ & [[_ L']|[_ L']]); [|exact L']. lia. }
          assert (S' : q_status (fst (sys_advances cf im p s)) = new_status Ready).
          { destruct H1 as (_ & _ & _ & _ & _ & _ & [[_ L'']|[S' _]]); [lia|exact S']. }
          rewrite S'. split; [reflexivity|]. split; [reflexivity|]. exists j'. auto.
        + cbn [Z.ltb Z.compare andb]. apply IH with (j := j'). exact H1.
    Qed.

    Lemma bat_wait_returns start ps : forall s j, bat s j -> ps <> [] ->
      (budget cf n <= Z.of_nat (j + turns (concat (map snd (removelast ps)))))%Z -> sys_wait cf im None 0 start ps s <> None.
    Proof.
      intros s j H Hps HL. unfold sys_wait. destruct (st_value (q_status (fst s))) eqn:Sv; try discriminate.
      clear Sv. rewrite never_no. unfold wait_timeout. generalize (start + 0)%Z as dl. intros dl. revert s j H HL Hps.
      induction ps as [|[now p] ps IH]; intros s j H HL Hps; [contradiction|]. cbn [wait_loop]. rewrite (bat_finished s j H).
      destruct (status_eqb (st_value (q_status (fst s))) Ready) eqn:Sv; [discriminate|]. cbn [Z.ltb Z.compare andb].
      destruct ps as [|x ps].
      - cbn in HL. exfalso. destruct H as (_ & _ & _ & _ & _ & _ & [[_ L]|[S _]]); [lia|rewrite S in Sv; discriminate].
      - destruct (bat_advances p s j H) as (j' & H1 & H2 & H3). apply (IH _ _ H1); [|discriminate].
        change (removelast ((now, p) :: x :: ps)) with ((now, p) :: removelast (x :: ps)) in HL. cbn [map snd concat] in HL.
        destruct H3 as [H3|H3]; [lia|]. unfold turns in *. rewrite filter_app, app_length in HL. lia.
    Qed.
  End Run.

  Section Main.
    Variables (q : seq_st) (i : I) (n : Z).
    Hypothesis HB : only_budget cf.
    Hypothesis HT : cf_timeout cf = false.
    Hypothesis Hq : seq_reachable cf q.
    Hypothesis Hu : q_locked q = false.
    Hypothesis En : n = (if status_eqb (st_value (q_status q)) Created then pushes (q_log q) else 0%Z).
    Hypothesis Hn : (n <= 2 ^ 53)%Z.
    Hypothesis Hb : (budget cf n <= 2 ^ 53)%Z.
    Variable W : nat -> C -> I -> Prop.
    Hypothesis HW : forall j c i d, W j c i -> exists i' c' f, im_iterate im d i (Some c) = (i', IterRes (Some c') f None) /\ W (S j) c' i'.

    Lemma batch_failed d start mid ps now i1 c0 m : im_init im d i = Some (i1, (c0, Some m)) ->
      exists q', sys_do cf im (YBatch d start mid ps) now (q, i) = Some ((q', i1), Some (ErrImpl m)) /\
        q_locked q' = true /\ q_status q' = new_status_error (ErrImpl m) /\ m_centroids (q_model q') = c0.
    Proof.
      intros Hi. destruct (batch_start q now n (c0, Some m) Hq Hu En) as (q1 & e1 & E1 & E2 & q0 & Hc & E3 & E4). cbn [fst snd] in *.
      exists (q_lock q0). split; [|split; [reflexivity|split; [exact E4|exact Hc]]].
      unfold sys_do. cbn [fst]. rewrite Hu. unfold sys_batch. cbn [fst snd]. rewrite E1. unfold sys_play, impl_result. cbn [fst snd].
      rewrite E2, Hi, E3. reflexivity.
    Qed.

    Lemma batch_ok d start mid ps now i1 c0 : im_init im d i = Some (i1, (Some c0, None)) -> W 0 c0 i1 ->
      (forall s' e, sys_do cf im (YBatch d start mid ps) now (q, i) = Some (s', e) ->
         e = None /\ q_status (fst s') = new_status Finished /\ q_locked (fst s') = false /\
         exists j c, Z.of_nat j = budget cf n /\ iterations_saved (q_log (fst s')) = budget cf n /\
           m_centroids (q_model (fst s')) = Some c /\ W j c (snd s')) /\
      (ps <> [] -> (budget cf n <= Z.of_nat (turns (mid ++ concat (map snd (removelast ps)))))%Z ->
         sys_do cf im (YBatch d start mid ps) now (q, i) <> None).
    Proof.
      intros Hi Hw. destruct (batch_start q now n (Some c0, None) Hq Hu En) as (q1 & e1 & E1 & E2 & q0 & Hc & E3 & K0 & Hr & P0 & J0). cbn [fst snd] in *.
      assert (Hdo : sys_do cf im (YBatch d start mid ps) now (q, i) =
        match sys_wait cf im None 0 start ps (sys_advances cf im mid (settle cf now (start_seq cf q0), i1)) with
            | None => None
            | Some (s, Some e) => Some (s, Some e)
            | Some (s, None) =>
                match interrupt None now (fst s) with None => None | Some (q, _) => Some ((q, snd s), None) end
            end).
      { unfold sys_do. cbn [fst]. rewrite Hu. unfold sys_batch. cbn [fst snd]. rewrite E1. unfold sys_play, impl_result. cbn [fst snd].
        rewrite E2, Hi, E3. reflexivity. }
      assert (Ur : q_locked q0 = false).
      { destruct (q_locked q0) eqn:X; [|reflexivity]. exfalso. destruct Hr as ((_ & _ & HL & _) & _).
        destruct HL as (_ & Sx & _); [rewrite settle_lock; exact X|].
        pose proof (settle_running cf now false (start_seq cf q0)) as Sr.
        assert (Kc : core false (start_seq cf q0)).
        { destruct (play_sound cf (Some c0, None) (settle cf now q1)) as (qq & ee & Ep & Sp); rewrite ?E3 in *.
          - apply settle_rest. destruct (interrupt_sound cf None now q (reach_rest cf q Hq) Hu) as (qx & ex & Ex & Sx'). rewrite E1 in Ex. injection Ex as <- <-. exact Sx'.
          - rewrite settle_lock, (interrupt_lock _ _ _ _ _ E1). exact Hu.
          - injection Ep as <- <-. apply Sp. }
        assert (Hx : exact_counts (start_seq cf q0)).
        { split; [change (iterations_saved (q_log q0) <= 2 ^ 53)%Z|change (pushes (q_log q0) <= 2 ^ 53)%Z]; lia. }
        specialize (Sr Kc HB Hx eq_refl eq_refl). rewrite Sr in Sx. destruct (_ <? _)%Z in Sx; discriminate. }
      assert (B0 : (0 <= budget cf n)%Z).
      { unfold budget. destruct HB as (_ & B1 & B2 & _). assert (0 <= n)%Z by (rewrite <- P0; unfold pushes; lia). nia. }
      assert (H0 : bat n W (settle cf now (start_seq cf q0), i1) 0).
      { apply (settle_bat n HB Hn Hb W now (start_seq cf q0) i1 0 c0); try assumption; try reflexivity; try lia.
        destruct (play_sound cf (Some c0, None) (settle cf now q1)) as (qq & ee & Ep & Sp).
        - apply settle_rest. destruct (interrupt_sound cf None now q (reach_rest cf q Hq) Hu) as (qx & ex & Ex & Sx'). rewrite E1 in Ex. injection Ex as <- <-. exact Sx'.
        - rewrite settle_lock, (interrupt_lock _ _ _ _ _ E1). exact Hu.
        - rewrite E3 in Ep. injection Ep as <- <-. apply Sp. }
      destruct (bat_advances n HB Hn Hb W HW mid _ _ H0) as (j & H1 & H2 & H3).
      assert (Hend : forall s e, sys_wait cf im None 0 start ps (sys_advances cf im mid (settle cf now (start_seq cf q0), i1)) = Some (s, e) ->
        e = None /\ interrupt None now (fst s) = Some (q_set (fst s) (mkStatus Finished None), None) /\
        exists j', bat n W s j' /\ Z.of_nat j' = budget cf n).
      { intros s e Hs. destruct (bat_wait n HB HT Hn Hb W HW start ps _ _ _ _ H1 Hs) as (X1 & X2 & X3). split; [exact X1|]. split; [|exact X3].
        unfold interrupt. rewrite X2. reflexivity. }
      split.
      - intros s' e. rewrite Hdo. destruct (sys_wait _ _ _ _ _ _ _) as [[s e']|] eqn:Ew; [|discriminate].
        destruct (Hend s e' eq_refl) as (-> & Ei & j' & Hj & Lj). rewrite Ei. intros [= <- <-]. cbn [fst snd q_set q_status q_locked q_log q_model].
        destruct Hj as (_ & _ & Uj & _ & Jj & (c & Hcj & Hwj) & _). split; [reflexivity|]. split; [reflexivity|]. split; [exact Uj|].
        exists j', c. rewrite (proj1 (counts_status _ _ _)). split; [exact Lj|]. split; [lia|]. auto.
      - intros Hps HL. rewrite Hdo. destruct (sys_wait _ _ _ _ _ _ _) as [[s e']|] eqn:Ew.
        + destruct (Hend s e' eq_refl) as (-> & Ei & _). rewrite Ei. discriminate.
        + exfalso. revert Ew. apply (bat_wait_returns n HB HT Hn Hb W HW start ps _ j H1 Hps).
          unfold turns in *. rewrite filter_app, app_length in HL. destruct H3 as [H3|H3]; lia.
    Qed.
  End Main.
End Batch.
