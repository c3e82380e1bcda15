(** What holds of the controller in every interleaving. *)
From Coq Require Import List ZArith Bool Lia String Permutation.
From Verif Require Import Base.Go Base.Num Model.Status Model.Finish Model.CtrlLang Model.CtrlCode
  Spec.CtrlSpec Proofs.GoLemmas Proofs.CtrlCheck Proofs.CtrlSound.
Import ListNotations.
Local Open Scope list_scope.

Lemma plain_notifier_ok cf : plain_notifier cf -> notifier_ok (cf_notifier cf) = true.
Proof.
  unfold plain_notifier, notifier_ok. destruct (cf_notifier cf) as [p|]; [|reflexivity].
  intros (cs & H & ->).
  assert (E : check false (flat_map (call_code cf) cs) abs0 = Cont abs0).
  { induction H as [|c cs Hc H IH]; [reflexivity|]. cbn [flat_map]. rewrite check_app.
    replace (check false (call_code cf c) abs0) with (Cont abs0); [exact IH|].
    destruct c; cbn in Hc; try contradiction; vm_compute; reflexivity. }
  rewrite E. reflexivity.
Qed.

Section Main.
  Context {C : Type}.
  Variable cf : cconf.
  Notation state := (state C).

  Lemma reachable_inv css (st : state) : plain_notifier cf -> reachable cf css st -> inv st.
  Proof.
    intros P (ms & E). eapply exec_inv; [|exact E]. apply start_inv. apply plain_notifier_ok. exact P.
  Qed.

  (** What is known of a goroutine about to execute a statement. *)
  Lemma at_next (st : state) t i : inv st -> about_to st t i ->
    exists th k alive A, nth_error (s_th st) t = Some th /\ th_code th = i :: k /\
      (alive = true -> st_value (sh_status (s_sh st)) <> Created) /\
      rel A (s_sh st) t (th_defer th) /\ (forall d, th_defer th = Some d -> typed alive d abs0) /\
      recv_ok (th_loc th) /\ next alive i k A.
  Proof.
    intros I (th & k & N & E). pose proof (proj2 I t th N) as (alive & A0 & Ha & T & R0 & D & V).
    rewrite E in T. apply typed_inv in T. destruct T as (A & L & K).
    exists th, k, alive, A. repeat (split; [assumption|]). split; [eapply rel_le; eauto|]. auto.
  Qed.

  Definition idle_locks (st : state) (t : nat) : Prop :=
    (forall m, ~ holds st m t) /\ (forall m, ~ reads st m t).

  Lemma rel_no_lock A (st : state) t d : rel A (s_sh st) t d -> no_lock A = true -> idle_locks st t.
  Proof.
    intros R H. unfold no_lock in H. rewrite !andb_true_iff in H. destruct H as (((H1 & H2) & H3) & H4).
    apply negb_true_iff in H1, H2. apply Nat.eqb_eq in H3, H4. destruct R. split; intros m Hm.
    - destruct m; unfold holds in Hm; cbn in Hm; [apply r_s in Hm|apply r_m in Hm]; congruence.
    - destruct m; unfold reads in Hm; apply (count_occ_In Nat.eq_dec) in Hm.
      + change (readers MStatus (s_sh st) t > 0) in Hm. lia.
      + change (readers MModel (s_sh st) t > 0) in Hm. lia.
  Qed.

  Lemma ended_locks (st : state) t : inv st -> ended st t -> idle_locks st t.
  Proof.
    intros I (th & N & E). pose proof (proj2 I t th N) as (alive & A0 & Ha & T & R0 & D & V).
    rewrite E in T. apply typed_inv in T. destruct T as (A & L & K).
    eapply rel_no_lock; [eapply rel_le; eauto|]. cbn in K. rewrite !andb_true_iff in K. apply K.
  Qed.

  Lemma return_locks (st : state) t b : inv st -> about_to st t (IReturn b) -> idle_locks st t.
  Proof.
    intros I H. destruct (at_next st t _ I H) as (th & k & alive & A & N & E & Ha & R & D & V & K).
    eapply rel_no_lock; [exact R|]. unfold next in K. cbn in K.
    destruct (no_owe A && no_lock A && negb (a_dirty A) && negb (a_open A)) eqn:Eo.
    - rewrite !andb_true_iff in Eo. apply Eo.
    - destruct K as [K|(B & K & _)]; discriminate.
  Qed.

  Lemma iterate_locks (st : state) t : inv st -> about_to st t IImplIterate -> idle_locks st t.
  Proof.
    intros I H. destruct (at_next st t _ I H) as (th & k & alive & A & N & E & Ha & R & D & V & K).
    eapply rel_no_lock; [exact R|]. unfold next in K. cbn in K.
    destruct (no_owe A && no_lock A && a_def A && negb (a_dirty A) && negb (a_open A)) eqn:Eo.
    - rewrite !andb_true_iff in Eo. apply Eo.
    - destruct K as [K|(B & K & _)]; discriminate.
  Qed.

  Lemma not_ended (st : state) t : t < List.length (s_th st) -> ~ ended st t -> exists i, about_to st t i.
  Proof.
    intros Lt H. destruct (nth_error (s_th st) t) as [th|] eqn:N; [|apply nth_error_None in N; lia].
    destruct (th_code th) as [|i k] eqn:E.
    - destruct H. exists th. auto.
    - exists i, th, k. auto.
  Qed.

  Lemma set_status_holds (st : state) t e : inv st -> about_to st t (ISetStatus e) -> holds st MStatus t.
  Proof.
    intros I H. destruct (at_next st t _ I H) as (th & k & alive & A & N & E & Ha & R & D & V & K).
    destruct st as [s ths]. eapply step_set_status; eauto.
  Qed.
  Lemma model_holds (st : state) t op : inv st -> about_to st t (IModel op) -> holds st MModel t.
  Proof.
    intros I H. destruct (at_next st t _ I H) as (th & k & alive & A & N & E & Ha & R & D & V & K).
    destruct st as [s ths]. exact (proj1 (step_model cf t s ths th alive A k I N Ha R D V op 0%Z K)).
  Qed.
  Lemma unlock_holds (st : state) t m : inv st -> about_to st t (IUnlock m) -> holds st m t.
  Proof.
    intros I H. destruct (at_next st t _ I H) as (th & k & alive & A & N & E & Ha & R & D & V & K).
    destruct st as [s ths].
    exact (proj1 (step_release t s ths th alive A k I N Ha R D V m HFree ltac:(discriminate) K)).
  Qed.
  Lemma runlock_reads (st : state) t m : inv st -> about_to st t (IRUnlock m) -> reads st m t.
  Proof.
    intros I H. destruct (at_next st t _ I H) as (th & k & alive & A & N & E & Ha & R & D & V & K).
    destruct st as [s ths].
    exact (proj1 (step_runlock t s ths th alive A k I N Ha R D V m K)).
  Qed.

  Lemma lock_hygiene : forall css (st : state), plain_notifier cf -> reachable cf css st ->
    sh_crashed (s_sh st) = false /\
    (forall t e, about_to st t (ISetStatus e) -> holds st MStatus t) /\
    (forall t op, about_to st t (IModel op) -> holds st MModel t) /\
    (forall t m, about_to st t (IUnlock m) -> holds st m t) /\
    (forall t m, about_to st t (IRUnlock m) -> reads st m t) /\
    (forall m t, holds st m t -> forall u, ~ reads st m u) /\
    (forall m t, holds st m t \/ reads st m t -> exists i, about_to st t i) /\
    (forall t b, about_to st t (IReturn b) -> forall m, ~ holds st m t /\ ~ reads st m t) /\
    (forall t, about_to st t IImplIterate -> forall m, ~ holds st m t /\ ~ reads st m t) /\
    ~ leaked st MModel.
  Proof.
    intros css st P Hr. pose proof (reachable_inv css st P Hr) as I. pose proof (proj1 I) as G.
    split; [apply (g_crash _ _ G)|].
    split; [intros t e; apply set_status_holds; exact I|].
    split; [intros t op; apply model_holds; exact I|].
    split; [intros t m; apply unlock_holds; exact I|].
    split; [intros t m; apply runlock_reads; exact I|].
    split.
    { intros m t Hh u Hu. unfold reads in Hu. rewrite (g_excl _ _ G m) in Hu; [destruct Hu|].
      unfold holds in Hh. congruence. }
    split.
    { intros m t H. apply not_ended.
      - destruct H as [H|H]; [exact (g_hold _ _ G m t H)|exact (g_read _ _ G m t H)].
      - intros He. destruct (ended_locks st t I He) as [H1 H2]. destruct H as [H|H]; [exact (H1 m H)|exact (H2 m H)]. }
    split.
    { intros t b H m. destruct (return_locks st t b I H). auto. }
    split.
    { intros t H m. destruct (iterate_locks st t I H). auto. }
    exact (g_leak _ _ G).
  Qed.

  (** Status changes. *)
  Lemma statuses_cons e (log : list (event C)) :
    statuses_set (e :: log) = statuses_set log ++ match e with EvStatus _ s => [s] | _ => [] end.
  Proof. unfold statuses_set. cbn. rewrite flat_map_app. cbn. rewrite app_nil_r. reflexivity. Qed.

  Definition status_move (s s' : shared C) : Prop :=
    (sh_status s' = sh_status s /\ statuses_set (sh_log s') = statuses_set (sh_log s)) \/
    (change_ok (st_value (sh_status s)) (st_value (sh_status s')) = true /\
     statuses_set (sh_log s') = statuses_set (sh_log s) ++ [sh_status s']).

  Lemma status_step t o (st st' : state) : inv st -> step cf t o st = Some st' ->
    status_move (s_sh st) (s_sh st').
  Proof.
    intros I E. assert (Hh : forall i, about_to st t i -> exists th, nth_error (s_th st) t = Some th /\ head th = Some i).
    { intros i (th & k & N & Hc). exists th. split; [exact N|]. unfold head. rewrite Hc. reflexivity. }
    unfold step in E. destruct (nth_error (s_th st) t) as [th|] eqn:N; [|discriminate].
    destruct (th_code th) as [|i k] eqn:Ec; [discriminate|].
    assert (Ht : about_to st t i) by (exists th, k; auto).
    destruct (at_next st t i I Ht) as (th' & k' & alive & A & N' & Ec' & Ha & R & D & V & K).
    assert (th' = th) as -> by congruence. assert (k' = k) as -> by congruence.
    destruct st as [s ths]. cbn [s_sh s_th] in *.
    destruct i;
      repeat match type of E with
             | match ?x with _ => _ end = Some _ => destruct x eqn:?; try discriminate
             | (if ?x then _ else _) = Some _ => destruct x eqn:?; try discriminate
             end;
      try (injection E as <-); unfold go_on, do_panic, status_move; cbn [s_sh s_th];
      try (left; split; reflexivity);
      try (left; destruct m; split; reflexivity);
      try (left; destruct (th_defer th); split; reflexivity);
      try (left; destruct op; split; try reflexivity; cbn [mop_log add_log sh_log set_model]; rewrite statuses_cons, app_nil_r; reflexivity).
    - right. destruct (step_set_status t s ths th alive A k I N Ha R D V e K) as (_ & Hc & _).
      split; [exact Hc|]. cbn [add_log sh_log set_status_ sh_status]. rewrite statuses_cons. reflexivity.
    - left. split; [reflexivity|]. cbn [add_log sh_log]. rewrite statuses_cons, app_nil_r. reflexivity.
  Qed.

  Lemma status_comm t r (st st' : state) : comm t r st = Some st' -> status_move (s_sh st) (s_sh st').
  Proof.
    unfold comm. intros E. left.
    destruct (Nat.eqb t r); [discriminate|].
    destruct (nth_error (s_th st) t) as [th|]; [|discriminate].
    destruct (nth_error (s_th st) r) as [thr|]; [|discriminate].
    destruct (th_code th) as [|i k]; [discriminate|]. destruct i; try discriminate.
    destruct (closed c (s_sh st)); [discriminate|].
    destruct (receiver c (s_sh st) (th_code thr)); [|discriminate]. injection E as <-. cbn [s_sh].
    destruct c; split; try reflexivity. cbn [deliver_log add_log sh_log]. rewrite statuses_cons, app_nil_r. reflexivity.
  Qed.

  Lemma status_do m (st st' : state) : inv st -> do_move cf m st = Some st' -> status_move (s_sh st) (s_sh st').
  Proof.
    intros I. unfold do_move. destruct (sh_crashed (s_sh st)); [discriminate|].
    destruct m; [apply status_step; exact I|apply status_comm].
  Qed.

  Lemma change_possible a b : change_ok a b = true -> possible_change a b.
  Proof.
    destruct a, b; cbn; try discriminate; intros _;
      first [apply pc_init; tauto|apply pc_inited; tauto|apply pc_settled; unfold settled; tauto].
  Qed.

  Lemma linked_snoc {X} (Rel : X -> X -> Prop) l a b :
    linked Rel (l ++ [a]) -> Rel a b -> linked Rel (l ++ [a; b]).
  Proof.
    intros H Hab l1 x y l2 E.
    destruct (exists_last (l := x :: y :: l2)) as (l3 & z & E3); [discriminate|].
    destruct l2 as [|w l2'] using rev_ind.
    - assert (E' : (l ++ [a]) ++ [b] = (l1 ++ [x]) ++ [y]) by (rewrite <- !app_assoc; exact E).
      apply app_inj_tail in E'. destruct E' as [E1 ->]. apply app_inj_tail in E1. destruct E1 as [_ ->]. exact Hab.
    - clear IHl2'. assert (E' : (l ++ [a]) ++ [b] = (l1 ++ x :: y :: l2') ++ [w]).
      { rewrite <- !app_assoc. cbn. exact E. }
      apply app_inj_tail in E'. destruct E' as [E1 _]. exact (H l1 x y l2' E1).
  Qed.

  Definition status_hist (s : shared C) : Prop :=
    linked possible_change (map st_value (new_status Created :: statuses_set (sh_log s))) /\
    (exists l, new_status Created :: statuses_set (sh_log s) = l ++ [sh_status s]) /\
    Forall error_only_finished (statuses_set (sh_log s)).

  Lemma hist_move s s' : wf_status (sh_status s') = true -> status_hist s -> status_move s s' -> status_hist s'.
  Proof.
    intros W (H1 & (l & H2) & H3) [(E1 & E2)|(Hc & E2)]; unfold status_hist; rewrite E2.
    - rewrite E1. split; [exact H1|]. split; [exists l; exact H2|exact H3].
    - split; [|split].
      + rewrite app_comm_cons, H2, map_app, map_app, <- app_assoc. cbn [map app].
        apply linked_snoc; [|apply change_possible; exact Hc].
        rewrite H2, map_app in H1. exact H1.
      + exists (l ++ [sh_status s]). rewrite app_comm_cons, H2. reflexivity.
      + apply Forall_app. split; [exact H3|]. constructor; [|constructor].
        intros He. unfold wf_status in W. destruct (st_error (sh_status s')); [|congruence].
        apply status_eqb_eq. exact W.
  Qed.

  Lemma hist_exec ms (st st' : state) : inv st -> status_hist (s_sh st) -> exec cf ms st = Some st' -> status_hist (s_sh st').
  Proof.
    revert st. induction ms as [|m ms IH]; cbn; intros st I H E; [congruence|].
    destruct (do_move cf m st) as [st1|] eqn:E1; [|discriminate].
    pose proof (move_inv cf m st st1 I E1) as I1.
    eapply IH; [exact I1| |exact E]. eapply hist_move; [|exact H|eapply status_do; eauto].
    apply (g_wf _ _ (proj1 I1)).
  Qed.

  Lemma status_changes : forall css (st : state), plain_notifier cf -> reachable cf css st ->
    linked possible_change (map st_value (new_status Created :: statuses_set (sh_log (s_sh st)))) /\
    last (new_status Created :: statuses_set (sh_log (s_sh st))) (new_status Created) = sh_status (s_sh st) /\
    Forall error_only_finished (statuses_set (sh_log (s_sh st))).
  Proof.
    intros css st P (ms & E). pose proof (start_inv cf (plain_notifier_ok cf P) (C:=C) css) as I.
    destruct (hist_exec ms _ st I) as (H1 & (l & H2) & H3).
    - split; [|split].
      + intros l1 a b l2 H. cbn in H. destruct l1 as [|? [|? ?]]; discriminate.
      + exists []. reflexivity.
      + constructor.
    - exact E.
    - split; [exact H1|]. split; [|exact H3]. rewrite H2, last_last. reflexivity.
  Qed.

  (** Figures. *)
  Definition reserved (key : string) : Prop :=
    key = "iterations"%string \/ key = "pushedData"%string \/ key = "lastDataTime"%string \/ key = "duration"%string.
  Definition model_log (s : shared C) : Prop :=
    m_iter (sh_model s) = iterations_saved (sh_log s) /\
    m_pushed (sh_model s) = pushes (sh_log s) /\
    forall key, ~ reserved key -> figure (m_figs (sh_model s)) key = figure (last_saved (sh_log s)) key.

  Lemma figure_other rf key v key' : key <> key' -> figure (set_figure rf key v) key' = figure rf key'.
  Proof. intros H. rewrite figure_set. apply String.eqb_neq in H. rewrite H. reflexivity. Qed.

  Definition neutral (e : event C) : Prop :=
    match e with EvStatus _ _ | EvNotified _ _ | EvReturn _ _ => True | _ => False end.
  Lemma model_log_neutral s s' e : neutral e -> sh_model s' = sh_model s -> sh_log s' = e :: sh_log s ->
    model_log s -> model_log s'.
  Proof.
    intros N E1 E2 (H1 & H2 & H3). unfold model_log. rewrite E1, E2.
    destruct e; cbn in N; try contradiction; split; auto.
  Qed.

  Lemma update_other m rf key : ~ reserved key -> figure (@update_figures C m rf) key = figure rf key.
  Proof.
    intros H. unfold update_figures. unfold reserved in H.
    rewrite !figure_other; [reflexivity|intros E; apply H; subst; tauto..].
  Qed.

  Lemma model_log_op op l now s : model_log s ->
    model_log (mop_log op l (set_model s (mop_model cf op l now (sh_model s)))).
  Proof.
    intros (H1 & H2 & H3).
    assert (Hd : forall key, ~ reserved key -> "duration"%string <> key) by (unfold reserved; intros key H E; subst; tauto).
    destruct op; unfold model_log; cbn [mop_log mop_model add_log set_model sh_model sh_log].
    - split; [reflexivity|]. split; [reflexivity|]. intros key Hk.
      unfold model_reset. cbn [m_figs]. rewrite update_other by exact Hk. reflexivity.
    - split; [exact H1|]. split; [exact H2|exact H3].
    - split; [exact H1|]. split; [|exact H3]. unfold pushes, model_pushed. cbn. fold (pushes (sh_log s)).
      cbn [m_pushed]. rewrite H2. unfold pushes. lia.
    - split; [exact H1|]. split; [exact H2|exact H3].
    - split; [exact H1|]. split; [exact H2|]. intros key Hk. unfold model_figures. cbn [m_figs].
      rewrite update_other by exact Hk. auto.
    - unfold model_save, model_figures. cbn [m_iter m_pushed m_figs]. split; [|split].
      + rewrite H1. unfold iterations_saved. cbn. lia.
      + exact H2.
      + intros key Hk. rewrite update_other by exact Hk. rewrite figure_other by (apply Hd; exact Hk).
        cbn. destruct (l_figs l); reflexivity.
    - unfold model_duration. cbn [m_iter m_pushed m_figs]. split; [exact H1|]. split; [exact H2|].
      intros key Hk. rewrite figure_other by (apply Hd; exact Hk). auto.
  Qed.

  Lemma model_log_move m (st st' : state) : model_log (s_sh st) -> do_move cf m st = Some st' -> model_log (s_sh st').
  Proof.
    intros H. unfold do_move. destruct (sh_crashed (s_sh st)); [discriminate|]. destruct m as [t o|t r].
    - intros E. unfold step in E. destruct (nth_error (s_th st) t) as [th|] eqn:N; [|discriminate].
      destruct (th_code th) as [|i k] eqn:Ec; [discriminate|].
      destruct st as [s ths]. cbn [s_sh s_th] in *.
      destruct i;
        repeat match type of E with
               | match ?x with _ => _ end = Some _ => destruct x eqn:?; try discriminate
               | (if ?x then _ else _) = Some _ => destruct x eqn:?; try discriminate
               end;
        try (injection E as <-); unfold go_on, do_panic; cbn [s_sh s_th];
        try exact H; try (destruct m; exact H); try (destruct (th_defer th); exact H).
      apply model_log_op. exact H.
    - unfold comm. destruct (Nat.eqb t r); [discriminate|].
      destruct (nth_error (s_th st) t) as [th|]; [|discriminate].
      destruct (nth_error (s_th st) r) as [thr|]; [|discriminate].
      destruct (th_code th) as [|i k]; [discriminate|]. destruct i; try discriminate.
      destruct (closed c (s_sh st)); [discriminate|].
      destruct (receiver c (s_sh st) (th_code thr)); [|discriminate]. intros E. injection E as <-. cbn [s_sh].
      destruct c; [exact H| |exact H].
      eapply model_log_neutral; [| | |exact H]; [|reflexivity|reflexivity]; exact Logic.I.
  Qed.

  Lemma model_log_exec ms (st st' : state) : model_log (s_sh st) -> exec cf ms st = Some st' -> model_log (s_sh st').
  Proof.
    revert st. induction ms as [|m ms IH]; cbn; intros st H E; [congruence|].
    destruct (do_move cf m st) as [st1|] eqn:E1; [|discriminate].
    eapply IH; [eapply model_log_move; eauto|exact E].
  Qed.

  Lemma figures_count : forall css (st : state), plain_notifier cf -> reachable cf css st ->
    (forall t, ~ holds st MModel t) ->
    figure (m_figs (sh_model (s_sh st))) "iterations" = b64_of_Z (iterations_saved (sh_log (s_sh st))) /\
    figure (m_figs (sh_model (s_sh st))) "pushedData" = b64_of_Z (pushes (sh_log (s_sh st))) /\
    forall key, ~ In key ["iterations"; "pushedData"; "lastDataTime"; "duration"]%string ->
      figure (m_figs (sh_model (s_sh st))) key = figure (last_saved (sh_log (s_sh st))) key.
  Proof.
    intros css st P Hr Hf. pose proof (reachable_inv css st P Hr) as I.
    destruct (g_fig _ _ (proj1 I) Hf) as (F1 & F2 & _).
    destruct Hr as (ms & E). assert (M0 : model_log (s_sh (@start C (map (client_code cf) css)))) by (repeat split; reflexivity).
    pose proof (model_log_exec ms _ _ M0 E) as (H1 & H2 & H3).
    rewrite F1, F2, H1, H2. split; [reflexivity|]. split; [reflexivity|].
    intros key Hk. apply H3. intros Hr. apply Hk. unfold reserved in Hr. cbn. intuition.
  Qed.

  (** What a step of [t] may change of the locks, the status and the other goroutines. *)
  Ltac cases E :=
    repeat match type of E with
           | match ?x with _ => _ end = Some _ => destruct x eqn:?; try discriminate
           | (if ?x then _ else _) = Some _ => destruct x eqn:?; try discriminate
           end; try (injection E as <-).

  Lemma step_others t o (st st' : state) : step cf t o st = Some st' ->
    forall u th, u <> t -> nth_error (s_th st) u = Some th -> nth_error (s_th st') u = Some th.
  Proof.
    intros E u thu Ne Nu. unfold step in E. destruct (nth_error (s_th st) t) as [th|] eqn:N; [|discriminate].
    destruct (th_code th) as [|i k] eqn:Ec; [discriminate|].
    destruct st as [s ths]. cbn [s_sh s_th] in *.
    assert (Lt : u < List.length ths) by (apply nth_error_Some; congruence).
    apply Nat.eqb_neq in Ne.
    destruct i; cases E; unfold go_on, do_panic; cbn [s_sh s_th]; try (destruct (th_defer th); cbn [s_th]);
      rewrite ?nth_error_upd, ?Ne; cbn [andb]; rewrite ?nth_error_app1 by exact Lt; exact Nu.
  Qed.

  Lemma step_holder t o (st st' : state) m : step cf t o st = Some st' ->
    rw_holder (lock_of m (s_sh st')) = rw_holder (lock_of m (s_sh st)) \/
    rw_holder (lock_of m (s_sh st)) = HFree \/ about_to st t (IUnlock m) \/ about_to st t (ILeak m).
  Proof.
    intros E. unfold step in E. destruct (nth_error (s_th st) t) as [th|] eqn:N; [|discriminate].
    destruct (th_code th) as [|i k] eqn:Ec; [discriminate|].
    assert (Ht : about_to st t i) by (exists th, k; auto).
    assert (Hs : forall m' x s, rw_holder x = rw_holder (lock_of m' s) -> rw_holder (lock_of m (@set_lock C m' x s)) = rw_holder (lock_of m s)).
    { intros m' x s Hx. destruct m, m'; cbn in *; congruence. }
    assert (Hn : forall m' x s, m' <> m -> rw_holder (lock_of m (@set_lock C m' x s)) = rw_holder (lock_of m s)).
    { intros m' x s Hx. destruct m, m'; cbn in *; congruence. }
    assert (Hdec : forall m', m' = m \/ m' <> m) by (intros m'; destruct m, m'; auto; right; discriminate).
    destruct i as [m0|m0|m0|m0|m0|m0| | | | | | | | | | | | | | | | | | | | | | | | ]; cases E; unfold go_on, do_panic; cbn [s_sh s_th];
      try (left; reflexivity); try (left; destruct m; reflexivity);
      try (left; destruct (th_defer th); destruct m; reflexivity);
      try (left; destruct op; destruct m; reflexivity);
      destruct (Hdec m0) as [->|Ne]; auto; left; apply Hn; exact Ne.
  Qed.

  Lemma step_waits t o (st st' : state) m : step cf t o st = Some st' ->
    about_to st t (ILock m) \/ about_to st t (IRLock m) -> rw_holder (lock_of m (s_sh st)) = HFree.
  Proof.
    intros E H. unfold step in E.
    destruct H as [(th & k & N & Ec)|(th & k & N & Ec)]; rewrite N, Ec in E;
      destruct (rw_holder (lock_of m (s_sh st))); try discriminate; reflexivity.
  Qed.

  Lemma step_status t o (st st' : state) : inv st -> step cf t o st = Some st' ->
    sh_status (s_sh st') = sh_status (s_sh st) \/ holds st MStatus t.
  Proof.
    intros I E.
    assert (Hs : forall e, about_to st t (ISetStatus e) -> holds st MStatus t) by (intros e; apply set_status_holds; exact I).
    unfold step in E. destruct (nth_error (s_th st) t) as [th|] eqn:N; [|discriminate].
    destruct (th_code th) as [|i k] eqn:Ec; [discriminate|].
    assert (Ht : about_to st t i) by (exists th, k; auto).
    destruct i; cases E; unfold go_on, do_panic; cbn [s_sh s_th];
      try (left; reflexivity); try (left; destruct m; reflexivity);
      try (left; destruct (th_defer th); reflexivity);
      try (left; destruct op; reflexivity).
    right. eapply Hs. exact Ht.
  Qed.

  Lemma comm_shared t r (st st' : state) : comm t r st = Some st' ->
    (forall m, lock_of m (s_sh st') = lock_of m (s_sh st)) /\ sh_status (s_sh st') = sh_status (s_sh st) /\
    sh_model (s_sh st') = sh_model (s_sh st) /\
    (exists c v, about_to st t (ISending c v)) /\
    (about_to st r ITryStatus \/ (exists c, about_to st r (IReceiving c)) \/ exists p, about_to st r (ITryAck p)) /\
    forall u, u <> t -> u <> r -> nth_error (s_th st') u = nth_error (s_th st) u.
  Proof.
    unfold comm. destruct (Nat.eqb t r); [discriminate|].
    destruct (nth_error (s_th st) t) as [th|] eqn:N; [|discriminate].
    destruct (nth_error (s_th st) r) as [thr|] eqn:Nr; [|discriminate].
    destruct (th_code th) as [|i k] eqn:Ec; [discriminate|]. destruct i; try discriminate.
    destruct (closed c (s_sh st)); [discriminate|].
    destruct (receiver c (s_sh st) (th_code thr)) eqn:Er; [|discriminate]. intros E. injection E as <-. cbn [s_sh s_th].
    split; [intros m; destruct c, m; reflexivity|]. split; [destruct c; reflexivity|]. split; [destruct c; reflexivity|].
    split; [exists c, v, th, k; auto|]. split.
    - destruct (th_code thr) as [|i kr] eqn:Ecr; [discriminate|]. destruct i; try discriminate.
      + right; left. eexists. exists thr, kr. eauto.
      + left. exists thr, kr. eauto.
      + right; right. eexists. exists thr, kr. eauto.
    - intros u Ht Hr. apply Nat.eqb_neq in Ht, Hr. rewrite !nth_error_upd, Ht, Hr. reflexivity.
  Qed.

  Lemma about_same (st : state) t i j : about_to st t i -> about_to st t j -> i = j.
  Proof.
    intros (th & k & N & E) (th' & k' & N' & E'). assert (th' = th) as -> by congruence.
    rewrite E in E'. injection E' as -> _. reflexivity.
  Qed.

  (** A mutex left locked stays locked: nobody takes it any more. *)
  Lemma leaked_move m0 m (st st' : state) : inv st -> leaked st m0 -> do_move cf m st = Some st' ->
    leaked st' m0 /\ (m0 = MStatus -> sh_status (s_sh st') = sh_status (s_sh st)) /\
    forall t i, i = ILock m0 \/ i = IRLock m0 -> about_to st t i -> about_to st' t i.
  Proof.
    intros I L. unfold do_move. destruct (sh_crashed (s_sh st)); [discriminate|]. destruct m as [t o|t r].
    - intros E. split; [|split].
      + unfold leaked in *. destruct (step_holder t o st st' m0 E) as [H|[H|[H|H]]]; try congruence.
        * pose proof (unlock_holds st t m0 I H) as Hh. unfold holds in Hh. congruence.
        * destruct (at_next st t _ I H) as (th & k & alive & A & N & Ec & Ha & R & D & V & K).
          destruct st as [s ths].
          pose proof (proj1 (step_release t s ths th alive A k I N Ha R D V m0 HLeaked ltac:(discriminate) K)) as Hh.
          cbn [s_sh] in L. congruence.
      + intros ->. destruct (step_status t o st st' I E) as [H|H]; [exact H|].
        unfold leaked, holds in *. congruence.
      + intros u i Hi Hu. destruct (Nat.eq_dec u t) as [->|Ne].
        * assert (Hf : rw_holder (lock_of m0 (s_sh st)) = HFree).
          { apply (step_waits t o st st' m0 E). destruct Hi as [->| ->]; auto. }
          unfold leaked in L. congruence.
        * destruct Hu as (th & k & N & Ec). exists th, k. split; [|exact Ec].
          eapply step_others; eauto.
    - intros E. destruct (comm_shared t r st st' E) as (H1 & H2 & _ & (c & v & Ht) & Hr & Ho).
      split; [unfold leaked; rewrite H1; exact L|]. split; [intros _; exact H2|].
      intros u i Hi Hu.
      assert (u <> t).
      { intros ->. pose proof (about_same _ _ _ _ Hu Ht). destruct Hi as [->| ->]; discriminate. }
      assert (u <> r).
      { intros ->. destruct Hr as [Hr|[(c' & Hr)|(p & Hr)]]; pose proof (about_same _ _ _ _ Hu Hr); destruct Hi as [->| ->]; discriminate. }
      destruct Hu as (th & k & N & Ec). exists th, k. split; [|exact Ec]. rewrite Ho by assumption. exact N.
  Qed.

  Lemma leaked_exec m0 ms (st st' : state) : inv st -> leaked st m0 -> exec cf ms st = Some st' ->
    leaked st' m0 /\ (m0 = MStatus -> sh_status (s_sh st') = sh_status (s_sh st)) /\
    forall t i, i = ILock m0 \/ i = IRLock m0 -> about_to st t i -> about_to st' t i.
  Proof.
    revert st. induction ms as [|m ms IH]; cbn; intros st I L E.
    - injection E as <-. auto.
    - destruct (do_move cf m st) as [st1|] eqn:E1; [|discriminate].
      destruct (leaked_move m0 m st st1 I L E1) as (L1 & S1 & B1).
      destruct (IH st1 (move_inv cf m st st1 I E1) L1 E) as (L2 & S2 & B2).
      split; [exact L2|]. split.
      + intros Em. rewrite (S2 Em). exact (S1 Em).
      + intros t i Hi Ht. apply B2; [exact Hi|]. apply B1; assumption.
  Qed.

  Lemma leaked_forever : forall css ms (st st' : state), plain_notifier cf -> reachable cf css st ->
    leaked st MStatus -> exec cf ms st = Some st' ->
    leaked st' MStatus /\ sh_status (s_sh st') = sh_status (s_sh st) /\
    forall t i, i = ILock MStatus \/ i = IRLock MStatus -> about_to st t i -> about_to st' t i.
  Proof.
    intros css ms st st' P Hr L E.
    destruct (leaked_exec MStatus ms st st' (reachable_inv css st P Hr) L E) as (H1 & H2 & H3). auto.
  Qed.
End Main.
