(** Panics of the initializer and of Push. *)
From Coq Require Import List ZArith Bool Lia String.
From Verif Require Import Base.Go Base.Num Model.Status Model.Finish Model.CtrlLang Model.CtrlCode Model.InitPanic
  Spec.CtrlSpec Spec.InitPanicSpec Proofs.GoLemmas Proofs.CtrlCheck Proofs.CtrlSound Proofs.CtrlMain Proofs.CtrlTraces.
Import ListNotations.
Local Open Scope list_scope.

Ltac cases E :=
  repeat match type of E with
         | match ?x with _ => _ end = Some _ => destruct x eqn:?; try discriminate
         | (if ?x then _ else _) = Some _ => destruct x eqn:?; try discriminate
         end; try (injection E as <-).

Lemma returned_cons {C} t e (l : list (event C)) : returned t (e :: l) =
  returned t l ++ match e with EvReturn u r => if Nat.eqb t u then [r] else [] | _ => [] end.
Proof. unfold returned. cbn [rev]. rewrite flat_map_app. cbn [flat_map]. rewrite app_nil_r. reflexivity. Qed.

(** The goroutine waits for the status mutex, at once or after a local statement. *)
Definition first_blocks (p : list instr) : bool :=
  match p with
  | ILock MStatus :: _ | IRLock MStatus :: _
  | IGet _ :: ILock MStatus :: _ | IGet _ :: IRLock MStatus :: _ => true
  | _ => false
  end.

Section Panic.
  Context {C : Type}.
  Variable cf : cconf.
  Notation state := (state C).

  Lemma init_locks (st : state) t : inv st -> about_to st t IImplInit ->
    holds st MStatus t /\ ~ holds st MModel t /\ st_value (sh_status (s_sh st)) = Initializing.
  Proof.
    intros I H. destruct (at_next st t _ I H) as (th & k & alive & A & N & E & Ha & R & D & V & K).
    unfold next in K. cbn in K.
    destruct (no_owe A && a_s A && negb (a_m A) && sub_st (a_known A) [Initializing]) eqn:Eo;
      [|destruct K as [K|(B & K & _)]; discriminate].
    rewrite !andb_true_iff in Eo. destruct Eo as (((_ & Hs) & Hm) & Hk). apply negb_true_iff in Hm.
    destruct R. split; [apply r_s; exact Hs|]. split.
    - intros Hh. unfold holds in Hh. cbn in Hh. apply r_m in Hh. congruence.
    - specialize (r_known Hs). unfold sub_st in Hk. rewrite forallb_forall in Hk. apply Hk in r_known.
      apply in_st_In in r_known. destruct r_known as [E0|[]]. congruence.
  Qed.

  Lemma push_locks (st : state) t : inv st -> about_to st t IImplPush -> idle_locks st t.
  Proof.
    intros I H. destruct (at_next st t _ I H) as (th & k & alive & A & N & E & Ha & R & D & V & K).
    eapply rel_no_lock; [exact R|]. unfold next in K. cbn in K.
    destruct (no_owe A && no_lock A) eqn:Eo.
    - apply andb_true_iff in Eo. apply Eo.
    - destruct K as [K|(B & K & _)]; discriminate.
  Qed.

  Lemma play_panics_inv css t c cs (st st' : state) : plain_notifier cf -> reachable cf css st ->
    (forall m, ~ reads st m t) -> play_panics cf t c cs st st' -> inv st' /\ leaked st' MStatus.
  Proof.
    intros P Hr Hn (_ & th & (N & Ec) & ->). split; [|reflexivity].
    pose proof (reachable_inv cf css st P Hr) as I.
    destruct (init_locks st t I) as (Hs & Hm & Hv); [exists th; eexists; split; [exact N|exact Ec]|].
    unfold holds, reads in *. cbn in Hs, Hm.
    destruct st as [s ths]. cbn [s_sh s_th] in *. pose proof (proj1 I) as G. cbn [s_sh s_th] in G.
    assert (Er : rw_readers (sh_lock_s s) = []) by (apply (g_excl _ _ G MStatus); cbn; congruence).
    destruct (proj2 I t th N) as (alive & A & _ & _ & _ & _ & V).
    eapply inv_step; [exact I|exact N|..].
    - apply frame_lock; cbn [rw_holder rw_readers lock_of].
      + intros u Ne. rewrite Hs. split; congruence.
      + reflexivity.
    - apply glob_lock; cbn [rw_holder rw_readers]; try discriminate; try exact G.
      + apply (g_read _ _ G MStatus).
      + intros _. exact Er.
    - eapply typed_le with (alive := false) (A := abs0); try discriminate; [|..].
      + apply typed_check. rewrite check_client; [reflexivity|apply plain_notifier_ok; exact P].
      + split; cbn; try discriminate.
        * split; discriminate.
        * split; [discriminate|]. intros Hx. destruct (Hm Hx).
        * unfold readers. cbn. rewrite Er. reflexivity.
        * unfold readers. cbn. apply count_occ_not_In. exact (Hn MModel).
      + exact V.
  Qed.

  Definition waiting (t : nat) (st : state) : Prop :=
    exists th, nth_error (s_th st) t = Some th /\ first_blocks (th_code th) = true.

  Lemma step_returned t o u (st st' : state) : step cf t o st = Some st' -> u <> t ->
    returned u (sh_log (s_sh st')) = returned u (sh_log (s_sh st)).
  Proof.
    intros E Ne. unfold step in E. destruct (nth_error (s_th st) t) as [th|] eqn:N; [|discriminate].
    destruct (th_code th) as [|i k] eqn:Ec; [discriminate|]. apply Nat.eqb_neq in Ne.
    destruct i; cases E; unfold go_on, do_panic; cbn [s_sh s_th]; try (destruct (th_defer th); cbn [s_sh]);
      try (destruct m; reflexivity); try reflexivity; cbn [add_log sh_log]; try (rewrite returned_cons; cbv beta iota; rewrite ?Ne, app_nil_r; reflexivity).
    all: try (destruct op; cbn [mop_log add_log sh_log set_model]; rewrite ?returned_cons, ?app_nil_r; reflexivity).
  Qed.

  Lemma waiting_move m t (st st' : state) : leaked st MStatus -> waiting t st ->
    do_move cf m st = Some st' ->
    waiting t st' /\ returned t (sh_log (s_sh st')) = returned t (sh_log (s_sh st)).
  Proof.
    intros L (th & N & F). unfold do_move. destruct (sh_crashed (s_sh st)); [discriminate|].
    unfold leaked in L. cbn in L. destruct m as [u o|u r].
    - intros E. destruct (Nat.eq_dec t u) as [<-|Ne].
      + unfold step in E. rewrite N in E. destruct (th_code th) as [|i k]; [discriminate|].
        destruct i; try discriminate F.
        * destruct m; [|discriminate]. cbn in E. rewrite L in E. discriminate.
        * destruct m; [|discriminate]. cbn in E. rewrite L in E. discriminate.
        * injection E as <-. split; [|reflexivity]. unfold waiting, go_on. cbn [s_th].
          eexists. rewrite nth_error_upd, Nat.eqb_refl. cbn [andb].
          assert (Lt : t < List.length (s_th st)) by (apply nth_error_Some; congruence).
          apply Nat.ltb_lt in Lt. rewrite Lt. split; [reflexivity|]. cbn [th_code].
          destruct k as [|[] ?]; cbn in F |- *; try discriminate; destruct m; try discriminate; reflexivity.
      + split; [|eapply step_returned; eauto]. exists th. split; [|exact F]. eapply step_others; eauto.
    - intros E. destruct (comm_shared u r st st' E) as (H1 & H2 & _ & (c & v & (th1 & k1 & N1 & E1)) & Hr & Ho).
      assert (t <> u).
      { intros ->. assert (th1 = th) as -> by congruence. rewrite E1 in F. discriminate. }
      assert (t <> r).
      { intros ->. destruct Hr as [(th2 & k2 & N2 & E2)|[(c' & th2 & k2 & N2 & E2)|(p & th2 & k2 & N2 & E2)]];
        assert (th2 = th) as -> by congruence; rewrite E2 in F; discriminate. }
      split.
      + exists th. split; [|exact F]. rewrite Ho by assumption. exact N.
      + unfold comm in E. destruct (Nat.eqb u r); [discriminate|]. cases E. cbn [s_sh].
        unfold deliver_log. destruct c0; cbn [add_log sh_log]; rewrite ?returned_cons, ?app_nil_r; reflexivity.
  Qed.

  Lemma waiting_exec ms t (st st' : state) : inv st -> leaked st MStatus -> waiting t st ->
    exec cf ms st = Some st' -> returned t (sh_log (s_sh st')) = returned t (sh_log (s_sh st)).
  Proof.
    revert st. induction ms as [|m ms IH]; cbn; intros st I L W E.
    - injection E as <-. reflexivity.
    - destruct (do_move cf m st) as [st1|] eqn:E1; [|discriminate].
      destruct (waiting_move m t st st1 L W E1) as (W1 & R1).
      destruct (leaked_move cf MStatus m st st1 I L E1) as (L1 & _).
      rewrite <- R1. apply IH; auto. eapply move_inv; eauto.
  Qed.

  Lemma first_call c cs : c <> DModel -> first_blocks (client_code cf (c :: cs)) = true.
  Proof. intros H. destruct c; try reflexivity. destruct H; reflexivity. Qed.

  (** After a panic of the initializer within Play. *)
  Lemma play_panic_main : forall css t c cs ms (st st1 st' : state), plain_notifier cf -> reachable cf css st ->
    (forall m, ~ reads st m t) -> play_panics cf t c cs st st1 -> exec cf ms st1 = Some st' ->
    leaked st' MStatus /\ st_value (sh_status (s_sh st')) = Initializing /\
    (forall u i, i = ILock MStatus \/ i = IRLock MStatus -> about_to st1 u i -> about_to st' u i) /\
    (forall d ds, cs = d :: ds -> d <> DModel ->
      returned t (sh_log (s_sh st')) = returned t (sh_log (s_sh st))).
  Proof.
    intros css t c cs ms st st1 st' P Hr Hn Hp E.
    destruct (play_panics_inv css t c cs st st1 P Hr Hn Hp) as (I1 & L1).
    pose proof (reachable_inv cf css st P Hr) as I.
    destruct (leaked_exec cf MStatus ms st1 st' I1 L1 E) as (H1 & H2 & H3).
    destruct Hp as (_ & th & (N & Ec) & ->).
    destruct (init_locks st t I) as (_ & _ & Hv); [exists th; eexists; split; [exact N|exact Ec]|].
    split; [exact H1|]. split; [rewrite (H2 eq_refl); exact Hv|]. split; [exact H3|].
    intros d ds -> Hd. rewrite (waiting_exec ms t _ st' I1 L1); [reflexivity| |exact E].
    exists (mkThread (th_kind th) (client_code cf (d :: ds)) (th_loc th) None). cbn [s_th th_code].
    split; [|apply first_call; exact Hd]. rewrite nth_error_upd, Nat.eqb_refl. cbn [andb].
    assert (Lt : t < List.length (s_th st)) by (apply nth_error_Some; congruence).
    apply Nat.ltb_lt in Lt. rewrite Lt. reflexivity.
  Qed.

  (** Goroutines that do nothing. *)
  Lemma inert_app p q : inert (p ++ q) = inert p && inert q.
  Proof. apply forallb_app. Qed.

  Lemma inert_client cs : inert (client_code cf cs) = true.
  Proof.
    induction cs as [|c cs IH]; [reflexivity|]. unfold client_code in *. cbn [flat_map].
    rewrite inert_app, IH, andb_true_r. destruct c; reflexivity.
  Qed.
  Lemma inert_notifier : plain_notifier cf -> inert (notification_loop (cf_notifier cf)) = true.
  Proof.
    unfold plain_notifier, notification_loop. destruct (cf_notifier cf) as [p|]; [|reflexivity].
    intros (cs & H & ->). unfold inert. cbn [forallb inert_i app model_code]. rewrite !andb_true_r. cbn [andb].
    induction H as [|c cs Hc H IH]; [reflexivity|]. cbn [flat_map]. rewrite forallb_app, IH, andb_true_r.
    destruct c; cbn in Hc; try contradiction; reflexivity.
  Qed.

  Definition quiet (st : state) : Prop :=
    st_value (sh_status (s_sh st)) = Initializing /\
    forall u th, nth_error (s_th st) u = Some th -> inert (th_code th) = true /\ th_defer th = None.

  Definition same_work (st st' : state) : Prop :=
    sh_status (s_sh st') = sh_status (s_sh st) /\ List.length (s_th st') = List.length (s_th st) /\
    m_centroids (sh_model (s_sh st')) = m_centroids (sh_model (s_sh st)) /\
    m_iter (sh_model (s_sh st')) = m_iter (sh_model (s_sh st)).

  Lemma quiet_upd s s' ths t th : quiet (mkState s ths) -> sh_status s' = sh_status s ->
    inert (th_code th) = true -> th_defer th = None -> quiet (mkState s' (upd ths t th)).
  Proof.
    intros [H1 H2] E Hi Hd. split; cbn [s_sh s_th] in *; [congruence|].
    intros u thu Hu. rewrite nth_error_upd in Hu. destruct (Nat.eqb u t && _) in Hu.
    - injection Hu as <-. auto.
    - eapply H2. exact Hu.
  Qed.

  Lemma quiet_step t o (st st' : state) : quiet st -> step cf t o st = Some st' -> quiet st' /\ same_work st st'.
  Proof.
    intros Q E. pose proof Q as [Hs H]. unfold step in E.
    destruct (nth_error (s_th st) t) as [th|] eqn:N; [|discriminate].
    destruct (th_code th) as [|i k] eqn:Ec; [discriminate|].
    destruct (H t th N) as (Hi & Hd). rewrite Ec in Hi. cbn in Hi.
    destruct st as [s ths]. cbn [s_sh s_th] in *.
    destruct i; try discriminate Hi; apply andb_true_iff in Hi; destruct Hi as (Hi & Hk);
      cases E; unfold go_on, do_panic; cbn [s_sh s_th]; rewrite ?Hd; unfold same_work; cbn [s_sh s_th];
      rewrite ?upd_length; try (destruct m); try (destruct op; try discriminate Hi);
      try (split; [first [exact Q|apply quiet_upd with (s := s); cbn [th_code th_defer]; auto; reflexivity]
                  |repeat split; reflexivity]).
    - (* ITryAck *)
      split; [|repeat split; reflexivity]. apply quiet_upd with (s := s); auto. cbn [th_code].
      rewrite inert_app. unfold inert. cbn in Hi. rewrite Hi, Hk. reflexivity.
    - (* IIf *)
      split; [|repeat split; reflexivity]. apply quiet_upd with (s := s); auto. cbn [th_code].
      rewrite inert_app. fold (inert k) in Hk. rewrite Hk, andb_true_r. unfold inert.
      assert (Hb : forallb inert_i p && forallb inert_i q = true ->
        forallb inert_i (if eval_cond cf c s (th_loc th) then p else q) = true).
      { intros Hb. apply andb_true_iff in Hb. destruct (eval_cond cf c s (th_loc th)); apply Hb. }
      destruct c; cbn [inert_i] in Hi; try exact (Hb Hi).
      cbn [eval_cond]. rewrite Hs. destruct v; cbn [status_eqb]; exact Hi.
    - (* ILoop *)
      split; [|repeat split; reflexivity]. apply quiet_upd with (s := s); auto. cbn [th_code].
      cbn [inert_i] in Hi. fold (inert k) in Hk.
      destruct (eval_cond cf c s (th_loc th)); [|exact Hk].
      rewrite inert_app. unfold inert in *. cbn [forallb inert_i]. rewrite Hi, Hk. reflexivity.
  Qed.

  Lemma quiet_comm t r (st st' : state) : quiet st -> comm t r st = Some st' -> quiet st' /\ same_work st st'.
  Proof.
    intros Q E. pose proof Q as [Hs H]. destruct (comm_shared t r st st' E) as (_ & H2 & H3 & _).
    unfold comm in E. destruct (Nat.eqb t r) eqn:Er; [discriminate|].
    destruct (nth_error (s_th st) t) as [th|] eqn:N; [|discriminate].
    destruct (nth_error (s_th st) r) as [thr|] eqn:Nr; [|discriminate].
    destruct (th_code th) as [|i k] eqn:Ec; [discriminate|]. destruct i; try discriminate.
    destruct (closed c (s_sh st)); [discriminate|].
    destruct (receiver c (s_sh st) (th_code thr)) as [kr|] eqn:Ek; [|discriminate].
    destruct (H t th N) as (Hi & Hd). destruct (H r thr Nr) as (Hir & Hdr). rewrite Ec in Hi. cbn in Hi.
    assert (Hkr : inert kr = true).
    { destruct (th_code thr) as [|j kj]; [discriminate|]. cbn in Hir. apply andb_true_iff in Hir.
      destruct j; try discriminate; cbn in Ek; destruct (chan_eqb _ _) in Ek; try discriminate; injection Ek as <-; apply Hir. }
    injection E as <-. split.
    - apply quiet_upd with (s := s_sh st); auto. destruct st as [s ths]. cbn [s_sh s_th] in *.
      apply quiet_upd with (s := s); auto.
    - split; [exact H2|]. split; [cbn [s_th]; rewrite !upd_length; reflexivity|]. cbn [s_sh] in *. rewrite H3. auto.
  Qed.

  Lemma quiet_exec ms (st st' : state) : quiet st -> exec cf ms st = Some st' -> quiet st' /\ same_work st st'.
  Proof.
    revert st. induction ms as [|m ms IH]; cbn; intros st Q E.
    - injection E as <-. split; [exact Q|]. repeat split; reflexivity.
    - destruct (do_move cf m st) as [st1|] eqn:E1; [|discriminate].
      assert (Q1 : quiet st1 /\ same_work st st1).
      { unfold do_move in E1. destruct (sh_crashed (s_sh st)); [discriminate|].
        destruct m; [eapply quiet_step; eauto|eapply quiet_comm; eauto]. }
      destruct Q1 as (Q1 & W1). destruct (IH st1 Q1 E) as (Q2 & W2). split; [exact Q2|].
      destruct W1 as (? & ? & ? & ?), W2 as (? & ? & ? & ?). repeat split; congruence.
  Qed.

  (** After a panic of the initializer within Init. *)
  Lemma init_panic_main : forall css t cs ms (st st1 st' : state), plain_notifier cf -> reachable cf css st ->
    others_inert t st -> init_panics cf t cs st st1 -> exec cf ms st1 = Some st' ->
    st_value (sh_status (s_sh st')) = Initializing /\
    List.length (s_th st') = List.length (s_th st) /\
    m_centroids (sh_model (s_sh st')) = m_centroids (sh_model (s_sh st)) /\
    m_iter (sh_model (s_sh st')) = m_iter (sh_model (s_sh st)).
  Proof.
    intros css t cs ms st st1 st' P Hr Ho (th & (N & Ec) & ->) E.
    pose proof (reachable_inv cf css st P Hr) as I.
    destruct (init_locks st t I) as (_ & _ & Hv); [exists th; eexists; split; [exact N|exact Ec]|].
    match type of E with exec cf ms ?x = _ => assert (Q0 : quiet x) end.
    { split; [exact Hv|]. cbn [s_th]. intros u thu Hu. rewrite nth_error_upd in Hu.
      destruct (Nat.eqb_spec u t) as [->|Ne]; cbn [andb] in Hu.
      - assert (Lt : t < List.length (s_th st)) by (apply nth_error_Some; congruence).
        apply Nat.ltb_lt in Lt. rewrite Lt in Hu. injection Hu as <-. cbn [th_code th_defer]. split; [|reflexivity].
        unfold inert. cbn [forallb inert_i]. apply inert_client.
      - exact (Ho u thu Ne Hu). }
    destruct (quiet_exec ms _ st' Q0 E) as (Q & (W1 & W2 & W3 & W4)).
    cbn [s_sh s_th] in *. rewrite upd_length in W2. split; [apply Q|]. auto.
  Qed.

  (** Where the methods of the implementation are called. *)
  Lemma impl_calls : forall css (st : state), plain_notifier cf -> reachable cf css st ->
    (forall t, about_to st t IImplPush -> forall m, ~ holds st m t /\ ~ reads st m t) /\
    (forall t, about_to st t IImplInit ->
      holds st MStatus t /\ ~ holds st MModel t /\ st_value (sh_status (s_sh st)) = Initializing).
  Proof.
    intros css st P Hr. pose proof (reachable_inv cf css st P Hr) as I. split; intros t H.
    - intros m. destruct (push_locks st t I H). auto.
    - apply init_locks; assumption.
  Qed.

  Lemma inert_calls : plain_notifier cf ->
    (forall cs, inert (client_code cf cs) = true) /\ inert (notification_loop (cf_notifier cf)) = true.
  Proof. intros P. split; [exact inert_client|exact (inert_notifier P)]. Qed.
End Panic.

(** Concrete panics: client 0 is stopped when it is about to call impl.Init. *)
Definition d_impl_init : list directive := [Go 0; Go 1; Send 0 1; Steps 0 4; Go 1].
Definition t_init_panic := (conf1, o_ok, [[DInit; DPlay; DStatus]], d_impl_init).
Definition t_play_panic := (conf1, o_ok, [[DPlay; DStatus]], d_impl_init).
Definition t_batch_panic := (conf1, o_ok, [[DBatch; DModel; DStop]], d_impl_init).
Definition t_init_two := (conf1, o_ok, [[DInit; DPlay]; [DStop; DPlay]],
  [Go 0; Go 2; Send 0 2; Steps 0 4; Go 2]).
Definition t_push := (conf1, o_ok, [[DPush]], [Steps 0 4]).

(** The state after the panic within Init, and within Play. *)
Definition after_init_panic (cs : list dcall) (st : state nat) : state nat :=
  match nth_error (s_th st) 0 with
  | Some th => mkState (s_sh st)
      (upd (s_th st) 0 (mkThread (th_kind th) (IUnlock MStatus :: client_code conf1 cs) (th_loc th) None))
  | None => st
  end.
Definition after_play_panic (cs : list dcall) (st : state nat) : state nat :=
  match nth_error (s_th st) 0 with
  | Some th => mkState
      (set_lock MStatus (mkRw HLeaked (rw_pending (sh_lock_s (s_sh st))) (rw_readers (sh_lock_s (s_sh st)))) (s_sh st))
      (upd (s_th st) 0 (mkThread (th_kind th) (client_code conf1 cs) (th_loc th) None))
  | None => st
  end.
(** The state when goroutine 0 has gone on until it blocks. *)
Definition then_go (st : state nat) : list (move nat) := schedule conf1 o_ok [Go 0] st.
Definition gone (st : state nat) : state nat :=
  match exec conf1 (then_go st) st with Some st' => st' | None => st end.

Lemma play_nil : exists (st st1 st' : state nat) ms, reachable conf1 [[DInit; DPlay; DStatus]] st /\
  init_panics conf1 0 [DPlay; DStatus] st st1 /\ exec conf1 ms st1 = Some st' /\
  returned 0 (sh_log (s_sh st')) = [None] /\ st_value (sh_status (s_sh st')) = Initializing /\
  (forall u, kind_of st' u <> Some KRunner) /\ leaked st' MStatus /\
  about_to st' 0 (IRLock MStatus) /\ all_blocked conf1 st'.
Proof.
  exists (st_of t_init_panic), (after_init_panic [DPlay; DStatus] (st_of t_init_panic)),
    (gone (after_init_panic [DPlay; DStatus] (st_of t_init_panic))),
    (then_go (after_init_panic [DPlay; DStatus] (st_of t_init_panic))).
  split; [apply st_of_reachable; calc|].
  split; [eexists; split; [split; calc|calc]|].
  split; [calc|]. split; [calc|]. split; [calc|]. split.
  { intros u. destruct u as [|[|u]]; [vm_compute; discriminate|vm_compute; discriminate|].
    unfold kind_of. replace (nth_error _ _) with (@None (thread nat)); [discriminate|].
    symmetry. apply nth_error_None. replace (List.length _) with 2 by calc. lia. }
  split; [calc|]. split; [here|]. dead.
Qed.
