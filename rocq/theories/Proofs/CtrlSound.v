(** Code that passes the check of Proofs/CtrlCheck.v keeps its promises in every interleaving. *)
From Coq Require Import List ZArith Bool Lia String.
From Verif Require Import Base.Go Base.Num Model.Status Model.Finish Model.CtrlLang Model.CtrlCode
  Proofs.GoLemmas Proofs.CtrlCheck.
Import ListNotations.
Local Open Scope list_scope.

(** Weakening of what is known. *)
Record le (A B : abs) : Prop := mkLe {
  le_s : a_s A = a_s B;
  le_m : a_m A = a_m B;
  le_rs : a_rs A = a_rs B;
  le_rm : a_rm A = a_rm B;
  le_known : a_s A = true -> incl (a_known A) (a_known B);
  le_owe : a_owe A = a_owe B;
  le_dirty : a_dirty A = a_dirty B;
  le_open : a_open A = a_open B;
  le_def : a_def A = a_def B
}.

Lemma le_refl A : le A A.
Proof. split; auto with datatypes. Qed.

Lemma le_trans A B D : le A B -> le B D -> le A D.
Proof.
  intros H1 H2. destruct H1, H2. split; try congruence.
  intros Hs. eapply incl_tran; [auto|]. apply le_known1. congruence.
Qed.

Inductive typed (alive : bool) : list instr -> abs -> Prop :=
| ty_end A : ok_final (Cont A) = true -> typed alive [] A
| ty_dead p k A : check alive p A = Dead -> typed alive (p ++ k) A
| ty_cont p k A B B' : check alive p A = Cont B -> le B B' -> typed alive k B' -> typed alive (p ++ k) A.

Lemma typed_inv alive code A : typed alive code A ->
  match code with
  | [] => exists A', le A A' /\ ok_final (Cont A') = true
  | i :: k => exists A', le A A' /\
      (check_i alive i A' = Dead \/ exists B, check_i alive i A' = Cont B /\ typed alive k B)
  end.
Proof.
  induction 1 as [A H|p k A H|p k A B B' H L T IH].
  - exists A. split; [apply le_refl|exact H].
  - destruct p as [|i p].
    + cbn in H. discriminate.
    + cbn [app]. exists A. split; [apply le_refl|]. cbn in H.
      destruct (check_i alive i A) as [| |B] eqn:E; [discriminate|left; reflexivity|right].
      exists B. split; [reflexivity|]. exact (ty_dead alive p k B H).
  - destruct p as [|i p].
    + cbn in H. injection H as H. subst B. cbn [app].
      destruct k as [|i k].
      * destruct IH as (A' & L' & F). exists A'. split; [eapply le_trans; eauto|exact F].
      * destruct IH as (A' & L' & F). exists A'. split; [eapply le_trans; eauto|exact F].
    + cbn [app]. exists A. split; [apply le_refl|]. cbn in H.
      destruct (check_i alive i A) as [| |B0] eqn:E; [discriminate|discriminate|right].
      exists B0. split; [reflexivity|]. exact (ty_cont alive p k B0 B B' H L T).
Qed.

Lemma typed_check alive p A : ok_final (check alive p A) = true -> typed alive p A.
Proof.
  intros H. rewrite <- (app_nil_r p). destruct (check alive p A) as [| |B] eqn:E.
  - discriminate.
  - apply ty_dead. exact E.
  - eapply ty_cont; [exact E|apply le_refl|]. apply ty_end. exact H.
Qed.

(** A branch of a join. *)
Lemma join_left r r' k alive p A : check alive p A = r ->
  (join r r' = Dead \/ exists B, join r r' = Cont B /\ typed alive k B) -> typed alive (p ++ k) A.
Proof.
  intros E H. destruct r as [| |R].
  - cbn in H. destruct H as [H|(B & H & _)]; discriminate.
  - apply ty_dead. exact E.
  - destruct r' as [| |R']; cbn in H.
    + destruct H as [H|(B & H & _)]; discriminate.
    + destruct H as [H|(B & H & T)]; [discriminate|]. injection H as H. subst B.
      eapply ty_cont; [exact E|apply le_refl|exact T].
    + destruct (same_shape R R') eqn:S.
      * destruct H as [H|(B & H & T)]; [discriminate|]. injection H as H. subst B.
        eapply ty_cont; [exact E| |exact T]. split; cbn; auto with datatypes.
      * destruct H as [H|(B & H & _)]; discriminate.
Qed.

Lemma same_shape_le A B D : same_shape A B = true ->
  (a_s A = true -> incl (a_known B) (a_known D)) ->
  a_s D = a_s A -> a_m D = a_m A -> a_rs D = a_rs A -> a_rm D = a_rm A -> a_owe D = a_owe A ->
  a_dirty D = a_dirty A -> a_open D = a_open A -> a_def D = a_def A -> le B D.
Proof.
  unfold same_shape. intros H K. rewrite !andb_true_iff in H.
  destruct H as (((((((((H1 & H2) & H3) & H4) & H5) & H6) & H7) & H8) & H9) & H10).
  apply eqb_prop in H1, H2, H7, H10. apply Nat.eqb_eq in H3, H4. intros.
  unfold no_owe in *. split; try congruence.
  - intros Hs. apply K. congruence.
  - destruct (a_owe A), (a_owe B); congruence.
  - apply negb_true_iff in H8, H9. congruence.
Qed.

Lemma join_right r r' k alive p A : check alive p A = r' ->
  (join r r' = Dead \/ exists B, join r r' = Cont B /\ typed alive k B) -> typed alive (p ++ k) A.
Proof.
  intros E H. destruct r' as [| |R'].
  - destruct r; cbn in H; destruct H as [H|(B & H & _)]; discriminate.
  - apply ty_dead. exact E.
  - destruct r as [| |R]; cbn in H.
    + destruct H as [H|(B & H & _)]; discriminate.
    + destruct H as [H|(B & H & T)]; [discriminate|]. injection H as H. subst B.
      eapply ty_cont; [exact E|apply le_refl|exact T].
    + destruct (same_shape R R') eqn:S.
      * destruct H as [H|(B & H & T)]; [discriminate|]. injection H as H. subst B.
        eapply ty_cont; [exact E| |exact T].
        eapply same_shape_le; [exact S|..]; cbn; auto with datatypes.
      * destruct H as [H|(B & H & _)]; discriminate.
Qed.

Lemma status_eqb_eq a b : status_eqb a b = true <-> a = b.
Proof. destruct a, b; cbn; split; congruence. Qed.
Lemma status_eqb_refl a : status_eqb a a = true.
Proof. destruct a; reflexivity. Qed.

Lemma in_st_In v l : in_st v l = true <-> In v l.
Proof.
  unfold in_st. rewrite existsb_exists. split.
  - intros (w & H & E). apply status_eqb_eq in E. subst. exact H.
  - intros H. exists v. split; [exact H|apply status_eqb_refl].
Qed.

Lemma mem_In n l : mem n l = true <-> In n l.
Proof.
  unfold mem. rewrite existsb_exists. split.
  - intros (w & H & E). apply Nat.eqb_eq in E. subst. exact H.
  - intros H. exists n. split; [exact H|apply Nat.eqb_refl].
Qed.

Lemma figure_set rf k v k' :
  figure (set_figure rf k v) k' = if String.eqb k k' then v else figure rf k'.
Proof.
  unfold figure, set_figure. cbn. destruct (String.eqb k k') eqn:E; [reflexivity|].
  induction rf as [|[k0 v0] rf IH]; [reflexivity|]. cbn.
  destruct (String.eqb k0 k) eqn:E0; cbn.
  - apply String.eqb_eq in E0. subst k0. rewrite E. exact IH.
  - destruct (String.eqb k0 k'); [reflexivity|exact IH].
Qed.

Section Sound.
  Context {C : Type}.
  Variable cf : cconf.
  Notation shared := (shared C).
  Notation thread := (thread C).
  Notation state := (state C).
  Notation oracle := (oracle C).

  Definition readers (m : mutex) (s : shared) (t : nat) : nat :=
    count_occ Nat.eq_dec (rw_readers (lock_of m s)) t.

  (** The figures of the model are up to date. *)
  Definition fig_ok (m : model_st C) : Prop :=
    figure (m_figs m) "iterations" = b64_of_Z (m_iter m) /\
    figure (m_figs m) "pushedData" = b64_of_Z (m_pushed m) /\
    figure (m_figs m) "lastDataTime" = b64_of_Z (m_last m).

  Record rel (A : abs) (s : shared) (t : nat) (d : option (list instr)) : Prop := mkRel {
    r_s : a_s A = true <-> rw_holder (sh_lock_s s) = HBy t;
    r_m : a_m A = true <-> rw_holder (sh_lock_m s) = HBy t;
    r_rs : readers MStatus s t = a_rs A;
    r_rm : readers MModel s t = a_rm A;
    r_known : a_s A = true -> In (st_value (sh_status s)) (a_known A);
    r_fig : a_m A = true -> a_dirty A = false -> fig_ok (sh_model s);
    r_dirty : a_dirty A = true -> a_m A = true;
    r_open : a_open A = true -> a_s A = true /\ ~ In (sh_ack s) (sh_closed s);
    r_def : a_def A = true -> d <> None
  }.

  Lemma rel_le A B s t d : le A B -> rel A s t d -> rel B s t d.
  Proof.
    intros [] []. split; try congruence.
    - intros H. apply le_known0; [congruence|]. apply r_known0. congruence.
    - intros H1 H2. apply r_fig0; congruence.
    - intros H. rewrite <- le_m0. apply r_dirty0. congruence.
    - intros H. rewrite <- le_s0. apply r_open0. congruence.
    - intros H. apply r_def0. congruence.
  Qed.

  Definition recv_ok (l : locals C) : Prop :=
    In (st_value (l_recv l)) received /\ wf_status (l_recv l) = true.

  Definition thr_inv (s : shared) (t : nat) (th : thread) : Prop :=
    exists alive A, (alive = true -> st_value (sh_status s) <> Created) /\
      typed alive (th_code th) A /\ rel A s t (th_defer th) /\
      (forall d, th_defer th = Some d -> typed alive d abs0) /\ recv_ok (th_loc th).

  Record glob (s : shared) (n : nat) : Prop := mkGlob {
    g_hold : forall m t, rw_holder (lock_of m s) = HBy t -> t < n;
    g_read : forall m t, In t (rw_readers (lock_of m s)) -> t < n;
    g_excl : forall m, rw_holder (lock_of m s) <> HFree -> rw_readers (lock_of m s) = [];
    g_init : rw_holder (sh_lock_s s) = HFree -> st_value (sh_status s) <> Initializing;
    g_fig : (forall t, rw_holder (sh_lock_m s) <> HBy t) -> fig_ok (sh_model s);
    g_leak : rw_holder (sh_lock_m s) <> HLeaked;
    g_ack : sh_ack s < sh_nack s;
    g_closed : forall n, In n (sh_closed s) -> n < sh_nack s;
    g_wf : wf_status (sh_status s) = true;
    g_crash : sh_crashed s = false
  }.

  Definition inv (st : state) : Prop :=
    glob (s_sh st) (List.length (s_th st)) /\
    forall t th, nth_error (s_th st) t = Some th -> thr_inv (s_sh st) t th.

  (** What a step of goroutine [t] keeps for the others. *)
  Record frame (t : nat) (s s' : shared) : Prop := mkFrame {
    f_hold : forall m u, u <> t -> (rw_holder (lock_of m s') = HBy u <-> rw_holder (lock_of m s) = HBy u);
    f_read : forall m u, u <> t -> readers m s' u = readers m s u;
    f_stat : forall u, u <> t -> rw_holder (sh_lock_s s) = HBy u -> sh_status s' = sh_status s;
    f_model : forall u, u <> t -> rw_holder (sh_lock_m s) = HBy u -> sh_model s' = sh_model s;
    f_created : st_value (sh_status s) <> Created -> st_value (sh_status s') <> Created;
    f_open : forall u, u <> t -> rw_holder (sh_lock_s s) = HBy u ->
      ~ In (sh_ack s) (sh_closed s) -> ~ In (sh_ack s') (sh_closed s')
  }.

  Lemma thr_frame t s s' u th : u <> t -> frame t s s' -> thr_inv s u th -> thr_inv s' u th.
  Proof.
    intros N F (alive & A & Ha & T & R & D & V). exists alive, A.
    split; [intros H; apply (f_created _ _ _ F); auto|]. split; [exact T|].
    split; [|split; [exact D|exact V]].
    destruct R. pose proof (f_hold _ _ _ F MStatus u N) as HS. pose proof (f_hold _ _ _ F MModel u N) as HM.
    cbn in HS, HM. split.
    - rewrite HS. exact r_s0.
    - rewrite HM. exact r_m0.
    - rewrite (f_read _ _ _ F MStatus u N). exact r_rs0.
    - rewrite (f_read _ _ _ F MModel u N). exact r_rm0.
    - intros H. rewrite (f_stat _ _ _ F u N) by (apply r_s0; exact H). auto.
    - intros H H'. rewrite (f_model _ _ _ F u N) by (apply r_m0; exact H). auto.
    - exact r_dirty0.
    - intros H. destruct (r_open0 H) as [H1 H2]. split; [exact H1|].
      apply (f_open _ _ _ F u N); [apply r_s0; exact H1|exact H2].
    - exact r_def0.
  Qed.

  Lemma inv_step t s s' ths th th' : inv (mkState s ths) -> nth_error ths t = Some th ->
    frame t s s' -> glob s' (List.length ths) -> thr_inv s' t th' -> inv (mkState s' (upd ths t th')).
  Proof.
    intros [G H] N F G' T. split; cbn [s_sh s_th] in *.
    - rewrite upd_length. exact G'.
    - intros u thu Hu. rewrite nth_error_upd in Hu.
      destruct (Nat.eqb_spec u t) as [->|Ne]; cbn [andb] in Hu.
      + destruct (Nat.ltb_spec t (List.length ths)) as [Lt|Ge].
        * injection Hu as Hu. subst. exact T.
        * apply nth_error_None in Ge. congruence.
      + eapply thr_frame; [exact Ne|exact F|]. apply H. exact Hu.
  Qed.

  Ltac frame_tac := split; intros; cbn in *; try tauto; try congruence; auto.

  Lemma frame_refl t s : frame t s s.
  Proof. frame_tac. Qed.

  Lemma inv_local t s ths th th' : inv (mkState s ths) -> nth_error ths t = Some th ->
    thr_inv s t th' -> inv (mkState s (upd ths t th')).
  Proof.
    intros H N T. eapply inv_step; eauto; [apply frame_refl|]. apply H.
  Qed.

  Lemma inv_spawn s ths th : inv (mkState s ths) ->
    (exists alive, (alive = true -> st_value (sh_status s) <> Created) /\ typed alive (th_code th) abs0) ->
    th_defer th = None -> recv_ok (th_loc th) -> inv (mkState s (ths ++ [th])).
  Proof.
    intros [G H] (alive & Ha & T) D V. cbn [s_sh s_th] in *. split; cbn [s_sh s_th].
    - rewrite app_length. cbn. destruct G. split; auto.
      + intros m t Hm. specialize (g_hold0 m t Hm). lia.
      + intros m t Hm. specialize (g_read0 m t Hm). lia.
    - intros t th' Ht. destruct (Nat.lt_ge_cases t (List.length ths)) as [Lt|Ge].
      + rewrite nth_error_app1 in Ht by exact Lt. auto.
      + rewrite nth_error_app2 in Ht by exact Ge.
        destruct (t - List.length ths) as [|k] eqn:E; cbn in Ht; [|destruct k; discriminate].
        injection Ht as Ht. subst th'. exists alive, abs0. split; [exact Ha|]. split; [exact T|].
        split; [|split; [congruence|exact V]].
        assert (t = List.length ths) as -> by lia.
        assert (Hh : forall m, rw_holder (lock_of m s) <> HBy (List.length ths)).
        { intros m Hm. pose proof (g_hold _ _ G m _ Hm). lia. }
        assert (Hr : forall m, readers m s (List.length ths) = 0).
        { intros m. apply count_occ_not_In. intros Hi. pose proof (g_read _ _ G m _ Hi). lia. }
        split; cbn; try apply Hr; try discriminate.
        * split; [discriminate|]. intros Hx. destruct (Hh MStatus Hx).
        * split; [discriminate|]. intros Hx. destruct (Hh MModel Hx).
  Qed.

  Lemma fig_ok_figures m : fig_ok (model_figures m).
  Proof. unfold fig_ok, model_figures, update_figures. cbn [m_figs m_iter m_pushed m_last]. rewrite !figure_set. cbn. auto. Qed.
  Lemma fig_ok_reset m : fig_ok (model_reset m).
  Proof. unfold fig_ok, model_reset, update_figures. cbn [m_figs m_iter m_pushed m_last]. rewrite !figure_set. cbn. auto. Qed.
  Lemma fig_ok_save m c f d : fig_ok (model_save m c f d).
  Proof. unfold model_save. apply fig_ok_figures. Qed.
  Lemma fig_ok_duration m d : fig_ok m -> fig_ok (model_duration m d).
  Proof.
    unfold fig_ok, model_duration. cbn [m_figs m_iter m_pushed m_last]. rewrite !figure_set. cbn. auto.
  Qed.

  Definition next (alive : bool) (i : instr) (k : list instr) (A : abs) : Prop :=
    check_i alive i A = Dead \/ exists B, check_i alive i A = Cont B /\ typed alive k B.

  Lemma next_typed alive i i' k A : check_i alive i A = check_i alive i' A -> next alive i k A ->
    typed alive (i' :: k) A.
  Proof.
    intros E [H|(B & H & T)].
    - apply (ty_dead alive [i'] k A). cbn. rewrite <- E, H. reflexivity.
    - apply (ty_cont alive [i'] k A B B); [|apply le_refl|exact T]. cbn. rewrite <- E, H. reflexivity.
  Qed.

  Lemma typed_le alive k A : typed alive k A -> forall s t d, rel A s t d ->
    (alive = true -> st_value (sh_status s) <> Created) ->
    (forall c, d = Some c -> typed alive c abs0) -> forall kd l, recv_ok l ->
    thr_inv s t (mkThread kd k l d).
  Proof. intros T s t d R Ha D kd l V. exists alive, A. auto. Qed.

  Lemma free_known_ok alive (s : shared) n : glob s n ->
    rw_holder (sh_lock_s s) = HFree -> (alive = true -> st_value (sh_status s) <> Created) ->
    In (st_value (sh_status s)) (free_known alive).
  Proof.
    intros G H Ha. pose proof (g_init _ _ G H) as Hi. unfold free_known.
    destruct (st_value (sh_status s)); destruct alive; cbn; tauto.
  Qed.

  Ltac kfail K := unfold next in K; cbn -[free_known check_list] in K.
  Ltac splits := repeat match goal with |- _ /\ _ => split end.


  Lemma glob_lock m l (s : shared) n : glob s n ->
    (forall t, rw_holder l = HBy t -> t < n) -> (forall t, In t (rw_readers l) -> t < n) ->
    (rw_holder l <> HFree -> rw_readers l = []) ->
    (m = MStatus -> rw_holder l = HFree -> st_value (sh_status s) <> Initializing) ->
    (m = MModel -> (forall t, rw_holder l <> HBy t) -> fig_ok (sh_model s)) ->
    (m = MModel -> rw_holder l <> HLeaked) -> glob (set_lock m l s) n.
  Proof.
    intros [] H1 H2 H3 H4 H5 H6.
    destruct m; split; intros; cbn in *; auto;
    match goal with m : mutex |- _ => destruct m end; cbn in *; auto;
    first [eapply (g_hold0 MModel); eassumption|eapply (g_hold0 MStatus); eassumption
          |eapply (g_read0 MModel); eassumption|eapply (g_read0 MStatus); eassumption
          |apply (g_excl0 MModel); assumption|apply (g_excl0 MStatus); assumption].
  Qed.

  Lemma frame_lock t m l (s : shared) :
    (forall u, u <> t -> (rw_holder l = HBy u <-> rw_holder (lock_of m s) = HBy u)) ->
    (forall u, u <> t -> count_occ Nat.eq_dec (rw_readers l) u = readers m s u) ->
    frame t s (set_lock m l s).
  Proof.
    intros H1 H2. destruct m; split; intros; cbn in *; auto;
    match goal with m : mutex |- _ => destruct m end; cbn in *; auto; try tauto; exact (H2 _ H).
  Qed.

  Lemma count_remove1 t l u : count_occ Nat.eq_dec (remove1 t l) u =
    if Nat.eq_dec t u then count_occ Nat.eq_dec l u - 1 else count_occ Nat.eq_dec l u.
  Proof.
    induction l as [|a l IH]; cbn.
    - destruct (Nat.eq_dec t u); reflexivity.
    - destruct (Nat.eqb_spec t a) as [->|Ne]; cbn.
      + destruct (Nat.eq_dec a u); lia.
      + destruct (Nat.eq_dec a u) as [->|Ne']; rewrite IH; destruct (Nat.eq_dec t u); congruence.
  Qed.

  Lemma remove1_In t l u : In u (remove1 t l) -> In u l.
  Proof.
    induction l as [|a l IH]; cbn; [tauto|].
    destruct (Nat.eqb t a); cbn; tauto.
  Qed.

  Section Step.
    Variables (t : nat) (s : shared) (ths : list thread) (th : thread) (alive : bool) (A : abs) (k : list instr).
    Hypothesis I : inv (mkState s ths).
    Hypothesis N : nth_error ths t = Some th.
    Hypothesis Ha : alive = true -> st_value (sh_status s) <> Created.
    Hypothesis R : rel A s t (th_defer th).
    Hypothesis D : forall d, th_defer th = Some d -> typed alive d abs0.
    Hypothesis V : recv_ok (th_loc th).

    (** Local steps. *)
    Lemma step_local k' l : typed alive k' A -> recv_ok l -> inv (go_on t th k' l s ths).
    Proof using I N Ha R D.
      intros T Vl. unfold go_on. eapply inv_local; [exact I|exact N|].
      eapply typed_le; eauto.
    Qed.


    Lemma t_lt : t < List.length ths.
    Proof using N. apply nth_error_Some. congruence. Qed.

    Let G : glob s (List.length ths) := proj1 I.

    Lemma step_lock m : next alive (ILock m) k A ->
      rw_holder (lock_of m s) = HFree -> rw_pending (lock_of m s) = None ->
      inv (go_on t th (IAcquire m :: k) (th_loc th)
             (set_lock m (mkRw HFree (Some t) (rw_readers (lock_of m s))) s) ths).
    Proof using I N Ha R D V.
      intros K Hf Hp. unfold go_on. eapply inv_step; [exact I|exact N|..].
      - apply frame_lock; [intros u _; rewrite Hf; tauto|reflexivity].
      - apply glob_lock; [exact G|discriminate|apply (g_read _ _ G)|intros []; reflexivity| | |discriminate].
        + intros -> _. apply (g_init _ _ G). exact Hf.
        + intros -> _. apply (g_fig _ _ G). intros u. cbn in Hf. rewrite Hf. discriminate.
      - eapply typed_le with (A := A); [eapply next_typed; [|exact K]; destruct m; reflexivity|..]; auto.
        + destruct R. destruct m; cbn in *; split; cbn; auto; rewrite <- ?Hf; auto.
        + destruct m; exact Ha.
    Qed.

    Lemma step_acquire m : next alive (IAcquire m) k A ->
      rw_holder (lock_of m s) = HFree -> rw_readers (lock_of m s) = [] ->
      inv (go_on t th k (th_loc th) (set_lock m (mkRw (HBy t) None []) s) ths).
    Proof using I N Ha R D V.
      intros K Hf Hr. unfold go_on. eapply inv_step; [exact I|exact N|..].
      - apply frame_lock; cbn.
        + intros u Ne. rewrite Hf. split; congruence.
        + intros u _. unfold readers. rewrite Hr. reflexivity.
      - apply glob_lock; cbn; try discriminate; try tauto; try exact G.
        + intros u [= <-]. apply t_lt.
        + intros _ H. destruct (H t eq_refl).
      - pose proof (free_known_ok alive s _ G) as Hk.
        pose proof (g_fig _ _ G) as Hg. destruct R. destruct m; unfold next in K; cbn -[free_known] in *.
        + unfold readers in r_rs0. cbn in r_rs0. rewrite Hr in r_rs0. cbn in r_rs0. rewrite <- r_rs0 in *.
          destruct (negb (no_owe A) || a_s A); [destruct K as [K|(B & K & _)]; discriminate|].
          cbn -[free_known] in K. destruct K as [K|(B & K & T)]; [discriminate|]. injection K as <-.
          eapply typed_le; [exact T| |exact Ha|exact D|exact V].
          split; cbn -[free_known]; auto; try discriminate.
          split; reflexivity.
        + unfold readers in r_rm0. cbn in r_rm0. rewrite Hr in r_rm0. cbn in r_rm0. rewrite <- r_rm0 in *.
          destruct (negb (no_owe A) || a_m A) eqn:Eo; [destruct K as [K|(B & K & _)]; discriminate|].
          cbn -[free_known] in K. destruct K as [K|(B & K & T)]; [discriminate|]. injection K as <-.
          eapply typed_le; [exact T| |exact Ha|exact D|exact V].
          split; cbn -[free_known]; auto; try discriminate.
          * split; reflexivity.
          * intros _ _. apply Hg. rewrite Hf. discriminate.
    Qed.

    (** A mutex released: free, or leaked. *)
    Definition releases (m : mutex) (h : holder) : instr :=
      match h with HFree => IUnlock m | _ => ILeak m end.

    Lemma step_release m h : (forall u, h <> HBy u) -> next alive (releases m h) k A ->
      rw_holder (lock_of m s) = HBy t /\
      inv (go_on t th k (th_loc th) (set_lock m (mkRw h (rw_pending (lock_of m s)) (rw_readers (lock_of m s))) s) ths).
    Proof using I N Ha R D V.
      intros Hh K.
      assert (Hm : rw_holder (lock_of m s) = HBy t).
      { destruct R. destruct m; cbn; [apply r_s0|apply r_m0]; unfold next in K; destruct h; cbn in K;
        try (destruct (a_s A); [reflexivity|cbn in K; destruct K as [K|(B & K & _)]; discriminate]);
        try (destruct (a_m A); [reflexivity|cbn in K; destruct K as [K|(B & K & _)]; discriminate]);
        destruct K as [K|(B & K & _)]; discriminate. }
      split; [exact Hm|]. unfold go_on.
      assert (Hr : rw_readers (lock_of m s) = []) by (apply (g_excl _ _ G); congruence).
      assert (Hn : m = MModel -> h = HFree).
      { intros ->. destruct h; [reflexivity|edestruct Hh; reflexivity|].
        unfold next in K; cbn in K. destruct K as [K|(B & K & _)]; discriminate. }
      assert (Hi : m = MStatus -> st_value (sh_status s) <> Initializing).
      { intros ->. unfold next in K.
        assert (in_st Initializing (a_known A) = false /\ a_s A = true) as [Hk Hs].
        { destruct h; cbn in K; destruct (a_s A), (in_st Initializing (a_known A)), (no_owe A); cbn in K;
          try (split; reflexivity); try (destruct K as [K|(B & K & _)]; discriminate). }
        pose proof (r_known _ _ _ _ R Hs) as Hin. intros E. rewrite E in Hin.
        apply in_st_In in Hin. congruence. }
      assert (Hd : m = MModel -> fig_ok (sh_model s)).
      { intros ->. specialize (Hn eq_refl). subst h. unfold next in K. cbn in K. destruct R.
        apply r_fig0; [apply r_m0; exact Hm|].
        destruct (a_dirty A); [|reflexivity].
        destruct (a_m A), (no_owe A); cbn in K; destruct K as [K|(B & K & _)]; discriminate. }
      eapply inv_step; [exact I|exact N|..].
      - apply frame_lock; cbn.
        + intros u Ne. rewrite Hm. split; [|congruence]. intros E. destruct (Hh u E).
        + reflexivity.
      - apply glob_lock; cbn; try exact G.
        + intros u E. destruct (Hh u E).
        + apply (g_read _ _ G).
        + intros _. exact Hr.
        + intros E _. exact (Hi E).
        + intros E _. exact (Hd E).
        + intros E. rewrite (Hn E). discriminate.
      - assert (exists B, check_i alive (releases m h) A = Cont B /\ typed alive k B) as (B & E & T).
        { destruct K as [K|K]; [|exact K]. exfalso.
          destruct m, h; cbn in K; repeat match type of K with context[if ?b then _ else _] => destruct b end; discriminate. }
        eapply typed_le; [exact T| |destruct m; exact Ha|exact D|exact V].
        destruct R. destruct m; cbn in *.
        + assert (B = mkAbs false (a_m A) (a_rs A) (a_rm A) [] (a_owe A) (a_dirty A) false (a_def A)) as ->.
          { destruct h; cbn in E;
            repeat match type of E with context[if ?b then _ else _] => destruct b eqn:? end; try discriminate;
            injection E as <-; try reflexivity;
            unfold no_owe in *; destruct (a_owe A); rewrite ?andb_false_r in *; cbn in *; try discriminate; reflexivity. }
          split; cbn; auto; try discriminate.
          split; [discriminate|]. intros E'. destruct (Hh t E').
        + rewrite (Hn eq_refl) in E. cbn in E.
          destruct (a_m A && no_owe A && negb (a_dirty A)) eqn:Eo; [|discriminate]. injection E as <-.
          split; cbn; auto; try discriminate.
          split; [discriminate|]. intros E'. destruct (Hh t E').
    Qed.

    Lemma step_rlock m : next alive (IRLock m) k A ->
      rw_holder (lock_of m s) = HFree ->
      inv (go_on t th k (th_loc th) (set_lock m (mkRw HFree None (t :: rw_readers (lock_of m s))) s) ths).
    Proof using I N Ha R D V.
      intros K Hf. unfold go_on. eapply inv_step; [exact I|exact N|..].
      - apply frame_lock; cbn.
        + intros u Ne. rewrite Hf. tauto.
        + intros u Ne. unfold readers. destruct (Nat.eq_dec t u); [congruence|reflexivity].
      - apply glob_lock; cbn; try discriminate; try exact G.
        + intros u [<-|Hu]; [apply t_lt|apply (g_read _ _ G m u Hu)].
        + intros []. reflexivity.
        + intros -> _. apply (g_init _ _ G). exact Hf.
        + intros -> _. apply (g_fig _ _ G). intros u. cbn in Hf. rewrite Hf. discriminate.
      - assert (exists B, check_i alive (IRLock m) A = Cont B /\ typed alive k B) as (B & E & T).
        { destruct K as [K|K]; [|exact K]. exfalso.
          destruct m; cbn in K; repeat match type of K with context[if ?b then _ else _] => destruct b end; discriminate. }
        eapply typed_le; [exact T| |destruct m; exact Ha|exact D|exact V].
        destruct R. destruct m; cbn in *; unfold readers in *; cbn in *;
        match type of E with context[if ?b then _ else _] => destruct b eqn:Eo end; try discriminate;
        injection E as <-; split; cbn; auto; unfold readers; cbn; rewrite <- ?Hf; auto;
        destruct (Nat.eq_dec t t); congruence.
    Qed.

    Lemma step_runlock m : next alive (IRUnlock m) k A ->
      In t (rw_readers (lock_of m s)) /\
      inv (go_on t th k (th_loc th)
             (set_lock m (mkRw (rw_holder (lock_of m s)) (rw_pending (lock_of m s))
                            (remove1 t (rw_readers (lock_of m s)))) s) ths).
    Proof using I N Ha R D V.
      intros K.
      assert (exists B, check_i alive (IRUnlock m) A = Cont B /\ typed alive k B) as (B & E & T).
      { destruct K as [K|K]; [|exact K]. exfalso.
        destruct m; cbn in K; [destruct (a_rs A)|destruct (a_rm A)];
        repeat match type of K with context[if ?b then _ else _] => destruct b end; discriminate. }
      assert (Hc : readers m s t > 0).
      { destruct R. destruct m; cbn in E; [rewrite r_rs0; destruct (a_rs A)|rewrite r_rm0; destruct (a_rm A)];
        try discriminate; lia. }
      assert (Hin : In t (rw_readers (lock_of m s))) by (apply (count_occ_In Nat.eq_dec); exact Hc).
      assert (Hf : rw_holder (lock_of m s) = HFree).
      { destruct (rw_holder (lock_of m s)) eqn:Eh; [reflexivity| |];
        rewrite (g_excl _ _ G m) in Hin by congruence; destruct Hin. }
      split; [exact Hin|]. unfold go_on. eapply inv_step; [exact I|exact N|..].
      - apply frame_lock; cbn.
        + tauto.
        + intros u Ne. unfold readers. rewrite count_remove1. destruct (Nat.eq_dec t u); [congruence|reflexivity].
      - apply glob_lock; cbn; try exact G; rewrite ?Hf; try discriminate.
        + intros u Hu. apply (g_read _ _ G m). eapply remove1_In; exact Hu.
        + congruence.
        + intros -> _. apply (g_init _ _ G). exact Hf.
        + intros -> _. apply (g_fig _ _ G). intros u. cbn in Hf. rewrite Hf. discriminate.
      - eapply typed_le; [exact T| |destruct m; exact Ha|exact D|exact V].
        destruct R. unfold readers in *. destruct m; cbn in *;
        [destruct (a_rs A) as [|n]|destruct (a_rm A) as [|n]]; try discriminate;
        destruct (no_owe A); try discriminate; injection E as <-;
        split; cbn; auto; unfold readers; cbn; rewrite ?count_remove1;
        destruct (Nat.eq_dec t t); try congruence; lia.
    Qed.

    Lemma eval_st_ok e l : recv_ok l -> In (st_value (eval_st e l)) (st_values e) /\ wf_status (eval_st e l) = true.
    Proof.
      intros [H1 H2]. destruct e as [v|src|]; cbn -[received].
      - auto.
      - split; [auto|]. unfold wf_status. cbn. destruct (eval_err src l); reflexivity.
      - auto.
    Qed.

    Lemma step_set_status e : next alive (ISetStatus e) k A ->
      rw_holder (sh_lock_s s) = HBy t /\
      change_ok (st_value (sh_status s)) (st_value (eval_st e (th_loc th))) = true /\
      inv (go_on t th k (th_loc th) (add_log (set_status_ s (eval_st e (th_loc th))) (EvStatus t (eval_st e (th_loc th)))) ths).
    Proof using I N Ha R D V.
      intros K. unfold next in K. cbn -[st_values] in K.
      destruct (a_s A) eqn:Es; [|destruct K as [K|(B & K & _)]; discriminate].
      destruct (no_owe A) eqn:Eo; [|destruct K as [K|(B & K & _)]; discriminate].
      cbn -[st_values] in K.
      destruct (forallb (fun a => forallb (change_ok a) (st_values e)) (a_known A)) eqn:Ek;
        [|destruct K as [K|(B & K & _)]; discriminate].
      destruct K as [K|(B & K & T)]; [discriminate|]. injection K as <-.
      destruct (eval_st_ok e _ V) as [Hv Hw].
      assert (Hc : change_ok (st_value (sh_status s)) (st_value (eval_st e (th_loc th))) = true).
      { rewrite forallb_forall in Ek. specialize (Ek _ (r_known _ _ _ _ R Es)).
        rewrite forallb_forall in Ek. apply Ek. exact Hv. }
      assert (Hh : rw_holder (sh_lock_s s) = HBy t) by (apply (r_s _ _ _ _ R); exact Es).
      assert (Hcr : st_value (eval_st e (th_loc th)) <> Created).
      { intros E. rewrite E in Hc. destruct (st_value (sh_status s)); discriminate. }
      split; [exact Hh|]. split; [exact Hc|]. unfold go_on. eapply inv_step; [exact I|exact N|..].
      - split; intros; cbn in *; try tauto; try congruence; try reflexivity;
        try (match goal with m : mutex |- _ => destruct m end; cbn; tauto).
      - destruct G. split; auto.
        + intros H. cbn in H. congruence.
      - eapply typed_le; [exact T| |intros _; exact Hcr|exact D|exact V].
        destruct R. split; cbn -[st_values]; auto.
        tauto. intros Hx. split; [reflexivity|apply r_open0; exact Hx].
    Qed.

    Lemma step_model op now : next alive (IModel op) k A ->
      rw_holder (sh_lock_m s) = HBy t /\
      inv (go_on t th k (th_loc th)
             (mop_log op (th_loc th) (set_model s (mop_model cf op (th_loc th) now (sh_model s)))) ths).
    Proof using I N Ha R D V.
      intros K. unfold next in K. cbn in K.
      destruct (a_m A) eqn:Em; [|destruct K as [K|(B & K & _)]; discriminate].
      destruct (no_owe A) eqn:Eo; [|destruct K as [K|(B & K & _)]; discriminate].
      cbn in K. destruct K as [K|(B & K & T)]; [discriminate|]. injection K as <-.
      assert (Hh : rw_holder (sh_lock_m s) = HBy t) by (apply (r_m _ _ _ _ R); exact Em).
      split; [exact Hh|]. unfold go_on. eapply inv_step; [exact I|exact N|..].
      - split; intros; destruct op; cbn in *; try tauto; try congruence; try reflexivity;
        try (match goal with m : mutex |- _ => destruct m end; cbn; tauto);
        unfold readers; destruct m; reflexivity.
      - destruct G. destruct op; split; auto; try (intros H; cbn in H; edestruct H; exact Hh);
        intros m; try (intros u; specialize (g_hold0 m u)); try (specialize (g_read0 m u)); try specialize (g_excl0 m);
        destruct m; cbn in *; auto.
      - eapply typed_le; [exact T| |intros E; specialize (Ha E); destruct op; exact Ha|exact D|exact V].
        destruct R. destruct op; split; cbn; auto; try congruence; try (rewrite Em; tauto);
        try discriminate; try tauto; intros _.
        + intros _. apply fig_ok_reset.
        + intros _. apply fig_ok_figures.
        + intros _. apply fig_ok_save.
        + intros Hd. apply fig_ok_duration. auto.
    Qed.

    Lemma step_panic n : a_def A = true -> no_lock A = true -> a_dirty A = false -> a_open A = false ->
      inv (do_panic t n th (mkState s ths)).
    Proof using I N Ha R D V.
      intros Hd Hl Hi Ho. unfold do_panic. destruct (th_defer th) as [d|] eqn:Ed.
      - cbn. eapply inv_local; [exact I|exact N|]. eapply typed_le; [exact (D _ eq_refl)| |exact Ha|discriminate|exact V].
        unfold no_lock in Hl. rewrite !andb_true_iff in Hl. destruct Hl as (((H1 & H2) & H3) & H4).
        apply negb_true_iff in H1, H2. apply Nat.eqb_eq in H3, H4.
        destruct R. split; cbn; auto; try congruence; try discriminate.
      - destruct (r_def _ _ _ _ R Hd). reflexivity.
    Qed.

    (** Changes of fields that no promise mentions. *)
    Lemma step_other s' k' l : typed alive k' A -> recv_ok l ->
      sh_status s' = sh_status s -> sh_lock_s s' = sh_lock_s s -> sh_lock_m s' = sh_lock_m s ->
      sh_model s' = sh_model s -> sh_crashed s' = false ->
      sh_ack s' < sh_nack s' -> (forall n, In n (sh_closed s') -> n < sh_nack s') ->
      (~ In (sh_ack s) (sh_closed s) -> ~ In (sh_ack s') (sh_closed s')) ->
      inv (go_on t th k' l s' ths).
    Proof using I N Ha R D.
      intros T Vl E1 E2 E3 E4 E5 E6 E7 E8. unfold go_on.
      assert (El : forall m, lock_of m s' = lock_of m s) by (intros m; destruct m; assumption).
      eapply inv_step; [exact I|exact N|..].
      - split; intros; unfold readers; rewrite ?El, ?E1, ?E4; auto; tauto.
      - destruct G. split; intros; rewrite ?El, ?E1, ?E4; rewrite ?El in *; auto.
        + apply (g_hold0 m t0). exact H.
        + apply (g_read0 m t0). exact H.
        + apply g_init0. rewrite <- E2. exact H.
        + apply g_fig0. rewrite <- E3. exact H.
        + rewrite E3. exact g_leak0.
      - eapply typed_le; [exact T| |rewrite E1; exact Ha|exact D|exact Vl].
        destruct R. unfold readers in *. split; unfold readers; rewrite ?El, ?E1, ?E2, ?E3, ?E4; auto.
        intros Hx. destruct (r_open0 Hx). split; auto.
    Qed.

    Lemma step_close : next alive ICloseAck k A ->
      ~ In (sh_ack s) (sh_closed s) /\ inv (go_on t th k (th_loc th) (close_ack s) ths).
    Proof using I N Ha R D V.
      intros K. unfold next in K. cbn in K.
      destruct (no_owe A && a_s A && a_open A) eqn:E; [|destruct K as [K|(B & K & _)]; discriminate].
      destruct K as [K|(B & K & T)]; [discriminate|]. injection K as <-.
      rewrite !andb_true_iff in E. destruct E as ((E1 & E2) & E3).
      destruct (r_open _ _ _ _ R E3) as [_ Ho]. split; [exact Ho|]. unfold go_on.
      assert (Hh : rw_holder (sh_lock_s s) = HBy t) by (apply (r_s _ _ _ _ R); exact E2).
      eapply inv_step; [exact I|exact N|..].
      - split; intros; cbn in *; auto; try tauto; try congruence.
      - destruct G. split; auto.
        cbn. intros n [<-|Hn]; auto.
      - eapply typed_le; [exact T| |exact Ha|exact D|exact V].
        destruct R. split; cbn; auto. discriminate.
    Qed.
  End Step.

  Ltac simple_case K :=
    unfold next in K; cbn -[check_list received free_known] in K;
    repeat match type of K with
           | context[if ?b then _ else _] => destruct b eqn:?
           end;
    try (destruct K as [K|(?B & K & ?T)]; discriminate);
    destruct K as [K|(?B & K & ?T)]; [try discriminate|]; try (injection K as K; subst).

  Lemma recv_locals l x y z w :
    recv_ok l -> recv_ok (set_val l x) /\ recv_ok (set_err l y) /\ recv_ok (set_go l z) /\
    recv_ok (set_zero l z) /\ recv_ok (set_figs l w) /\ recv_ok (set_ok l z) /\ recv_ok (set_got l z).
  Proof. intros H. repeat split; apply H. Qed.

  Lemma recv_get g now s l : recv_ok l -> recv_ok (eval_get cf g now s l).
  Proof.
    intros H. destruct g; cbn; try (split; apply H).
    - destruct (is_finished _ _); [split; apply H|].
      destruct ((0 <? d)%Z && (l_deadline l <? now)%Z); split; apply H.
    - destruct (l_err l); split; apply H.
  Qed.

  Theorem step_inv t o st st' : inv st -> step cf t o st = Some st' -> inv st'.
  Proof.
    intros I. unfold step. destruct (nth_error (s_th st) t) as [th|] eqn:N; [|discriminate].
    pose proof (proj2 I t th N) as (alive & A0 & Ha & T & R0 & D & V).
    destruct (th_code th) as [|i k] eqn:Ec; [discriminate|].
    apply typed_inv in T. destruct T as (A & L & K).
    pose proof (rel_le _ _ _ _ _ L R0) as R. clear A0 L R0. change (next alive i k A) in K.
    destruct st as [s ths]. cbn [s_sh s_th] in *.
    destruct i; intros E.
    - (* ILock *)
      destruct (rw_holder (lock_of m s)) eqn:Eh; try discriminate.
      destruct (rw_pending (lock_of m s)) eqn:Ep; try discriminate.
      injection E as <-. eapply step_lock; eauto.
    - (* IAcquire *)
      destruct (rw_holder (lock_of m s)) eqn:Eh; try discriminate.
      destruct (rw_pending (lock_of m s)) eqn:Ep; try discriminate.
      destruct (rw_readers (lock_of m s)) eqn:Er; try discriminate.
      destruct (Nat.eqb_spec t n); [|discriminate].
      injection E as <-. eapply step_acquire; eauto.
    - (* IUnlock *)
      destruct (step_release t s ths th alive A k I N Ha R D V m HFree ltac:(discriminate) K) as [Hm Hi].
      rewrite Hm in E. injection E as <-. exact Hi.
    - (* IRLock *)
      destruct (rw_holder (lock_of m s)) eqn:Eh; try discriminate.
      destruct (rw_pending (lock_of m s)) eqn:Ep; try discriminate.
      injection E as <-. eapply step_rlock; eauto.
    - (* IRUnlock *)
      destruct (step_runlock t s ths th alive A k I N Ha R D V m K) as [Hin Hi].
      assert (Hm : mem t (rw_readers (lock_of m s)) = true) by (apply mem_In; exact Hin).
      destruct (rw_readers (lock_of m s)) eqn:Er; [destruct Hin|].
      rewrite Hm in E. injection E as <-. exact Hi.
    - (* ILeak *)
      destruct (step_release t s ths th alive A k I N Ha R D V m HLeaked ltac:(discriminate) K) as [Hm Hi].
      rewrite Hm in E. injection E as <-. exact Hi.
    - (* ISetStatus *)
      injection E as <-. eapply step_set_status; eauto.
    - (* IModel *)
      injection E as <-. eapply step_model; eauto.
    - (* IGet *)
      injection E as <-. simple_case K. eapply step_local; eauto. apply recv_get. exact V.
    - (* ISend *)
      destruct (eval_st_ok e _ V) as [Hv Hw].
      destruct f; cbn [channel_of closed] in E.
      + injection E as <-. unfold next in K. cbn -[sub_st st_values received] in K.
        destruct (no_owe A) eqn:Eo; [|destruct K as [K|(B & K & _)]; discriminate].
        destruct (sub_st (st_values e) received) eqn:Es; [|destruct K as [K|(B & K & _)]; discriminate].
        destruct K as [K|(B & K & T)]; [discriminate|]. injection K as <-.
        eapply step_local; eauto.
        apply (ty_cont alive [ISending ChStatus (eval_st e (th_loc th))] k A A A); [|apply le_refl|exact T].
        cbn -[received]. rewrite Eo, Hw.
        unfold sub_st in Es. rewrite forallb_forall in Es. rewrite (Es _ Hv). reflexivity.
      + unfold next in K. cbn in K.
        destruct (no_owe A && no_lock A && a_def A && negb (a_dirty A) && negb (a_open A)) eqn:Eo;
          [|destruct K as [K|(B & K & _)]; discriminate].
        destruct K as [K|(B & K & T)]; [discriminate|]. injection K as <-.
        pose proof Eo as Eo'. rewrite !andb_true_iff in Eo'. destruct Eo' as ((((E1 & E2) & E3) & E4) & E5).
        apply negb_true_iff in E4, E5.
        destruct (mem (sh_ack s) (sh_closed s)); injection E as <-.
        * eapply step_panic; eauto.
        * eapply step_local; eauto.
          apply (ty_cont alive [ISending (ChAck (sh_ack s)) (eval_st e (th_loc th))] k A A A); [|apply le_refl|exact T].
          cbn -[received]. rewrite Eo. reflexivity.
      + destruct (sh_notif s); [|discriminate]. cbn in E. injection E as <-.
        unfold next in K. cbn in K. destruct (a_owe A) as [[e'|]|] eqn:Ew; try (destruct K as [K|(B & K & _)]; discriminate).
        destruct (stexp_eq_dec e e'); [|destruct K as [K|(B & K & _)]; discriminate].
        destruct K as [K|(B & K & T)]; [discriminate|]. injection K as <-.
        unfold go_on. eapply inv_local; [exact I|exact N|].
        match type of T with typed _ _ ?B => set (B0 := B) in * end.
        eapply typed_le with
          (A := mkAbs (a_s A) (a_m A) (a_rs A) (a_rm A) (a_known A) (Some None) (a_dirty A) (a_open A) (a_def A));
          [|destruct R; split; auto|exact Ha|exact D|exact V].
        eapply (ty_cont alive [ISending ChNotif (eval_st e (th_loc th))] k _ B0 B0); [|apply le_refl|exact T].
        reflexivity.
    - (* ISending *)
      destruct c as [| |n]; cbn [closed] in E; try discriminate.
      unfold next in K. cbn in K.
      destruct (no_owe A && no_lock A && a_def A && negb (a_dirty A) && negb (a_open A)) eqn:Eo;
        [|destruct K as [K|(B & K & _)]; discriminate].
      rewrite !andb_true_iff in Eo. destruct Eo as ((((E1 & E2) & E3) & E4) & E5).
      apply negb_true_iff in E4, E5.
      destruct (mem n (sh_closed s)); [|discriminate]. injection E as <-.
      eapply step_panic; eauto.
    - (* IRecv *)
      destruct (channel_of f s) as [c|]; [|discriminate]. injection E as <-.
      eapply step_local; eauto. eapply next_typed; [|exact K]. reflexivity.
    - (* IReceiving *)
      destruct (closed c s); [|discriminate]. injection E as <-.
      simple_case K. eapply step_local; eauto.
    - (* ITryStatus *)
      destruct (sender_parked ChStatus ths); [discriminate|]. injection E as <-.
      simple_case K. eapply step_local; eauto.
    - (* ITryAck *)
      cbn [closed] in E. unfold next in K. cbn -[check_list join] in K.
      destruct (no_owe A && a_s A && negb (a_open A)) eqn:Eo; [|destruct K as [K|(B & K & _)]; discriminate].
      rewrite !andb_true_iff in Eo. destruct Eo as ((E1 & E2) & E3). apply negb_true_iff in E3.
      destruct (mem (sh_ack s) (sh_closed s)) eqn:Em.
      + injection E as <-. eapply step_local; eauto.
        exact (join_left (Cont A) _ k alive [] A eq_refl K).
      + destruct (sender_parked (ChAck (sh_ack s)) ths); [discriminate|]. injection E as <-.
        unfold go_on. eapply inv_local; [exact I|exact N|].
        eapply typed_le; [exact (join_right (Cont A) _ k alive p _ eq_refl K)| |exact Ha|exact D|exact V].
        destruct R. split; cbn; auto.
        intros _. split; [exact E2|]. intros Hin. apply mem_In in Hin. congruence.
    - (* IMakeAck *)
      injection E as <-. simple_case K. pose proof (proj1 I) as G. cbn [s_sh s_th] in G.
      eapply step_other;
        [exact I|exact N|exact Ha|exact R|exact D|eassumption|exact V|reflexivity|reflexivity|reflexivity|reflexivity|..].
      + apply (g_crash _ _ G).
      + cbn. lia.
      + cbn. intros n Hn. pose proof (g_closed _ _ G n Hn). lia.
      + cbn. intros _ Hn. pose proof (g_closed _ _ G _ Hn). lia.
    - (* IMakeNotif *)
      injection E as <-. simple_case K. pose proof (proj1 I) as G. cbn [s_sh s_th] in G. destruct G.
      eapply step_other; eauto; reflexivity.
    - (* ICloseAck *)
      destruct (step_close t s ths th alive A k I N Ha R D V K) as [Ho Hi].
      cbn [closed] in E.
      assert (Hm : mem (sh_ack s) (sh_closed s) = false).
      { destruct (mem (sh_ack s) (sh_closed s)) eqn:Em; [|reflexivity]. apply mem_In in Em. contradiction. }
      rewrite Hm in E. injection E as <-. exact Hi.
    - (* ISpawn *)
      injection E as <-. unfold go_on.
      assert (Hx : typed alive k A /\ exists b, (b = true -> st_value (sh_status s) <> Created) /\ typed b p abs0).
      { unfold next in K. destruct k0; cbn -[check_list] in K.
        - destruct (no_owe A); [|destruct K as [K|(B & K & _)]; discriminate]. cbn -[check_list] in K.
          destruct (ok_final (check_list (check_i false) p abs0)) eqn:Eo; [|destruct K as [K|(B & K & _)]; discriminate].
          destruct K as [K|(B & K & T)]; [discriminate|]. injection K as <-. split; [exact T|].
          exists false. split; [discriminate|]. apply typed_check. exact Eo.
        - destruct (no_owe A); [|destruct K as [K|(B & K & _)]; discriminate].
          destruct (a_s A) eqn:Es; [|destruct K as [K|(B & K & _)]; discriminate].
          destruct (in_st Created (a_known A)) eqn:Ek; [destruct K as [K|(B & K & _)]; discriminate|].
          cbn -[check_list] in K.
          destruct (ok_final (check_list (check_i true) p abs0)) eqn:Eo; [|destruct K as [K|(B & K & _)]; discriminate].
          destruct K as [K|(B & K & T)]; [discriminate|]. injection K as <-. split; [exact T|].
          exists true. split; [|apply typed_check; exact Eo]. intros _ Hc.
          pose proof (r_known _ _ _ _ R Es) as Hin. rewrite Hc in Hin. apply in_st_In in Hin. congruence.
        - destruct (no_owe A); [|destruct K as [K|(B & K & _)]; discriminate]. cbn -[check_list] in K.
          destruct (ok_final (check_list (check_i false) p abs0)) eqn:Eo; [|destruct K as [K|(B & K & _)]; discriminate].
          destruct K as [K|(B & K & T)]; [discriminate|]. injection K as <-. split; [exact T|].
          exists false. split; [discriminate|]. apply typed_check. exact Eo.
        - destruct (no_owe A); [|destruct K as [K|(B & K & _)]; discriminate]. cbn -[check_list] in K.
          destruct (ok_final (check_list (check_i false) p abs0)) eqn:Eo; [|destruct K as [K|(B & K & _)]; discriminate].
          destruct K as [K|(B & K & T)]; [discriminate|]. injection K as <-. split; [exact T|].
          exists false. split; [discriminate|]. apply typed_check. exact Eo. }
      destruct Hx as [T Hx].
      eapply inv_local with (th := th).
      + apply inv_spawn; [exact I|exact Hx|reflexivity|]. split; [left; reflexivity|reflexivity].
      + rewrite nth_error_app1; [exact N|]. apply nth_error_Some. congruence.
      + eapply typed_le; [exact T|exact R|exact Ha|exact D|exact V].
    - (* IIf *)
      injection E as <-. unfold next in K. cbn -[check_list join] in K.
      destruct (no_owe A) eqn:Eo; [|destruct K as [K|(B & K & _)]; discriminate]. cbn -[check_list join] in K.
      assert (Hgen : (join (check_list (check_i alive) p A) (check_list (check_i alive) q A) = Dead \/
                      exists B, join (check_list (check_i alive) p A) (check_list (check_i alive) q A) = Cont B /\ typed alive k B) ->
                     inv (go_on t th ((if eval_cond cf c s (th_loc th) then p else q) ++ k) (th_loc th) s ths)).
      { intros K'. eapply step_local; eauto. destruct (eval_cond cf c s (th_loc th)).
        - exact (join_left _ _ k alive p A eq_refl K').
        - exact (join_right _ _ k alive q A eq_refl K'). }
      destruct c; try exact (Hgen K).
      destruct (a_s A) eqn:Es; [|exact (Hgen K)]. clear Hgen.
      pose proof (r_known _ _ _ _ R Es) as Hin. unfold go_on. eapply inv_local; [exact I|exact N|].
      cbn [eval_cond]. destruct (status_eqb (st_value (sh_status s)) v) eqn:Ev.
      + assert (Hf : In (st_value (sh_status s)) (filter (fun w => status_eqb w v) (a_known A))).
        { apply filter_In. auto. }
        destruct (filter (fun w => status_eqb w v) (a_known A)) as [|w l] eqn:El; [destruct Hf|].
        eapply typed_le; [exact (join_left _ _ k alive p _ eq_refl K)| |exact Ha|exact D|exact V].
        destruct R. split; cbn; auto; try congruence.
        intros Hx. destruct (r_open0 Hx). auto.
      + assert (Hf : In (st_value (sh_status s)) (filter (fun w => negb (status_eqb w v)) (a_known A))).
        { apply filter_In. rewrite Ev. auto. }
        destruct (filter (fun w => negb (status_eqb w v)) (a_known A)) as [|w l] eqn:El; [destruct Hf|].
        eapply typed_le; [exact (join_right _ _ k alive q _ eq_refl K)| |exact Ha|exact D|exact V].
        destruct R. split; cbn; auto; try congruence.
        intros Hx. destruct (r_open0 Hx). auto.
    - (* ILoop *)
      injection E as <-. pose proof K as K0. unfold next in K. cbn -[check_list join] in K.
      destruct (negb (no_owe A) || a_s A || a_open A) eqn:Eo; [destruct K as [K|(B & K & _)]; discriminate|].
      destruct (check_list (check_i alive) p A) as [| |B1] eqn:Ep; [destruct K as [K|(B & K & _)]; discriminate|..].
      + destruct K as [K|(B & K & T)]; [discriminate|]. injection K as <-.
        eapply step_local; eauto. destruct (eval_cond cf c s (th_loc th)); [|exact T].
        apply ty_dead. exact Ep.
      + destruct (same_shape A B1) eqn:Es; [|destruct K as [K|(B & K & _)]; discriminate].
        destruct K as [K|(B & K & T)]; [discriminate|]. injection K as <-.
        eapply step_local; eauto. destruct (eval_cond cf c s (th_loc th)); [|exact T].
        eapply ty_cont; [exact Ep| |eapply next_typed; [reflexivity|exact K0]].
        eapply same_shape_le; [exact Es|..]; auto.
        intros Ht. rewrite Ht, orb_true_r in Eo. discriminate.
    - (* IImplInit *)
      destruct (o_init o) as [c e]. injection E as <-. unfold next in K. cbn in K.
      destruct (no_owe A && a_s A && negb (a_m A) && sub_st (a_known A) [Initializing]);
        [|destruct K as [K|(B & K & _)]; discriminate].
      destruct K as [K|(B & K & T)]; [discriminate|]. injection K as <-. eapply step_local; eauto.
    - (* IIterBegin *)
      injection E as <-. simple_case K. eapply step_local; eauto.
    - (* IImplIterate *)
      unfold next in K. cbn in K.
      destruct (no_owe A && no_lock A && a_def A && negb (a_dirty A) && negb (a_open A)) eqn:Eo;
        [|destruct K as [K|(B & K & _)]; discriminate].
      destruct K as [K|(B & K & T)]; [discriminate|]. injection K as <-.
      rewrite !andb_true_iff in Eo. destruct Eo as ((((E1 & E2) & E3) & E4) & E5).
      apply negb_true_iff in E4, E5.
      destruct (o_iter o); injection E as <-.
      + eapply step_local; eauto.
      + eapply step_panic; eauto.
    - (* IImplPush *)
      injection E as <-. unfold next in K. cbn in K.
      destruct (no_owe A && no_lock A); [|destruct K as [K|(B & K & _)]; discriminate].
      destruct K as [K|(B & K & T)]; [discriminate|]. injection K as <-. eapply step_local; eauto.
    - (* IDefer *)
      injection E as <-. unfold next in K. cbn -[check_list] in K.
      destruct (no_owe A); [|destruct K as [K|(B & K & _)]; discriminate]. cbn -[check_list] in K.
      destruct (ok_final (check_list (check_i alive) p abs0)) eqn:Eo; [|destruct K as [K|(B & K & _)]; discriminate].
      destruct K as [K|(B & K & T)]; [discriminate|]. injection K as <-.
      eapply inv_local; [exact I|exact N|].
      eapply typed_le; [exact T| |exact Ha| |exact V].
      + destruct R. split; cbn; auto. discriminate.
      + intros d [= <-]. apply typed_check. exact Eo.
    - (* IEndDefer *)
      injection E as <-. simple_case K.
      eapply inv_local; [exact I|exact N|].
      eapply typed_le; [exact T| |exact Ha|discriminate|exact V].
      destruct R. split; cbn; auto. discriminate.
    - (* IStartTimer *)
      injection E as <-. unfold next in K. cbn -[check_list] in K.
      destruct (no_owe A); [|destruct K as [K|(B & K & _)]; discriminate]. cbn -[check_list] in K.
      destruct (ok_final (check_list (check_i false) p abs0)) eqn:Eo; [|destruct K as [K|(B & K & _)]; discriminate].
      destruct K as [K|(B & K & T)]; [discriminate|]. injection K as <-.
      assert (I' : inv (mkState s (ths ++ [mkThread KTimer p (set_timer locals0 (List.length (sh_timers s))) None]))).
      { apply inv_spawn; [exact I| |reflexivity|].
        - exists false. split; [discriminate|]. apply typed_check. exact Eo.
        - split; [left; reflexivity|reflexivity]. }
      pose proof (proj1 I') as G. cbn [s_sh s_th] in G. destruct G.
      eapply step_other with (s := s); eauto; try reflexivity.
      rewrite nth_error_app1; [exact N|]. apply nth_error_Some. congruence.
    - (* IDisable *)
      simple_case K. pose proof (proj1 I) as G. cbn [s_sh s_th] in G. destruct G.
      destruct (sh_timeout s); injection E as <-.
      + eapply step_other; eauto; reflexivity.
      + eapply step_local; eauto.
    - (* IReturn *)
      injection E as <-. simple_case K. pose proof (proj1 I) as G. cbn [s_sh s_th] in G. destruct G.
      eapply step_other; eauto; reflexivity.
  Qed.

  Lemma inv_log s ths e : inv (mkState s ths) -> inv (mkState (add_log s e) ths).
  Proof.
    intros [G H]. cbn [s_sh s_th] in *. split; cbn [s_sh s_th].
    - destruct G. split; auto.
    - intros t th Ht. specialize (H t th Ht). destruct H as (alive & A & Ha & T & R & D & V).
      exists alive, A. split; [exact Ha|]. split; [exact T|]. split; [|split; [exact D|exact V]].
      destruct R. split; auto.
  Qed.

  Theorem comm_inv t r st st' : inv st -> comm t r st = Some st' -> inv st'.
  Proof.
    intros I. unfold comm. destruct (Nat.eqb_spec t r) as [|Ne]; [discriminate|].
    destruct (nth_error (s_th st) t) as [th|] eqn:N; [|discriminate].
    destruct (nth_error (s_th st) r) as [thr|] eqn:Nr; [|discriminate].
    destruct (th_code th) as [|i k] eqn:Ec; [discriminate|]. destruct i; try discriminate.
    destruct (closed c (s_sh st)) eqn:El; [discriminate|].
    destruct (receiver c (s_sh st) (th_code thr)) as [kr|] eqn:Er; [|discriminate].
    intros E. injection E as <-.
    destruct st as [s ths]. cbn [s_sh s_th] in *.
    assert (H1 : inv (mkState s (upd ths t (mkThread (th_kind th) k (th_loc th) (th_defer th)))) /\
                 (c = ChStatus -> In (st_value v) received /\ wf_status v = true)).
    { pose proof (proj2 I t th N) as (alive & A0 & Ha & T & R0 & D & V).
      rewrite Ec in T. apply typed_inv in T. destruct T as (A & L & K).
      pose proof (rel_le _ _ _ _ _ L R0) as R. clear A0 L R0.
      assert (HA : exists B, rel B s t (th_defer th) /\ typed alive k B /\
                     (c = ChStatus -> In (st_value v) received /\ wf_status v = true)).
      { destruct c; cbn -[received] in K.
        - destruct (no_owe A); [|destruct K as [K|(B & K & _)]; discriminate].
          destruct (in_st (st_value v) received) eqn:Ei; [|destruct K as [K|(B & K & _)]; discriminate].
          destruct (wf_status v) eqn:Ew; [|destruct K as [K|(B & K & _)]; discriminate].
          destruct K as [K|(B & K & T)]; [discriminate|]. injection K as <-.
          exists A. split; [exact R|]. split; [exact T|]. intros _. split; [apply in_st_In; exact Ei|reflexivity].
        - destruct (a_owe A) as [[e|]|]; try (destruct K as [K|(B & K & _)]; discriminate).
          destruct K as [K|(B & K & T)]; [discriminate|]. injection K as <-.
          eexists. split; [|split; [exact T|discriminate]]. destruct R. split; auto.
        - destruct (no_owe A && no_lock A && a_def A && negb (a_dirty A) && negb (a_open A));
            [|destruct K as [K|(B & K & _)]; discriminate].
          destruct K as [K|(B & K & T)]; [discriminate|]. injection K as <-.
          exists A. split; [exact R|]. split; [exact T|discriminate]. }
      destruct HA as (B & RB & T & Hv). split; [|exact Hv].
      eapply inv_local; [exact I|exact N|]. eapply typed_le; eauto. }
    destruct H1 as [I1 Hv].
    assert (Nr1 : nth_error (upd ths t (mkThread (th_kind th) k (th_loc th) (th_defer th))) r = Some thr).
    { rewrite nth_error_upd. destruct (Nat.eqb_spec r t); [congruence|]. exact Nr. }
    assert (I2 : inv (mkState s (upd (upd ths t (mkThread (th_kind th) k (th_loc th) (th_defer th))) r
                       (mkThread (th_kind thr) kr (deliver c v (th_loc thr)) (th_defer thr))))).
    { pose proof (proj2 I1 r thr Nr1) as (alive & A0 & Ha & T & R0 & D & V). cbn [s_sh] in *.
      eapply inv_local; [exact I1|exact Nr1|].
      assert (Vr : recv_ok (deliver c v (th_loc thr))).
      { destruct c; cbn; [|exact V|exact V]. exact (Hv eq_refl). }
      destruct (th_code thr) as [|i kk] eqn:Ecr; [discriminate|].
      apply typed_inv in T. destruct T as (A & L & K).
      pose proof (rel_le _ _ _ _ _ L R0) as R. clear A0 L R0.
      destruct i; cbn [receiver] in Er; try discriminate.
      - destruct (chan_eqb c c0); [|discriminate]. injection Er as <-.
        cbn in K. destruct (no_owe A); [|destruct K as [K|(B & K & _)]; discriminate].
        destruct K as [K|(B & K & T)]; [discriminate|]. injection K as <-. eapply typed_le; eauto.
      - destruct (chan_eqb c ChStatus); [|discriminate]. injection Er as <-.
        cbn in K. destruct (no_owe A); [|destruct K as [K|(B & K & _)]; discriminate].
        destruct K as [K|(B & K & T)]; [discriminate|]. injection K as <-. eapply typed_le; eauto.
      - destruct (chan_eqb c (ChAck (sh_ack s))); [|discriminate]. injection Er as <-.
        cbn -[check_list join] in K.
        destruct (no_owe A && a_s A && negb (a_open A)) eqn:Eo; [|destruct K as [K|(B & K & _)]; discriminate].
        eapply typed_le; [exact (join_left (Cont A) _ kk alive [] A eq_refl K)|..]; eauto. }
    destruct c; cbn [deliver_log]; [exact I2|apply inv_log; exact I2|exact I2].
  Qed.

  Theorem move_inv m st st' : inv st -> do_move cf m st = Some st' -> inv st'.
  Proof.
    intros I. unfold do_move. destruct (sh_crashed (s_sh st)); [discriminate|].
    destruct m; [apply step_inv|apply comm_inv]; exact I.
  Qed.

  Theorem exec_inv ms st st' : inv st -> exec cf ms st = Some st' -> inv st'.
  Proof.
    revert st. induction ms as [|m ms IH]; cbn; intros st I E; [congruence|].
    destruct (do_move cf m st) as [st1|] eqn:E1; [|discriminate].
    eapply IH; [eapply move_inv; eauto|exact E].
  Qed.
End Sound.

Lemma check_app alive p q A :
  check alive (p ++ q) A = match check alive p A with Fail => Fail | Dead => Dead | Cont B => check alive q B end.
Proof.
  revert A. induction p as [|i p IH]; intros A; cbn; [reflexivity|].
  destruct (check_i alive i A); [reflexivity|reflexivity|apply IH].
Qed.

Lemma check_notifier u : notifier_ok u = true ->
  check false (notification_loop u) abs0 = Cont abs0.
Proof.
  intros H. unfold notification_loop.
  set (body := IRecv FldNotif :: model_code ++ match u with Some p => p | None => [] end).
  assert (Hb : check false body abs0 = Dead \/ exists B, check false body abs0 = Cont B /\ same_shape abs0 B = true).
  { unfold body. destruct u as [p|]; cbn -[check_list]; unfold check in *.
    - unfold notifier_ok in H. change (check_list (check_i false) (IRecv FldNotif :: [IRLock MModel; IRUnlock MModel] ++ p) abs0 = Dead \/
        exists B, check_list (check_i false) (IRecv FldNotif :: [IRLock MModel; IRUnlock MModel] ++ p) abs0 = Cont B /\ same_shape abs0 B = true).
      change (check_list (check_i false) (IRecv FldNotif :: [IRLock MModel; IRUnlock MModel] ++ p) abs0)
        with (check false p abs0).
      destruct (check false p abs0) as [| |B]; [discriminate|left; reflexivity|right].
      exists B. split; [reflexivity|]. unfold same_shape in *. cbn in *. rewrite !andb_true_iff in *.
      destruct H as (((((((((H1 & H2) & H3) & H4) & H5) & H6) & H7) & H8) & H9) & H10).
      apply eqb_prop in H1, H2, H7, H10. apply Nat.eqb_eq in H3, H4. rewrite H1, H2, H3, H4, H7, H10, H5, H8.
      auto 10.
    - right. eexists. split; reflexivity. }
  assert (E : check false [ILoop CLoop body] abs0 =
    match (match check false body abs0 with
           | Fail => Fail | Dead => Cont abs0 | Cont B => if same_shape abs0 B then Cont abs0 else Fail end)
    with Fail => Fail | Dead => Dead | Cont B => Cont B end) by reflexivity.
  rewrite E. destruct Hb as [->|(B & -> & S)]; [reflexivity|]. rewrite S. reflexivity.
Qed.

(** The code of a notifier matters only through its check. *)
Definition same_check (p q : list instr) : Prop := forall A, check false p A = check false q A.

Lemma same_refl p : same_check p p.
Proof. intros A. reflexivity. Qed.
Lemma same_app p p' q q' : same_check p p' -> same_check q q' -> same_check (p ++ q) (p' ++ q').
Proof.
  intros H H' A. rewrite !check_app, H. destruct (check false p' A); [reflexivity|reflexivity|apply H'].
Qed.
Lemma same_cons i p p' : same_check p p' -> same_check (i :: p) (i :: p').
Proof. intros H. apply (same_app [i] [i]); [apply same_refl|exact H]. Qed.
Lemma same_if c p p' q q' k k' : same_check p p' -> same_check q q' -> same_check k k' ->
  same_check (IIf c p q :: k) (IIf c p' q' :: k').
Proof.
  intros Hp Hq Hk. apply (same_app [IIf c p q] [IIf c p' q'] k k'); [|exact Hk].
  intros A. unfold same_check, check in *. cbn -[check_list join]. cbn [check_list].
  assert (E : check_i false (IIf c p q) A = check_i false (IIf c p' q') A).
  { cbn -[check_list join]. destruct (negb (no_owe A)); [reflexivity|].
    destruct c; rewrite ?Hp, ?Hq; reflexivity. }
  unfold check_list. rewrite E. reflexivity.
Qed.
Lemma same_spawn q k k' : check false q abs0 = Cont abs0 -> same_check k k' ->
  same_check (ISpawn KNotifier q :: k) (ISpawn KNotifier [] :: k').
Proof.
  intros H Hk. apply (same_app [ISpawn KNotifier q] [ISpawn KNotifier []] k k'); [|exact Hk].
  intros A. assert (E : check_i false (ISpawn KNotifier q) A = check_i false (ISpawn KNotifier []) A).
  { unfold check in H. cbn -[check_list]. rewrite H. reflexivity. }
  unfold check, check_list. rewrite E. reflexivity.
Qed.

(** [cf] with a notifier whose loop is the empty code. *)
Definition init_code0 : list instr :=
  [IIf (CStatus Finished)
     ([ILock MModel; IModel MReset; IUnlock MModel] ++ init_common)
     [IIf (CStatus Created)
        ([IMakeNotif; ISpawn KNotifier []] ++ init_common)
        [IGet (GErr (Some ErrAlreadyCreated))]]].

Section Calls.
  Variable cf : cconf.
  Hypothesis Hn : notifier_ok (cf_notifier cf) = true.

  Lemma same_init : same_check (init_code cf) init_code0.
  Proof.
    unfold init_code, init_code0. apply same_if; [apply same_refl| |apply same_refl].
    apply same_if; [|apply same_refl|apply same_refl]. cbn [app]. apply same_cons.
    apply same_spawn; [apply check_notifier; exact Hn|apply same_refl].
  Qed.

  Definition play_init0 : list instr :=
    init_code0 ++ [IIf CInitFailed [ILeak MStatus] (IGet (GErr None) :: play_ready)].
  Definition play0 : list instr :=
    [IGet (GErr None); ILock MStatus;
     IIf (CStatus Idle) (IUnlock MStatus :: send_status (XValue Running))
       [IIf (CStatus Finished) play_init0
          [IIf (CStatus Created) play_init0
             [IIf (CStatus Ready) play_ready
                [IIf (CStatus Running)
                   [IUnlock MStatus; IGet (GErr (Some ErrRunning))]
                   [ILeak MStatus]]]]]].

  Lemma same_play : same_check (play_call cf) play0.
  Proof.
    unfold play_call, play0. do 2 apply same_cons.
    assert (Hp : same_check (play_init cf) play_init0) by (apply same_app; [apply same_init|apply same_refl]).
    apply same_if; [apply same_refl| |apply same_refl].
    apply same_if; [exact Hp| |apply same_refl].
    apply same_if; [exact Hp| |apply same_refl]. apply same_refl.
  Qed.

  Lemma check_init : check false (init_call cf) abs0 = Cont abs0.
  Proof.
    transitivity (check false ([IGet (GErr None); ILock MStatus] ++ init_code0 ++ [IUnlock MStatus]) abs0); [|reflexivity].
    unfold init_call. apply same_app; [apply same_refl|]. apply same_app; [apply same_init|apply same_refl].
  Qed.

  Lemma check_play_at A : check false (play_call cf) A = check false play0 A.
  Proof. apply same_play. Qed.

  Lemma check_push : check false (push_call cf) abs0 = Cont abs0.
  Proof.
    transitivity (check false (IGet (GErr None) :: status_code ++
    [IImplPush;
     IIf CErrNil
       ([ILock MModel; IModel MPushed] ++ status_code ++ [IModel MNewData; IModel MFigures; IUnlock MModel]
        ++ [IRLock MModel; IGet GNewZero; IIf CNewZero play0 []; IGet (GErr None); IRUnlock MModel])
       []]) abs0); [|vm_compute; reflexivity].
    unfold push_call. apply same_cons. apply same_app; [apply same_refl|]. apply same_cons.
    apply same_if; [|apply same_refl|apply same_refl].
    apply same_app; [apply same_refl|]. apply same_app; [apply same_refl|]. apply same_app; [apply same_refl|].
    do 2 apply same_cons. apply same_if; [apply same_play|apply same_refl|apply same_refl].
  Qed.

  Lemma check_batch : check false (batch_call cf) abs0 = Cont abs0.
  Proof.
    unfold batch_call. rewrite check_app.
    replace (check false stop_call abs0) with (Cont abs0) by reflexivity.
    rewrite check_app, check_play_at.
    replace (check false play0 abs0) with (Cont abs0) by (vm_compute; reflexivity).
    vm_compute. reflexivity.
  Qed.

  Lemma check_call c : check false (call_code cf c ++ [IReturn (returns_error c)]) abs0 = Cont abs0.
  Proof.
    rewrite check_app. destruct c; cbn [call_code].
    - rewrite check_init. reflexivity.
    - rewrite check_play_at. vm_compute. reflexivity.
    - vm_compute. reflexivity.
    - vm_compute. reflexivity.
    - vm_compute. reflexivity.
    - rewrite check_push. reflexivity.
    - rewrite check_batch. reflexivity.
    - reflexivity.
    - reflexivity.
  Qed.

  Lemma check_client cs : check false (client_code cf cs) abs0 = Cont abs0.
  Proof.
    induction cs as [|c cs IH]; [reflexivity|]. unfold client_code in *. cbn [flat_map].
    rewrite check_app, check_call. exact IH.
  Qed.

  Lemma start_inv {C : Type} (css : list (list dcall)) : inv (@start C (map (client_code cf) css)).
  Proof.
    split; cbn [s_sh s_th start].
    - split; cbn; try discriminate; auto; try (intros m t H; destruct m; cbn in H; try discriminate; contradiction).
      + intros m. destruct m; reflexivity.
      + intros _. repeat split; reflexivity.
      + contradiction.
    - intros t th Ht. rewrite nth_error_map in Ht.
      destruct (nth_error (map (client_code cf) css) t) as [p|] eqn:Ep; [|discriminate].
      rewrite nth_error_map in Ep. destruct (nth_error css t) as [cs|]; [|discriminate].
      injection Ep as <-. injection Ht as <-. exists false, abs0. split; [discriminate|].
      split; [apply typed_check; cbn [client_thread th_code]; rewrite check_client; reflexivity|].
      split; [|split; [discriminate|split; [left; reflexivity|reflexivity]]].
      split; cbn; try discriminate; try reflexivity; split; discriminate.
  Qed.
End Calls.
