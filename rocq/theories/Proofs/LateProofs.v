(** LateDistrib under every schedule. *)
From Coq Require Import List ZArith Lia Bool Arith.
From Verif Require Import Base.Go Model.LateDistrib Spec.LateSpec Proofs.GoLemmas.
Import ListNotations.

Section Late.
Context {E Dist : Type}.
Notation lstate := (lstate E Dist).
Notation late := (late E Dist).

Definition thread_ok (l : late) (t : nat) (p : pc Dist) : Prop :=
  match p with
  | AtCheck | AtLock | Crashed => l_owner l <> Some t
  | AtRecheck => l_owner l = Some t /\ (l_initialized l = false -> l_distrib l = None /\ l_built l = [])
  | AtBuild | AtUnlockPanic => l_owner l = Some t /\ l_initialized l = false /\ l_distrib l = None /\ l_built l = []
  | AtStore d => l_owner l = Some t /\ l_initialized l = false /\ l_distrib l = None /\ l_built l = [d]
  | AtSet => l_owner l = Some t /\ l_initialized l = false /\ exists d, l_distrib l = Some d /\ l_built l = [d]
  | AtUnlock => l_owner l = Some t /\ l_initialized l = true
  | AtUse => l_owner l <> Some t /\ l_initialized l = true
  | Returned d => l_owner l <> Some t /\ l_initialized l = true /\ l_built l = [d]
  | NilPanic => False
  end.

Definition panicked (g : goroutine E Dist) : bool :=
  match g_pc g with Crashed | AtUnlockPanic => true | _ => false end.
Definition count_panics (gs : list (goroutine E Dist)) : nat := length (filter panicked gs).

Record inv (s : lstate) : Prop := mkInv {
  inv_threads : forall t g, nth_error (s_gos s) t = Some g -> thread_ok (s_late s) t (g_pc g);
  inv_init : l_initialized (s_late s) = true ->
    exists d, l_distrib (s_late s) = Some d /\ l_built (s_late s) = [d];
  inv_free : l_owner (s_late s) = None -> l_initialized (s_late s) = false ->
    l_distrib (s_late s) = None /\ l_built (s_late s) = [];
  inv_owner : forall t, l_owner (s_late s) = Some t -> t < length (s_gos s);
  inv_built : length (l_built (s_late s)) <= 1;
  inv_started : length (l_started (s_late s)) = length (l_built (s_late s)) + count_panics (s_gos s)
}.

Lemma count_upd gs t g p : nth_error gs t = Some g ->
  count_panics (upd gs t p) + (if panicked g then 1 else 0) = count_panics gs + (if panicked p then 1 else 0).
Proof.
  unfold count_panics. revert t. induction gs as [|g0 gs IH]; intros [|t] H; cbn in H; try discriminate.
  - injection H as ->. cbn [upd filter]. destruct (panicked p), (panicked g); cbn [length]; lia.
  - specialize (IH t H). cbn [upd filter]. destruct (panicked g0); cbn [length]; lia.
Qed.

Lemma count_app gs g : count_panics (gs ++ [g]) = count_panics gs + (if panicked g then 1 else 0).
Proof. unfold count_panics. rewrite filter_app, app_length. cbn. destruct (panicked g); cbn; lia. Qed.

Arguments count_panics : simpl never.

Lemma step_threads (s : lstate) t g l' p' : inv s -> nth_error (s_gos s) t = Some g ->
  thread_ok l' t p' ->
  (forall u gu, u <> t -> nth_error (s_gos s) u = Some gu -> thread_ok l' u (g_pc gu)) ->
  forall u gu, nth_error (upd (s_gos s) t (mkGo (g_elemt g) p')) u = Some gu -> thread_ok l' u (g_pc gu).
Proof.
  intros _ Hg Ht Ho u gu Hu. rewrite nth_error_upd in Hu. destruct (Nat.eqb_spec u t) as [->|Hne]; cbn [andb] in Hu.
  - destruct (Nat.ltb_spec t (length (s_gos s))) as [Hl|Hl]; [injection Hu as <-; exact Ht|].
    assert (t < length (s_gos s)) by (apply nth_error_Some; congruence). lia.
  - apply (Ho u gu Hne Hu).
Qed.

Lemma inv_step (s s' : lstate) : inv s -> lstep s s' -> inv s'.
Proof.
  intros [HT HI HF HO HB HS] H. destruct H as [s t g build l' p' Hg Hst|s x].
  - pose proof (HT t g Hg) as Hok. pose proof (count_upd _ t g (mkGo (g_elemt g) p') Hg) as Hcnt.
    assert (Hlt : t < length (s_gos s)) by (apply nth_error_Some; congruence).
    assert (Hth : (forall u gu, u <> t -> nth_error (s_gos s) u = Some gu -> thread_ok l' u (g_pc gu)) -> thread_ok l' t p' ->
      forall u gu, nth_error (upd (s_gos s) t (mkGo (g_elemt g) p')) u = Some gu -> thread_ok l' u (g_pc gu)).
    { intros H1 H2. apply (step_threads s t g l' p'); auto. constructor; assumption. }
    destruct s as [l gs]. cbn [s_late s_gos] in *. destruct g as [x p]. cbn [g_elemt g_pc] in *.
    destruct l as [ini di own sta bui]. cbn [l_initialized l_distrib l_owner l_started l_built] in *.
    unfold panicked in Hcnt. cbn [g_pc] in Hcnt.
    destruct p; cbn [go_step l_initialized l_distrib l_owner l_started l_built] in Hst; try discriminate Hst.
    + (* AtCheck *) injection Hst as <- <-. constructor; cbn; rewrite ?upd_length; try assumption.
      * apply Hth; [intros u gu Hu Hgu; apply (HT u gu Hgu)|]. destruct ini; cbn in *; auto.
      * destruct ini; cbn in Hcnt; lia.
    + (* AtLock *) destruct own as [o|]; [discriminate|]. injection Hst as <- <-. constructor; cbn; rewrite ?upd_length; try assumption.
      * apply Hth; [|cbn; split; [reflexivity|intros Hi; apply HF; [reflexivity|exact Hi]]].
        intros u gu Hu Hgu. pose proof (HT u gu Hgu) as K. assert (Hn : Some t <> Some u) by congruence.
        destruct (g_pc gu); cbn in *; intuition congruence.
      * discriminate.
      * intros u [= <-]. exact Hlt.
      * cbn in Hcnt. lia.
    + (* AtRecheck *) injection Hst as <- <-. cbn in Hok. constructor; cbn; rewrite ?upd_length; try assumption.
      * apply Hth; [intros u gu Hu Hgu; apply (HT u gu Hgu)|]. destruct ini; cbn in *; intuition.
      * destruct ini; cbn in Hcnt; lia.
    + (* AtBuild *) cbn in Hok. destruct Hok as (O & I1 & D1 & B1). subst.
      destruct build as [d|]; injection Hst as <- <-; constructor; cbn; rewrite ?upd_length; try assumption; try discriminate.
      * apply Hth; [|cbn; auto]. intros u gu Hu Hgu. pose proof (HT u gu Hgu) as K.
        destruct (g_pc gu); cbn in *; intuition congruence.
      * lia.
      * cbn in Hcnt, HS. lia.
      * apply Hth; [|cbn; auto]. intros u gu Hu Hgu. apply (HT u gu Hgu).
      * cbn in Hcnt, HS. lia.
    + (* AtStore *) cbn in Hok. destruct Hok as (O & I1 & D1 & B1). subst. injection Hst as <- <-.
      constructor; cbn; rewrite ?upd_length; try assumption; try discriminate.
      * apply Hth; [|cbn; eauto]. intros u gu Hu Hgu. pose proof (HT u gu Hgu) as K.
        destruct (g_pc gu); cbn in *; try (intuition congruence).
      * cbn in Hcnt, HS. lia.
    + (* AtSet *) cbn in Hok. destruct Hok as (O & I1 & d & D1 & B1). subst. injection Hst as <- <-.
      constructor; cbn; rewrite ?upd_length; try assumption; try discriminate.
      * apply Hth; [|cbn; auto]. intros u gu Hu Hgu. pose proof (HT u gu Hgu) as K.
        destruct (g_pc gu); cbn in *; try (intuition congruence).
      * eauto.
      * cbn in Hcnt, HS. lia.
    + (* AtUnlock *) cbn in Hok. destruct Hok as (O & I1). subst. injection Hst as <- <-.
      constructor; cbn; rewrite ?upd_length; try assumption; try discriminate.
      * apply Hth; [|cbn; split; [discriminate|reflexivity]]. intros u gu Hu Hgu. pose proof (HT u gu Hgu) as K.
        destruct (g_pc gu); cbn in *; try (intuition congruence).
      * cbn in Hcnt, HS. lia.
    + (* AtUnlockPanic *) cbn in Hok. destruct Hok as (O & I1 & D1 & B1). subst. injection Hst as <- <-.
      constructor; cbn; rewrite ?upd_length; try assumption; try discriminate.
      * apply Hth; [|cbn; discriminate]. intros u gu Hu Hgu. pose proof (HT u gu Hgu) as K.
        destruct (g_pc gu); cbn in *; try (intuition congruence).
      * auto.
      * cbn in Hcnt, HS. lia.
    + (* AtUse *) cbn in Hok. destruct Hok as (O & I1). subst. destruct (HI eq_refl) as (d & -> & ->). injection Hst as <- <-.
      constructor; cbn; rewrite ?upd_length; try assumption.
      * apply Hth; [intros u gu Hu Hgu; apply (HT u gu Hgu)|]. cbn. auto.
      * cbn in Hcnt, HS. lia.
  - constructor; cbn; try assumption.
    + intros t g Hg. destruct (lt_dec t (length (s_gos s))) as [Hl|Hl].
      * rewrite nth_error_app1 in Hg by exact Hl. apply (HT t g Hg).
      * rewrite nth_error_app2 in Hg by lia. destruct (t - length (s_gos s)) as [|k] eqn:Hk; [|destruct k; discriminate].
        injection Hg as <-. cbn. intros Ho. apply HO in Ho. lia.
    + intros t Ht. rewrite app_length. cbn. specialize (HO t Ht). lia.
    + rewrite count_app. cbn. lia.
Qed.

Lemma inv_reach (s s' : lstate) : inv s -> lsteps s s' -> inv s'.
Proof. intros H Hs. induction Hs as [|s1 s2 s3 H1 _ IH]; [exact H|]. apply IH. apply (inv_step s1); assumption. Qed.

Lemma inv_start : inv late_start.
Proof.
  constructor; cbn.
  - intros [|t] g; discriminate.
  - discriminate.
  - auto.
  - discriminate.
  - lia.
  - reflexivity.
Qed.

End Late.

Lemma late_main : forall E Dist (s : lstate E Dist), lsteps late_start s ->
  length (l_built (s_late s)) <= 1 /\
  (builder_fine s -> length (l_started (s_late s)) <= 1) /\
  (forall g d, In g (s_gos s) -> g_pc g = Returned d -> l_built (s_late s) = [d]) /\
  (forall g, In g (s_gos s) -> g_pc g <> NilPanic).
Proof.
  intros E Dist s H. destruct (inv_reach _ _ inv_start H) as [HT HI HF HO HB HS].
  split; [exact HB|]. split; [|split].
  - intros Hf. assert (Hc : count_panics (s_gos s) = 0); [|lia]. unfold count_panics.
    destruct (filter panicked (s_gos s)) as [|g r] eqn:Hfi; [reflexivity|]. exfalso.
    assert (Hin : In g (filter panicked (s_gos s))) by (rewrite Hfi; left; reflexivity).
    apply filter_In in Hin. destruct Hin as [Hin Hp]. destruct (Hf g Hin) as [H1 H2]. unfold panicked in Hp.
    destruct (g_pc g); congruence.
  - intros g d Hin Hp. apply In_nth_error in Hin. destruct Hin as [t Ht]. pose proof (HT t g Ht) as K. rewrite Hp in K. cbn in K. tauto.
  - intros g Hin Hp. apply In_nth_error in Hin. destruct Hin as [t Ht]. pose proof (HT t g Ht) as K. rewrite Hp in K. exact K.
Qed.

(** No deadlock: while some call has not ended, some goroutine can make a step. *)
Lemma late_progress : forall E Dist (s : lstate E Dist) g, lsteps late_start s -> In g (s_gos s) ->
  (exists d, g_pc g = Returned d) \/ g_pc g = Crashed \/
  exists t h, nth_error (s_gos s) t = Some h /\
    forall build, exists l' p', go_step t (g_elemt h) build (s_late s) (g_pc h) = Some (l', p').
Proof.
  intros E Dist s g H Hin. destruct (inv_reach _ _ inv_start H) as [HT HI HF HO HB HS].
  apply In_nth_error in Hin. destruct Hin as [t Ht]. pose proof (HT t g Ht) as K.
  destruct (g_pc g) eqn:Hp; cbn in K; try contradiction; [| | | | | | | | |left; eauto|right; left; reflexivity];
    try (right; right; exists t, g; split; [exact Ht|]; rewrite Hp; intros [d0|]; cbn; do 2 eexists; reflexivity).
  right. right. destruct (l_owner (s_late s)) as [o|] eqn:Ho.
  - destruct (nth_error (s_gos s) o) as [h|] eqn:Hh; [|apply nth_error_None in Hh; specialize (HO o eq_refl); lia].
    exists o, h. split; [exact Hh|]. pose proof (HT o h Hh) as Kh. unfold thread_ok in Kh; rewrite ?Ho in Kh.
    intros build. destruct (g_pc h); cbn in Kh |- *; try (exfalso; intuition congruence); try (destruct build); do 2 eexists; reflexivity.
  - exists t, g. split; [exact Ht|]. rewrite Hp. intros build. cbn. rewrite Ho. do 2 eexists; reflexivity.
Qed.

(** The first check reads d.initialized without the lock while another goroutine writes it. *)
Lemma late_race : forall E Dist (x : E) (d : Dist), exists s : lstate E Dist, lsteps late_start s /\ data_race s.
Proof.
  intros E Dist x d.
  exists (mkLState (mkLate false (Some d) (Some 0) [x] [d]) [mkGo x AtSet; mkGo x AtCheck]). split.
  - eapply lss_cons; [apply (ls_call _ x)|]. eapply lss_cons; [apply (ls_call _ x)|]. cbn.
    eapply lss_cons; [apply (ls_go _ 0 (mkGo x AtCheck) (Ok d)); reflexivity|]. cbn.
    eapply lss_cons; [apply (ls_go _ 0 (mkGo x AtLock) (Ok d)); reflexivity|]. cbn.
    eapply lss_cons; [apply (ls_go _ 0 (mkGo x AtRecheck) (Ok d)); reflexivity|]. cbn.
    eapply lss_cons; [apply (ls_go _ 0 (mkGo x AtBuild) (Ok d)); reflexivity|]. cbn.
    eapply lss_cons; [apply (ls_go _ 0 (mkGo x (AtStore d)) (Ok d)); reflexivity|]. cbn. apply lss_nil.
  - exists 0, 1, (mkGo x AtSet), (mkGo x AtCheck), FInitialized, false. cbn. repeat split. lia.
Qed.

(** A builder that panics is called again by the next call. *)
Lemma late_panic_twice : forall E Dist (x : E) (d : Dist), exists s : lstate E Dist,
  lsteps late_start s /\ length (l_started (s_late s)) = 2.
Proof.
  intros E Dist x d.
  eexists. split; [|shelve].
  eapply lss_cons; [apply (ls_call _ x)|]. eapply lss_cons; [apply (ls_call _ x)|]. cbn.
  eapply lss_cons; [apply (ls_go _ 0 (mkGo x AtCheck) (Ok d)); reflexivity|]. cbn.
  eapply lss_cons; [apply (ls_go _ 0 (mkGo x AtLock) (Ok d)); reflexivity|]. cbn.
  eapply lss_cons; [apply (ls_go _ 0 (mkGo x AtRecheck) (Ok d)); reflexivity|]. cbn.
  eapply lss_cons; [apply (ls_go _ 0 (mkGo x AtBuild) Panic); reflexivity|]. cbn.
  eapply lss_cons; [apply (ls_go _ 0 (mkGo x AtUnlockPanic) Panic); reflexivity|]. cbn.
  eapply lss_cons; [apply (ls_go _ 1 (mkGo x AtCheck) (Ok d)); reflexivity|]. cbn.
  eapply lss_cons; [apply (ls_go _ 1 (mkGo x AtLock) (Ok d)); reflexivity|]. cbn.
  eapply lss_cons; [apply (ls_go _ 1 (mkGo x AtRecheck) (Ok d)); reflexivity|]. cbn.
  eapply lss_cons; [apply (ls_go _ 1 (mkGo x AtBuild) (Ok d)); reflexivity|]. cbn. apply lss_nil.
  Unshelve. reflexivity.
Qed.

(** The only race is between the writer of d.initialized and an unlocked check. *)
Lemma late_flag : forall E Dist (s : lstate E Dist) t1 t2 g1 g2 f w, lsteps late_start s -> t1 <> t2 ->
  nth_error (s_gos s) t1 = Some g1 -> nth_error (s_gos s) t2 = Some g2 -> access (g_pc g1) = Some (f, true) -> access (g_pc g2) = Some (f, w) ->
  g_pc g1 = AtSet /\ g_pc g2 = AtCheck /\ l_initialized (s_late s) = false /\ l_owner (s_late s) = Some t1.
Proof.
  intros E Dist s t1 t2 g1 g2 f w H Hn H1 H2 A1 A2. destruct (inv_reach _ _ inv_start H) as [HT _ _ _ _ _].
  pose proof (HT _ _ H1) as K1. pose proof (HT _ _ H2) as K2.
  destruct (g_pc g1); cbn in A1; try discriminate A1; injection A1 as <-; destruct (g_pc g2); cbn in A2; try discriminate A2; cbn in K1, K2; intuition congruence.
Qed.
