(** All the interleavings of one client with runs that end only when they are stopped: with a notifier that reads the model, and
    with runs started by Push. *)
From Coq Require Import List ZArith Bool Lia FMapPositive.
From Verif Require Import Base.Go Base.Num Model.Status Model.Finish Model.CtrlLang Model.CtrlCode Spec.CtrlSpec Spec.ExploreSpec Proofs.GoLemmas
  Proofs.ConfProofs Proofs.Explore Proofs.ExploreRun Proofs.ExploreEq Proofs.ExploreSound Proofs.ExploreUse Proofs.ExploreRead Proofs.ExploreEndless.
Import ListNotations.
Local Open Scope list_scope.

(** Phases: the documented status, and whether a paused run has been stopped. *)
Definition calm_phase (s : clust_status) (late : bool) : nat := 2 * status_index s + (if late then 1 else 0).
Definition calm_status (p : nat) : clust_status := nth (p / 2) phase_status Created.
Definition calm_setting (pr : program * list positive) (dpi : bool) : setting :=
  mkSetting (fst pr) [false] [(true, false); (false, false)] [Some (true, false); Some (false, false)] [false; true] true dpi
    (fun p => let s := calm_status p in
              map (fun c => (entry_place (snd pr) c, calm_phase (fst (answer s c)) (lateness s (Nat.odd p) c)))
                (filter (fun c => match c, s with DPush, Ready => negb dpi | _, _ => true end) (calm_calls s (Nat.odd p)))).
(** A client about to return has the documented status. *)
Definition status_good (z : setting) (a : astate) : bool :=
  match slot a 0 with
  | Some th =>
      match at_instr z (Some th) with
      | Some (IReturn _) => over z (n_next (node_at z (t_pc th))) && status_eqb (fst (a_status a)) (calm_status (t_phase th)) && is_none (snd (a_status a))
      | _ => true
      end
  | None => false
  end.
Definition calm_good (z : setting) (a : astate) : bool := clients_in [0] a && at_most_one (a_th a) && race_free z safe_fields a && status_good z a.
Notation calm_verified pr dpi :=
  (verify (calm_setting pr dpi) (hd 1%positive (snd pr)) 100000 [0] [0] (calm_good (calm_setting pr dpi)) (at_return (calm_setting pr dpi)) (at_end (calm_setting pr dpi))).

Definition listened_conf : cconf := mkCConf 0 0 0 false None (Some (call_code plain_conf DModel)).
Definition listened_program : program * list positive := Eval vm_compute in make_program ([] :: map (entry listened_conf) all_calls).
Lemma listened_checked : calm_verified listened_program false = true.
Proof. vm_cast_no_check (eq_refl true). Qed.
Lemma started_checked : calm_verified plain_program true = true.
Proof. vm_cast_no_check (eq_refl true). Qed.

Lemma calm_good_spec z a : calm_good z a = true -> clients_in [0] a = true /\ at_most_one (a_th a) = true /\ race_free z safe_fields a = true /\ status_good z a = true.
Proof. unfold calm_good. intros H. apply andb_prop in H as (H & H1). apply andb_prop in H as (H & H2). apply andb_prop in H as (H & H3). repeat split; assumption. Qed.
Definition calm_left (cs : list dcall) (p : nat) (rest : list dcall) : Prop :=
  exists done, cs = done ++ rest /\ five (fst (after done)) /\ Nat.odd p = late_of done /\ calm_status p = fst (after done).
Lemma calm_phase_ok s l : five s -> Nat.odd (calm_phase s l) = l /\ calm_status (calm_phase s l) = s.
Proof. unfold five. intros [-> | [-> | [-> | [-> | ->]]]]; destruct l; cbn; repeat split. Qed.
Lemma answer_five s c : five s -> five (fst (answer s c)).
Proof. unfold five. intros [-> | [-> | [-> | [-> | ->]]]]; destruct c; cbn; tauto. Qed.
Lemma entry_wait cf d : (d <= 0)%Z -> entry cf (DWait None d) = entry cf (DWait None 0).
Proof.
  intros Hd. unfold entry, call_code, wait_call, wait_code, wait_poll, returns_error. cbn [map app erase erase_g erase_c plain_wait status_code model_code].
  replace (d <=? 0)%Z with true by (symmetry; apply Z.leb_le; exact Hd). reflexivity.
Qed.

Section Calm.
  Context {C : Type}.
  Variable cf cf0 : cconf.
  Variable pr : program * list positive.
  Variable dpi : bool.
  Hypothesis Hent : forall c, In c all_calls -> code_at (fst pr) (entry_place (snd pr) c) = Some (entry cf0 c).
  Hypothesis Hnot : cf_notifier cf = cf_notifier cf0.
  Hypothesis Hfree : cf_iter cf = 0%Z /\ cf_ipd cf = 0%Z /\ cf_fin cf = None /\ cf_timeout cf = false.
  Hypothesis Hdpi : dpi = true \/ (cf_dpi cf <= 0)%Z.
  Hypothesis Hver : calm_verified pr dpi = true.
  Variable cs : list dcall.
  Hypothesis Hcs : calm_session cs.
  Hypothesis Hpush : dpi = true -> no_push_ready cs.
  Notation z := (calm_setting pr dpi).
  Notation K := (calm_left cs).

  Lemma calm_fin m : In (is_finished (run_finishing cf) m) (z_fin z).
  Proof. destruct Hfree as (E1 & E2 & E3 & _). unfold run_finishing. rewrite E3, E1, E2. left. reflexivity. Qed.
  Lemma calm_never : z_never z = match cf_fin cf with None => true | Some _ => false end && (cf_iter cf =? 0)%Z && (cf_ipd cf =? 0)%Z.
  Proof. destruct Hfree as (E1 & E2 & E3 & _). rewrite E3, E1, E2. reflexivity. Qed.
  Lemma calm_dpi : (0 <? cf_dpi cf)%Z = true -> z_dpi z = true.
  Proof. intros H. apply Z.ltb_lt in H. destruct Hdpi as [->|E]; [reflexivity|lia]. Qed.
  Lemma calm_expected (o : oracle C) : obliging o -> expected z o.
  Proof.
    intros (E & c & f & Ei). unfold expected. rewrite E, Ei. cbn. split; [destruct (fst (o_init o)); cbn; tauto|]. split; [destruct c; cbn; tauto|destruct (o_push o); cbn; tauto].
  Qed.
  Lemma calm_calls_in before c rest : cs = before ++ c :: rest -> five (fst (after before)) ->
    exists c', In c' (filter (fun c => match c, fst (after before) with DPush, Ready => negb dpi | _, _ => true end) (calm_calls (fst (after before)) (late_of before))) /\
      In c' all_calls /\ entry cf c = entry cf0 c' /\ forall s, answer s c = answer s c' /\ forall l, lateness s l c = lateness s l c'.
  Proof.
    intros Ec Hs. pose proof (Hcs _ _ _ Ec) as Hc. pose proof (late_of_spec before) as HL.
    assert (Hp : c = DPush -> fst (after before) = Ready -> negb dpi = true).
    { intros -> E. destruct dpi; [|reflexivity]. exfalso. exact (Hpush eq_refl _ _ Ec E). }
    assert (Hen : entry cf c = entry cf0 c) by (unfold entry; rewrite (call_code_conf cf cf0 c Hnot); reflexivity).
    assert (E : forall l, In c l -> In c all_calls -> exists c', In c' (filter (fun c => match c, fst (after before) with DPush, Ready => negb dpi | _, _ => true end) l) /\
      In c' all_calls /\ entry cf c = entry cf0 c' /\ forall s, answer s c = answer s c' /\ forall l, lateness s l c = lateness s l c').
    { intros l H1 H2. exists c. split; [|split; [exact H2|]; split; [exact Hen|]; intros s; split; reflexivity]. apply filter_In. split; [exact H1|].
      destruct c; try reflexivity. destruct (fst (after before)); try reflexivity. apply Hp; reflexivity. }
    unfold calm_calls. destruct c; cbn [calm] in Hc; try (apply E; [|cbn; tauto]; apply in_or_app; first [left; cbn; tauto | right; destruct (late_of before); [exfalso; tauto|]; cbn; try tauto]).
    - destruct Hc as (-> & Hd). exists (DWait None 0). split; [apply filter_In; split; [apply in_or_app; left; cbn; tauto|reflexivity]|]. split; [cbn; tauto|]. split; [|intros s; split; reflexivity].
      rewrite Hen. apply entry_wait. exact Hd.
    - destruct (fst (after before)); cbn; tauto.
  Qed.
  Lemma calm_setting_calls p : z_calls z p = map (fun c => (entry_place (snd pr) c, calm_phase (fst (answer (calm_status p) c)) (lateness (calm_status p) (Nat.odd p) c)))
    (filter (fun c => match c, calm_status p with DPush, Ready => negb dpi | _, _ => true end) (calm_calls (calm_status p) (Nat.odd p))).
  Proof. reflexivity. Qed.
  Lemma calm_calls_ok p c rest : K p (c :: rest) ->
    exists pc q, In (pc, q) (z_calls z p) /\ ExploreEq.code_at (z_prog z) pc = Some (map erase (call_code cf c ++ [IReturn (returns_error c)])) /\ K q rest.
  Proof.
    intros (done & Ec & Hs & Hodd & Eis). destruct (calm_calls_in _ _ _ Ec Hs) as (c' & Hin & Hall & He & Ha). destruct (Ha (fst (after done))) as (Ha1 & Ha2).
    pose proof (answer_five _ c' Hs) as H5. destruct (calm_phase_ok _ (lateness (fst (after done)) (late_of done) c') H5) as (P1 & P2).
    exists (entry_place (snd pr) c'), (calm_phase (fst (answer (fst (after done)) c')) (lateness (fst (after done)) (late_of done) c')). split; [|split].
    - rewrite calm_setting_calls, Eis, Hodd. apply in_map_iff. exists c'. split; [reflexivity|exact Hin].
    - fold (entry cf c). rewrite He. exact (Hent c' Hall).
    - exists (done ++ [c]). rewrite after_snoc, late_snoc, Ha1, Ha2. rewrite <- app_assoc. split; [exact Ec|]. split; [exact H5|]. split; [exact P1|exact P2].
  Qed.
  Lemma calm_begin : K 0 cs.
  Proof. exists []. split; [reflexivity|]. split; [left; reflexivity|]. split; reflexivity. Qed.

  Lemma calm_sound : program_ok (z_prog z) = true /\ exists l, (forall a, In a l -> calm_good z a = true) /\
    (forall st : state C, reached cf obliging [cs] st -> exists a, In a l /\ Rel (C := C) cf z K a st) /\
    (forall a (st : state C), In a l -> at_end z 0 a = false -> Rel cf z K a st -> leads cf obliging (returning 0) st).
  Proof.
    destruct (verify_sound (C := C) cf z obliging (proj2 (proj2 (proj2 Hfree))) calm_fin calm_never calm_dpi K calm_calls_ok calm_expected _ _ _ _ _ _ _ Hver)
      as (Hg & l & Hgood & Hr & Hl).
    split; [exact Hg|]. exists l. split; [exact Hgood|]. split.
    - intros st H. apply (Hr [cs]); [|exact H]. constructor; [exact calm_begin|constructor].
    - intros a st Ha He HR. apply (Hl 0 a st (returning 0)); [left; reflexivity| |exact Ha|exact He|exact HR]. intros a' st' H H'. exact (at_return_ok cf z K Hg 0 a' st' H H').
  Qed.
  Lemma calm_good_of (st : state C) : reached cf obliging [cs] st -> exists a, calm_good z a = true /\ Rel (C := C) cf z K a st.
  Proof. intros H. destruct calm_sound as (_ & l & Hgood & Hr & _). destruct (Hr _ H) as (a & Ha & HR). exists a. split; [exact (Hgood _ Ha)|exact HR]. Qed.
  Lemma calm_no_crash (st : state C) : reached cf obliging [cs] st -> sh_crashed (s_sh st) = false.
  Proof. intros H. destruct (calm_good_of _ H) as (a & _ & id & am & HR). exact (r_crash _ _ _ _ (rel_sh _ _ _ _ _ _ _ HR)). Qed.
  Lemma calm_one_run (st : state C) : reached cf obliging [cs] st -> forall t u, kind_of st t = Some KRunner -> kind_of st u = Some KRunner -> ~ ended st t -> ~ ended st u -> t = u.
  Proof.
    intros H. destruct (calm_good_of _ H) as (a & Hg & HR). destruct (calm_good_spec _ _ Hg) as (_ & H1 & _). apply (one_runner_ok cf z K a st); assumption.
  Qed.
  Lemma calm_race_free (st : state C) f : reached cf obliging [cs] st -> f <> FFigures -> ~ data_race st f.
  Proof.
    intros H Hf. destruct (calm_good_of _ H) as (a & Hg & HR). destruct (calm_good_spec _ _ Hg) as (_ & _ & H1 & _).
    apply (race_free_ok cf z K (proj1 calm_sound) safe_fields f a st); try assumption. destruct f; cbn; try tauto.
  Qed.
  Lemma calm_returns (st : state C) : reached cf obliging [cs] st -> ~ ended st 0 -> leads cf obliging (returning 0) st.
  Proof.
    intros H Hn. destruct calm_sound as (_ & l & Hgood & Hr & Hl). destruct (Hr _ H) as (a & Ha & HR). apply (Hl a); [exact Ha| |exact HR].
    destruct (calm_good_spec _ _ (Hgood _ Ha)) as (Hg & _). apply (not_ended cf z K [0] 0 a st Hg (or_introl eq_refl) HR Hn).
  Qed.
  Lemma calm_answered (st : state C) done c rest th b : reached cf obliging [cs] st -> cs = done ++ c :: rest ->
    nth_error (s_th st) 0 = Some th -> th_code th = IReturn b :: client_code cf rest -> sh_status (s_sh st) = new_status (fst (after (done ++ [c]))).
  Proof.
    intros H Ecs Hth Hcode. destruct (calm_good_of _ H) as (a & Hgood & id & am & HR). destruct (calm_good_spec _ _ Hgood) as (Hcl & _ & _ & Han). pose proof (proj1 calm_sound) as Hprog.
    unfold clients_in in Hcl. cbn [forallb] in Hcl. rewrite andb_true_r in Hcl. unfold status_good in Han. destruct (slot a 0) as [ath|] eqn:Es; [|discriminate Hcl]. apply kind_eqb_eq in Hcl.
    destruct (rel_client cf z K _ _ _ _ _ _ HR Es Hcl) as (th' & Hth' & Ht). rewrite Hth in Hth'. injection Hth' as <-.
    pose proof (thr_at cf z K Hprog _ _ _ _ _ Ht Hcode Logic.I) as Hat. cbn [erase] in Hat. rewrite Hat in Han.
    apply andb_prop in Han as (Han & Hno). apply andb_prop in Han as (Hover & Hst).
    destruct Ht as [_ Hloc _ (k0 & tail & Hpc & Htl & Hin)]. unfold at_instr in Hat. destruct (t_mode ath) eqn:Em; try discriminate Hat. rewrite (over_spec _ _ _ Hpc) in Hat. destruct k0 as [|i0 k0]; [discriminate Hat|].
    cbn [map] in Hpc. destruct (node_spec _ Hprog _ _ _ Hpc) as (nd & Hnd & Hi & Hnx & _). unfold node_at in Hover. rewrite Hnd in Hover. rewrite (over_spec _ _ _ Hnx) in Hover.
    destruct k0 as [|? ?]; [|discriminate Hover]. cbn in Hin. destruct Hin as (Ec & _). rewrite Ec in Hcode. injection Hcode as _ Etail.
    rewrite Hcl in Htl. destruct Htl as (cs' & -> & (done' & Edone & _ & _ & Eis)).
    destruct (client_code_suffix cf (done ++ [c]) done' rest cs') as (<- & <-); [rewrite <- app_assoc; cbn; congruence|congruence|].
    rewrite Eis in Hst. apply status_eqb_eq in Hst. pose proof (r_status _ _ _ _ (rel_sh _ _ _ _ _ _ _ HR)) as Hs. rewrite <- Hs in Hst, Hno. unfold abs_st in Hst, Hno. cbn in Hst, Hno.
    destruct (sh_status (s_sh st)) as [v e]. cbn in Hst, Hno. rewrite abs_err_none in Hno. destruct e; [discriminate Hno|]. unfold new_status. congruence.
  Qed.
End Calm.

Lemma listened_entries : forall c, In c all_calls -> code_at (fst listened_program) (entry_place (snd listened_program) c) = Some (entry listened_conf c).
Proof.
  assert (X : forallb (fun c => match code_at (fst listened_program) (entry_place (snd listened_program) c) with Some x => code_eqb x (entry listened_conf c) | None => false end) all_calls = true) by (vm_compute; reflexivity).
  rewrite forallb_forall in X. intros c Hc. specialize (X _ Hc). destruct (code_at _ _) as [x|]; [|discriminate]. apply code_eqb_eq in X. congruence.
Qed.

(** With a notifier that reads the model. *)
Section Listened.
  Context {C : Type}.
  Variable cf : cconf.
  Hypothesis Hcf : endless_listened cf.
  Variable cs : list dcall.
  Hypothesis Hcs : calm_session cs.
  Lemma listened_hyps : cf_notifier cf = cf_notifier listened_conf /\ (cf_iter cf = 0%Z /\ cf_ipd cf = 0%Z /\ cf_fin cf = None /\ cf_timeout cf = false) /\ (false = true \/ (cf_dpi cf <= 0)%Z).
  Proof. destruct Hcf as (E1 & E2 & E3 & E4 & E5 & E6). rewrite E6. repeat split; try assumption. right. exact E5. Qed.
  Lemma listened_returns (st : state C) : reached cf obliging [cs] st -> ~ ended st 0 -> leads cf obliging (returning 0) st.
  Proof.
    destruct listened_hyps as (H1 & H2 & H3). apply (calm_returns cf listened_conf listened_program false listened_entries H1 H2 H3 listened_checked cs Hcs). discriminate.
  Qed.
  Lemma listened_status (st : state C) done c rest th b : reached cf obliging [cs] st -> cs = done ++ c :: rest ->
    nth_error (s_th st) 0 = Some th -> th_code th = IReturn b :: client_code cf rest -> sh_status (s_sh st) = new_status (fst (after (done ++ [c]))).
  Proof.
    destruct listened_hyps as (H1 & H2 & H3). apply (calm_answered cf listened_conf listened_program false listened_entries H1 H2 H3 listened_checked cs Hcs). discriminate.
  Qed.
  Lemma listened_race_free (st : state C) f : reached cf obliging [cs] st -> f <> FFigures -> ~ data_race st f.
  Proof.
    destruct listened_hyps as (H1 & H2 & H3). apply (calm_race_free cf listened_conf listened_program false listened_entries H1 H2 H3 listened_checked cs Hcs). discriminate.
  Qed.
End Listened.

(** With runs started by Push. *)
Section Started.
  Context {C : Type}.
  Variable cf : cconf.
  Hypothesis Hcf : endless_started cf.
  Variable cs : list dcall.
  Hypothesis Hcs : calm_session cs.
  Hypothesis Hpush : no_push_ready cs.
  Lemma started_hyps : cf_notifier cf = cf_notifier plain_conf /\ (cf_iter cf = 0%Z /\ cf_ipd cf = 0%Z /\ cf_fin cf = None /\ cf_timeout cf = false) /\ (true = true \/ (cf_dpi cf <= 0)%Z).
  Proof. destruct Hcf as (E1 & E2 & E3 & E4 & E5). rewrite E5. repeat split; try assumption. left. reflexivity. Qed.
  Lemma started_returns (st : state C) : reached cf obliging [cs] st -> ~ ended st 0 -> leads cf obliging (returning 0) st.
  Proof.
    destruct started_hyps as (H1 & H2 & H3). apply (calm_returns cf plain_conf plain_program true plain_entries H1 H2 H3 started_checked cs Hcs). intros _. exact Hpush.
  Qed.
  Lemma started_status (st : state C) done c rest th b : reached cf obliging [cs] st -> cs = done ++ c :: rest ->
    nth_error (s_th st) 0 = Some th -> th_code th = IReturn b :: client_code cf rest -> sh_status (s_sh st) = new_status (fst (after (done ++ [c]))).
  Proof.
    destruct started_hyps as (H1 & H2 & H3). apply (calm_answered cf plain_conf plain_program true plain_entries H1 H2 H3 started_checked cs Hcs). intros _. exact Hpush.
  Qed.
End Started.
