(** All the interleavings of one client with one run that may end by itself or fail. *)
From Coq Require Import List ZArith Bool Lia FMapPositive.
From Verif Require Import Base.Go Base.Num Model.Status Model.Finish Model.CtrlLang Model.CtrlCode Spec.CtrlSpec Spec.ExploreSpec Proofs.GoLemmas
  Proofs.ConfProofs Proofs.Explore Proofs.ExploreRun Proofs.ExploreEq Proofs.ExploreSound Proofs.ExploreUse Proofs.ExploreRead Proofs.ExploreEndless.
Import ListNotations.
Local Open Scope list_scope.

(** Phases: before the run, and the last call since. *)
Definition once_step (p : nat) (c : dcall) : nat :=
  match c with
  | DPlay => 1
  | DBatch => 2
  | DWait _ _ => match p with 0 => 0 | _ => 3 end
  | DStatus | DModel => match p with 0 => 0 | _ => 4 end
  | _ => p
  end.
Definition once_calls (p : nat) : list dcall :=
  match p with 0 => [DInit; DPlay; DPause; DStop; DPush; DBatch; DStatus; DModel; DWait None 0] | _ => [DStatus; DModel; DWait None 0] end.
Definition once_setting : setting :=
  mkSetting (fst plain_program) [true; false] [(true, false); (false, false)] [Some (true, false); Some (false, false); Some (true, true); Some (false, true); None] [false; true] false false
    (fun p => map (fun c => (entry_place (snd plain_program) c, once_step p c)) (once_calls p)).

(** What a client about to return has. *)
Definition once_answered (z : setting) (a : astate) : bool :=
  match slot a 0 with
  | Some th =>
      match at_instr z (Some th) with
      | Some (IReturn _) =>
          let s := fst (a_status a) in
          let e := snd (a_status a) in
          let only := match x_err (t_loc th) with Some f => is_none f || negb (is_none e) | None => false end in
          over z (n_next (node_at z (t_pc th))) &&
          match t_phase th with
          | 1 => match x_err (t_loc th) with Some f => is_none f | None => false end && (status_eqb s Running || status_eqb s Ready || status_eqb s Finished)
          | 2 => status_eqb s Finished && only
          | 3 => (status_eqb s Ready && is_none e || status_eqb s Finished) && only
          | _ => true
          end
      | _ => true
      end
  | None => false
  end.
Definition all_fields : list field := [FStatusField; FCentroids; FFigures; FNewData; FAck; FTimeout].
Definition once_good (a : astate) : bool := clients_in [0] a && at_most_one (a_th a) && race_free once_setting all_fields a && once_answered once_setting a.
(** The implementation fails from now on. *)
Definition once_failing : setting :=
  mkSetting (fst plain_program) [true; false] [(true, false); (false, false)] [Some (true, true); Some (false, true); None] [false; true] false false
    (fun p => map (fun c => (entry_place (snd plain_program) c, once_step p c)) (once_calls p)).
Lemma once_checked : verify_with once_setting once_failing end_place 100000 [0] [0] once_good (at_return once_setting) (at_end once_setting) = true.
Proof. vm_cast_no_check (eq_refl true). Qed.
Lemma once_good_spec a : once_good a = true ->
  clients_in [0] a = true /\ at_most_one (a_th a) = true /\ race_free once_setting all_fields a = true /\ once_answered once_setting a = true.
Proof. unfold once_good. intros H. apply andb_prop in H as (H & H1). apply andb_prop in H as (H & H2). apply andb_prop in H as (H & H3). repeat split; assumption. Qed.

Definition once_phase (cs : list dcall) : nat := fold_left once_step cs 0.
Lemma once_phase_snoc cs c : once_phase (cs ++ [c]) = once_step (once_phase cs) c.
Proof. unfold once_phase. rewrite fold_left_app. reflexivity. Qed.
Lemma once_phase_0 cs : once_phase cs = 0 <-> ~ In DPlay cs /\ ~ In DBatch cs.
Proof.
  induction cs as [|c cs IH] using rev_ind; [cbn; tauto|]. rewrite once_phase_snoc, !in_app_iff. cbn [In].
  destruct c; cbn [once_step]; try (rewrite IH; clear IH; intuition discriminate); try (split; [discriminate|intuition]); destruct (once_phase cs); try (rewrite IH in *); split; try discriminate; try (destruct IH as (IH & _); specialize (IH eq_refl); intuition discriminate); try reflexivity;
  intros (H1 & H2); assert (X : ~ In DPlay cs /\ ~ In DBatch cs) by tauto; apply IH in X; discriminate.
Qed.
Definition once_left (cs : list dcall) (p : nat) (rest : list dcall) : Prop := exists done, cs = done ++ rest /\ p = once_phase done.

Section Once.
  Context {C : Type}.
  Variable cf : cconf.
  Hypothesis Hcf : budgeted cf.
  Variable cs : list dcall.
  Hypothesis Hcs : once_session cs.
  Notation z := once_setting.
  Notation K := (once_left cs).

  Lemma once_fin m : In (is_finished (run_finishing cf) m) (z_fin z).
  Proof. cbn. destruct (is_finished (run_finishing cf) m); tauto. Qed.
  Lemma once_never : z_never z = match cf_fin cf with None => true | Some _ => false end && (cf_iter cf =? 0)%Z && (cf_ipd cf =? 0)%Z.
  Proof.
    destruct Hcf as (H & _). cbn. symmetry. destruct (cf_fin cf); [reflexivity|]. cbn. destruct (Z.eqb_spec (cf_iter cf) 0) as [E|E]; [|reflexivity]. cbn. apply Z.eqb_neq. intuition congruence.
  Qed.
  Lemma once_dpi : (0 <? cf_dpi cf)%Z = true -> z_dpi z = true.
  Proof. destruct Hcf as (_ & _ & E & _). intros H. apply Z.ltb_lt in H. lia. Qed.
  Lemma once_expected (o : oracle C) : initializing o -> expected z o.
  Proof.
    unfold initializing. intros E. unfold expected. rewrite E. cbn. split; [destruct (fst (o_init o)); cbn; tauto|]. split; [|destruct (o_push o); cbn; tauto].
    destruct (o_iter o) as [c f e|]; cbn; [destruct c, e; cbn; tauto|tauto].
  Qed.
  Lemma once_calls_ok p c rest : K p (c :: rest) ->
    exists pc q, In (pc, q) (z_calls z p) /\ ExploreEq.code_at (z_prog z) pc = Some (map erase (call_code cf c ++ [IReturn (returns_error c)])) /\ K q rest.
  Proof.
    intros (done & Ec & ->). destruct Hcf as (_ & _ & _ & Hn).
    assert (X : exists c', In c' (once_calls (once_phase done)) /\ In c' all_calls /\ entry cf c = entry plain_conf c' /\ once_step (once_phase done) c = once_step (once_phase done) c').
    { pose proof (Hcs _ _ _ Ec) as Hc. assert (P : forall l, In c l -> In c all_calls -> exists c', In c' l /\ In c' all_calls /\ entry cf c = entry plain_conf c' /\ once_step (once_phase done) c = once_step (once_phase done) c').
      { intros l H1 H2. exists c. split; [exact H1|]. split; [exact H2|]. split; [apply entry_plain; [exact Hn|left; reflexivity]|reflexivity]. }
      destruct c; cbn in Hc; try (apply P; [|cbn; tauto]; first [destruct (once_phase done); cbn; tauto | rewrite (proj2 (once_phase_0 done) Hc); cbn; tauto]).
      destruct Hc as (-> & Hd). exists (DWait None 0). split; [destruct (once_phase done); cbn; tauto|]. split; [cbn; tauto|]. split; [|reflexivity]. apply entry_plain; [exact Hn|]. right. exists d. tauto. }
    destruct X as (c' & Hin & Hall & Hent & Hstep). exists (entry_place (snd plain_program) c'), (once_step (once_phase done) c'). split; [|split].
    - cbn [z_calls once_setting]. apply (in_map (fun c => (entry_place (snd plain_program) c, once_step (once_phase done) c))). exact Hin.
    - change (code_at (fst plain_program) (entry_place (snd plain_program) c') = Some (entry cf c)). rewrite Hent. apply plain_entries. exact Hall.
    - exists (done ++ [c]). rewrite <- app_assoc, once_phase_snoc, Hstep. split; [exact Ec|reflexivity].
  Qed.
  Lemma once_begin : K 0 cs.
  Proof. exists []. split; reflexivity. Qed.
  Lemma once_failed (o : oracle C) : failing o -> expected once_failing o.
  Proof.
    intros (E & N). unfold expected. rewrite E. cbn. split; [destruct (fst (o_init o)); cbn; tauto|]. split; [|destruct (o_push o); cbn; tauto].
    destruct (o_iter o) as [c f e|]; cbn; [|tauto]. destruct e; [destruct c; cbn; tauto|]. exfalso. exact (N c f eq_refl).
  Qed.

  Lemma once_sound : program_ok (z_prog z) = true /\ exists l, (forall a, In a l -> once_good a = true) /\
    (forall st : state C, reached cf initializing [cs] st -> exists a, In a l /\ Rel (C := C) cf z K a st) /\
    (forall a (st : state C), In a l -> at_end z 0 a = false -> Rel cf z K a st -> leads cf failing (returning 0) st).
  Proof.
    destruct (verify_with_sound (C := C) cf z once_failing initializing failing (proj1 (proj2 Hcf)) once_fin once_never once_dpi K once_calls_ok once_expected
      eq_refl eq_refl eq_refl eq_refl eq_refl once_failed _ _ _ _ _ _ _ once_checked) as (Hg & l & Hgood & Hr & Hl).
    split; [exact Hg|]. exists l. split; [exact Hgood|]. split.
    - intros st H. apply (Hr [cs]); [|exact H]. constructor; [exact once_begin|constructor].
    - intros a st Ha He HR. apply (Hl 0 a st (returning 0)); [left; reflexivity| |exact Ha|exact He|exact HR]. intros a' st' H H'.
      exact (at_return_ok cf z K Hg 0 a' st' H H').
  Qed.
  Lemma once_good_of (st : state C) : reached cf initializing [cs] st -> exists a, once_good a = true /\ Rel (C := C) cf z K a st.
  Proof. intros H. destruct once_sound as (_ & l & Hgood & Hr & _). destruct (Hr _ H) as (a & Ha & HR). exists a. split; [exact (Hgood _ Ha)|exact HR]. Qed.

  Lemma once_no_crash (st : state C) : reached cf initializing [cs] st -> sh_crashed (s_sh st) = false.
  Proof. intros H. destruct (once_good_of _ H) as (a & _ & id & am & HR). exact (r_crash _ _ _ _ (rel_sh _ _ _ _ _ _ _ HR)). Qed.
  Lemma once_one_run (st : state C) : reached cf initializing [cs] st -> forall t u, kind_of st t = Some KRunner -> kind_of st u = Some KRunner -> ~ ended st t -> ~ ended st u -> t = u.
  Proof.
    intros H. destruct (once_good_of _ H) as (a & Hg & HR). destruct (once_good_spec _ Hg) as (_ & H1 & _). apply (one_runner_ok cf z K a st); assumption.
  Qed.
  Lemma once_race_free (st : state C) f : reached cf initializing [cs] st -> ~ data_race st f.
  Proof.
    intros H. destruct (once_good_of _ H) as (a & Hg & HR). destruct (once_good_spec _ Hg) as (_ & _ & H1 & _).
    apply (race_free_ok cf z K (proj1 once_sound) all_fields f a st); try assumption. destruct f; cbn; tauto.
  Qed.
  Lemma once_returns (st : state C) : reached cf initializing [cs] st -> ~ ended st 0 -> leads cf failing (returning 0) st.
  Proof.
    intros H Hn. destruct once_sound as (_ & l & Hgood & Hr & Hl). destruct (Hr _ H) as (a & Ha & HR). apply (Hl a); [exact Ha| |exact HR].
    destruct (once_good_spec _ (Hgood _ Ha)) as (Hg & _). apply (not_ended cf z K [0] 0 a st Hg (or_introl eq_refl) HR Hn).
  Qed.
  Lemma once_answers (st : state C) done c rest th b : reached cf initializing [cs] st -> cs = done ++ c :: rest ->
    nth_error (s_th st) 0 = Some th -> th_code th = IReturn b :: client_code cf rest ->
    let s := st_value (sh_status (s_sh st)) in let e := l_err (th_loc th) in
    match c with
    | DPlay => e = None /\ (s = Running \/ s = Ready \/ s = Finished)
    | DBatch => s = Finished /\ (e <> None -> st_error (sh_status (s_sh st)) <> None)
    | DWait _ _ => In DPlay done \/ In DBatch done -> (sh_status (s_sh st) = new_status Ready \/ s = Finished) /\ (e <> None -> st_error (sh_status (s_sh st)) <> None)
    | _ => True
    end.
  Proof.
    intros H Ecs Hth Hcode. destruct (once_good_of _ H) as (a & Hgood & id & am & HR). destruct (once_good_spec _ Hgood) as (Hcl & _ & _ & Han). pose proof (proj1 once_sound) as Hprog. cbn zeta.
    unfold clients_in in Hcl. cbn [forallb] in Hcl. rewrite andb_true_r in Hcl. unfold once_answered in Han. destruct (slot a 0) as [ath|] eqn:Es; [|discriminate Hcl]. apply kind_eqb_eq in Hcl.
    destruct (rel_client cf z K _ _ _ _ _ _ HR Es Hcl) as (th' & Hth' & Ht). rewrite Hth in Hth'. injection Hth' as <-.
    pose proof (thr_at cf z K Hprog _ _ _ _ _ Ht Hcode Logic.I) as Hat. cbn [erase] in Hat. cbn zeta in Han. rewrite Hat in Han.
    apply andb_prop in Han as (Hover & Han).
    destruct Ht as [_ Hloc _ (k0 & tail & Hpc & Htl & Hin)]. unfold at_instr in Hat. destruct (t_mode ath) eqn:Em; try discriminate Hat. rewrite (over_spec _ _ _ Hpc) in Hat. destruct k0 as [|i0 k0]; [discriminate Hat|].
    cbn [map] in Hpc. destruct (node_spec _ Hprog _ _ _ Hpc) as (nd & Hnd & Hi & Hnx & _). unfold node_at in Hover. rewrite Hnd in Hover. rewrite (over_spec _ _ _ Hnx) in Hover.
    destruct k0 as [|? ?]; [|discriminate Hover]. cbn in Hin. destruct Hin as (Ec & _). rewrite Ec in Hcode. injection Hcode as _ Etail.
    rewrite Hcl in Htl. destruct Htl as (cs' & -> & (done' & Edone & Ep)).
    destruct (client_code_suffix cf (done ++ [c]) done' rest cs') as (<- & <-); [rewrite <- app_assoc; cbn; congruence|congruence|]. rewrite once_phase_snoc in Ep.
    pose proof (r_status _ _ _ _ (rel_sh _ _ _ _ _ _ _ HR)) as Hs. rewrite <- Hs in Han. cbn [abs_st fst snd] in Han. cbn zeta.
    destruct Hloc as [_ _ _ _ _ _ Hle _ _]. set (s := sh_status (s_sh st)) in *. clearbody s.
    assert (Honly : match x_err (t_loc ath) with Some f => is_none f || negb (is_none (abs_err (st_error s))) | None => false end = true -> l_err (th_loc th) <> None -> st_error s <> None).
    { destruct (x_err (t_loc ath)) as [f|]; [|intros X; discriminate X]. cbn in Hle. intros X N E. rewrite E in X. destruct (l_err (th_loc th)) as [x|]; [|congruence]. subst f. clear - X. destruct x; discriminate. }
    unfold abs_st in Han. cbn [fst snd] in Han.
    destruct c; try exact Logic.I; cbn [once_step] in Ep.
    - rewrite Ep in Han. apply andb_prop in Han as (He & Hst). split.
      + destruct (x_err (t_loc ath)) as [f|]; [|discriminate He]. cbn in Hle. destruct (l_err (th_loc th)) as [x|]; [|reflexivity]. subst f. clear - He. destruct x; discriminate.
      + apply orb_prop in Hst as [Hst|Hst]; [apply orb_prop in Hst as [Hst|Hst]|]; apply status_eqb_eq in Hst; tauto.
    - intros Hd. assert (X : once_phase done <> 0) by (intros X; apply once_phase_0 in X; tauto). destruct (once_phase done) as [|n]; [congruence|]. rewrite Ep in Han. apply andb_prop in Han as (Hst & Ho). split; [|exact (Honly Ho)].
      apply orb_prop in Hst as [Hst|Hst]; [left|right; apply status_eqb_eq; exact Hst]. apply andb_prop in Hst as (Hst & Hno). apply status_eqb_eq in Hst. rewrite abs_err_none in Hno. destruct s as [v e]. cbn [st_value st_error] in Hst, Hno. destruct e; [discriminate Hno|]. rewrite Hst. reflexivity.
    - rewrite Ep in Han. apply andb_prop in Han as (Hst & Ho). split; [apply status_eqb_eq; exact Hst|exact (Honly Ho)].
  Qed.
End Once.
