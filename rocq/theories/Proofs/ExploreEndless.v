(** All the interleavings of one client with runs that end only when they are stopped. *)
From Coq Require Import List ZArith Bool Lia FMapPositive.
From Verif Require Import Base.Go Base.Num Model.Status Model.Finish Model.CtrlLang Model.CtrlCode Spec.CtrlSpec Spec.ExploreSpec Proofs.GoLemmas
  Proofs.ConfProofs Proofs.Explore Proofs.ExploreRun Proofs.ExploreEq Proofs.ExploreSound Proofs.ExploreUse Proofs.ExploreRead.
Import ListNotations.
Local Open Scope list_scope.

(** The code of the calls, without a notifier. *)
Definition plain_conf : cconf := mkCConf 0 0 0 false None None.
Definition entry (cf : cconf) (c : dcall) : list instr := map erase (call_code cf c ++ [IReturn (returns_error c)]).
Definition all_calls : list dcall := [DInit; DPlay; DPause; DStop; DPush; DBatch; DStatus; DModel; DWait None 0; DWait any_fin 1].
Definition call_index (c : dcall) : nat :=
  match c with
  | DInit => 0 | DPlay => 1 | DPause => 2 | DStop => 3 | DPush => 4 | DBatch => 5 | DStatus => 6 | DModel => 7
  | DWait f d => if plain_wait f d then 8 else 9
  end.
Definition entry_place (places : list positive) (c : dcall) : positive := nth (S (call_index c)) places 1%positive.
Definition plain_program : program * list positive := Eval vm_compute in make_program ([] :: map (entry plain_conf) all_calls).
Definition end_place : positive := hd 1%positive (snd plain_program).

(** Phases: the documented status and answer. *)
Definition phase_status : list clust_status := [Created; Ready; Running; Idle; Finished].
Definition phase_answer : list (option aerr) := [None; Some ANone; Some AAlready; Some ANotRunning; Some ARunning; Some AIdling; Some ANever; Some ANotAlive].
Definition status_index (s : clust_status) : nat := match s with Created => 0 | Ready => 1 | Running => 2 | Idle => 3 | _ => 4 end.
Definition answer_index (e : option aerr) : nat :=
  match e with
  | None => 0 | Some ANone => 1 | Some AAlready => 2 | Some ANotRunning => 3 | Some ARunning => 4 | Some AIdling => 5 | Some ANever => 6 | Some _ => 7
  end.
Definition phase_of (x : clust_status * option (option algo_error)) : nat := status_index (fst x) + 5 * answer_index (option_map abs_err (snd x)).
Definition phase_is (p : nat) : clust_status * option aerr := (nth (p mod 5) phase_status Created, nth (p / 5) phase_answer None).
Definition calm_calls (s : clust_status) (late : bool) : list dcall :=
  [DPause; DStop; DStatus; DModel; DWait None 0] ++ (if late then [] else [DInit; DPlay; DPush] ++ match s with Idle => [] | _ => [DBatch] end).
(** Whether a paused run has been stopped, after the call. *)
Definition lateness (s : clust_status) (late : bool) (c : dcall) : bool := late || match c, s with DStop, Idle => true | _, _ => false end.
Definition late_phase (x : clust_status * option (option algo_error)) (late : bool) : nat := 2 * phase_of x + (if late then 1 else 0).
Definition endless_setting : setting :=
  mkSetting (fst plain_program) [false] [(true, false); (false, false)] [Some (true, false); Some (false, false)] [false; true] true false
    (fun p => let s := fst (phase_is (p / 2)) in
              map (fun c => (entry_place (snd plain_program) c, late_phase (answer s c) (lateness s (Nat.odd p) c))) (calm_calls s (Nat.odd p))).

(** A client about to return has the documented status and answer. *)
Definition answered (z : setting) (a : astate) : bool :=
  match slot a 0 with
  | Some th =>
      match at_instr z (Some th) with
      | Some (IReturn _) =>
          let x := phase_is (t_phase th / 2) in
          over z (n_next (node_at z (t_pc th))) && status_eqb (fst (a_status a)) (fst x) && is_none (snd (a_status a))
          && match fst x with Running | Idle => existsb (live_runner z) (a_th a) | _ => true end
          && match snd x with None => true | Some e => match x_err (t_loc th) with Some f => aerr_eqb e f | None => false end end
      | _ => true
      end
  | None => false
  end.
Definition safe_fields : list field := [FStatusField; FCentroids; FNewData; FAck; FTimeout].
Definition endless_good (a : astate) : bool :=
  clients_in [0] a && at_most_one (a_th a) && race_free endless_setting safe_fields a && answered endless_setting a.

Lemma endless_checked :
  verify endless_setting end_place 100000 [late_phase (after []) false] [0] endless_good (at_return endless_setting) (at_end endless_setting) = true.
Proof. vm_cast_no_check (eq_refl true). Qed.

(** The code of a call depends on the notifier only. *)
Lemma call_code_conf cf cf' c : cf_notifier cf = cf_notifier cf' -> call_code cf c = call_code cf' c.
Proof. intros H. destruct c; cbn [call_code]; unfold init_call, batch_call, push_call, play_call, play_init, init_code; rewrite ?H; reflexivity. Qed.
Lemma entry_plain cf c c' : cf_notifier cf = None -> (c = c' \/ exists d, c = DWait None d /\ c' = DWait None 0 /\ (d <= 0)%Z) -> entry cf c = entry plain_conf c'.
Proof.
  intros H E. unfold entry. rewrite (call_code_conf cf plain_conf c) by exact H. destruct E as [->|(d & -> & -> & Hd)]; [reflexivity|].
  unfold call_code, wait_call, wait_code, wait_poll, returns_error. cbn [map app erase erase_g erase_c plain_wait status_code model_code]. 
  replace (d <=? 0)%Z with true by (symmetry; apply Z.leb_le; exact Hd). reflexivity.
Qed.
Lemma plain_entries : forall c, In c all_calls -> code_at (fst plain_program) (entry_place (snd plain_program) c) = Some (entry plain_conf c).
Proof.
  assert (X : forallb (fun c => match code_at (fst plain_program) (entry_place (snd plain_program) c) with Some x => code_eqb x (entry plain_conf c) | None => false end) all_calls = true) by (vm_compute; reflexivity).
  rewrite forallb_forall in X. intros c Hc. specialize (X _ Hc). destruct (code_at _ _) as [x|]; [|discriminate]. apply code_eqb_eq in X. congruence.
Qed.

Lemma after_snoc cs c : after (cs ++ [c]) = answer (fst (after cs)) c.
Proof. unfold after. rewrite fold_left_app. reflexivity. Qed.
Lemma abs_err_known e e' : abs_err e = abs_err e' -> abs_err e' <> AOther -> e = e'.
Proof. destruct e as [[]|], e' as [[]|]; cbn; intros H N; congruence. Qed.

(** Whether a paused run has been stopped. *)
Fixpoint late_after (x : clust_status) (late : bool) (cs : list dcall) : bool :=
  match cs with [] => late | c :: cs' => late_after (fst (answer x c)) (lateness x late c) cs' end.
Definition late_of (cs : list dcall) : bool := late_after Created false cs.
Lemma late_after_app x late cs c : late_after x late (cs ++ [c]) = lateness (fst (fold_left (fun x c => answer (fst x) c) cs (x, None))) (late_after x late cs) c.
Proof.
  revert x late. induction cs as [|d cs IH]; intros x late; [reflexivity|]. cbn [app late_after fold_left fst]. rewrite IH. f_equal.
  generalize (answer x d). intros [y e]. cbn [fst]. destruct cs; reflexivity.
Qed.
Lemma late_snoc cs c : late_of (cs ++ [c]) = lateness (fst (after cs)) (late_of cs) c.
Proof. apply late_after_app. Qed.
Lemma late_of_spec cs : late_of cs = true <-> stopped_idle cs.
Proof.
  induction cs as [|c cs IH] using rev_ind.
  - split; [discriminate|]. intros (b & r & E & _). destruct b; discriminate.
  - rewrite late_snoc. unfold lateness. rewrite orb_true_iff, IH. split.
    + intros [(b & r & -> & E)|H].
      * exists b, (r ++ [c]). split; [rewrite <- app_assoc; reflexivity|exact E].
      * exists cs, []. destruct c; try discriminate. split; [reflexivity|]. destruct (fst (after cs)); try discriminate; reflexivity.
    + intros (b & r & E & Hi). destruct r as [|y r] using rev_ind.
      * apply app_inj_tail in E as (-> & ->). right. rewrite Hi. reflexivity.
      * clear IHr. rewrite app_comm_cons, app_assoc in E. apply app_inj_tail in E as (-> & ->). left. exists b, r. split; [reflexivity|exact Hi].
Qed.

(** The calls that remain, and the phase. *)
Definition five (s : clust_status) : Prop := s = Created \/ s = Ready \/ s = Running \/ s = Idle \/ s = Finished.
Definition remaining (cs : list dcall) (p : nat) (rest : list dcall) : Prop :=
  exists done, cs = done ++ rest /\ five (fst (after done)) /\ Nat.odd p = late_of done /\ phase_is (p / 2) = (fst (after done), option_map abs_err (snd (after done))) /\
    match snd (after done) with Some e => abs_err e <> AOther | None => True end.
Lemma endless_good_spec a : endless_good a = true ->
  clients_in [0] a = true /\ at_most_one (a_th a) = true /\ race_free endless_setting safe_fields a = true /\ answered endless_setting a = true.
Proof. unfold endless_good. intros H. apply andb_prop in H as (H & H1). apply andb_prop in H as (H & H2). apply andb_prop in H as (H & H3). repeat split; assumption. Qed.

(** The returns in the code of a client are those of its calls. *)
Definition is_return (i : instr) : bool := match i with IReturn _ => true | _ => false end.
Definition count_returns (p : list instr) : nat := length (filter is_return p).
Lemma count_app p q : count_returns (p ++ q) = count_returns p + count_returns q.
Proof. unfold count_returns. rewrite filter_app, app_length. reflexivity. Qed.
Lemma count_call cf c : count_returns (call_code cf c) = 0.
Proof. destruct c; reflexivity. Qed.
Lemma count_client cf cs : count_returns (client_code cf cs) = length cs.
Proof. induction cs as [|c cs IH]; [reflexivity|]. unfold client_code in *. cbn [flat_map length]. rewrite count_app, count_app, count_call, IH. reflexivity. Qed.
Lemma client_code_suffix cf (d d' r r' : list dcall) : d ++ r = d' ++ r' -> client_code cf r = client_code cf r' -> d = d' /\ r = r'.
Proof.
  intros E Ec. assert (L : length r = length r') by (rewrite <- (count_client cf r), <- (count_client cf r'), Ec; reflexivity).
  assert (L' : length d = length d') by (apply (f_equal (@length _)) in E; rewrite !app_length in E; lia).
  revert d' E L'. induction d as [|x d IH]; intros [|y d'] E L'; try discriminate; cbn in E; [split; [reflexivity|exact E]|].
  injection E as -> E. injection L' as L'. destruct (IH _ E L') as (-> & ->). split; reflexivity.
Qed.

Section Endless.
  Context {C : Type}.
  Variable cf : cconf.
  Hypothesis Hcf : endless cf.
  Variable cs : list dcall.
  Hypothesis Hcs : calm_session cs.
  Notation z := endless_setting.
  Notation K := (remaining cs).

  Lemma endless_fin m : In (is_finished (run_finishing cf) m) (z_fin z).
  Proof. destruct Hcf as (E1 & E2 & E3 & _). unfold run_finishing. rewrite E3, E1, E2. left. reflexivity. Qed.
  Lemma endless_never : z_never z = match cf_fin cf with None => true | Some _ => false end && (cf_iter cf =? 0)%Z && (cf_ipd cf =? 0)%Z.
  Proof. destruct Hcf as (E1 & E2 & E3 & _). rewrite E3, E1, E2. reflexivity. Qed.
  Lemma endless_dpi : (0 <? cf_dpi cf)%Z = true -> z_dpi z = true.
  Proof. destruct Hcf as (_ & _ & _ & _ & E & _). intros H. apply Z.ltb_lt in H. lia. Qed.
  Lemma endless_expected (o : oracle C) : obliging o -> expected z o.
  Proof.
    intros (E & c & f & Ei). unfold expected. rewrite E, Ei. cbn. split; [destruct (fst (o_init o)); cbn; tauto|]. split; [destruct c; cbn; tauto|destruct (o_push o); cbn; tauto].
  Qed.
  Lemma calm_in before c : calm before c -> five (fst (after before)) ->
    exists c', In c' (calm_calls (fst (after before)) (late_of before)) /\ In c' all_calls /\ entry cf c = entry plain_conf c' /\ forall s, answer s c = answer s c' /\ forall l, lateness s l c = lateness s l c'.
  Proof.
    destruct Hcf as (_ & _ & _ & _ & _ & Hn). intros Hc Hs. unfold calm_calls. pose proof (late_of_spec before) as HL.
    assert (E : forall l, In c l -> In c all_calls -> exists c', In c' l /\ In c' all_calls /\ entry cf c = entry plain_conf c' /\ forall s, answer s c = answer s c' /\ forall l, lateness s l c = lateness s l c').
    { intros l H1 H2. exists c. split; [exact H1|]. split; [exact H2|]. split; [apply entry_plain; [exact Hn|left; reflexivity]|]. intros s. split; reflexivity. }
    destruct c; cbn [calm] in Hc; try (apply E; [|cbn; tauto]; apply in_or_app; first [left; cbn; tauto | right; destruct (late_of before); [exfalso; tauto|]; cbn; try tauto]).
    - destruct Hc as (-> & Hd). exists (DWait None 0). split; [apply in_or_app; left; cbn; tauto|]. split; [cbn; tauto|]. split; [|intros s; split; reflexivity].
      apply entry_plain; [exact Hn|]. right. exists d. tauto.
    - destruct (fst (after before)); cbn; tauto.
  Qed.
  Lemma answer_phase s c l : five s -> five (fst (answer s c)) /\ Nat.odd (late_phase (answer s c) l) = l /\ 
    phase_is (late_phase (answer s c) l / 2) = (fst (answer s c), option_map abs_err (snd (answer s c))) /\ match snd (answer s c) with Some e => abs_err e <> AOther | None => True end.
  Proof. unfold five. intros [-> | [-> | [-> | [-> | ->]]]]; destruct c, l; cbn; repeat split; try tauto; try discriminate. Qed.
  Lemma endless_calls p c rest : K p (c :: rest) ->
    exists pc q, In (pc, q) (z_calls z p) /\ ExploreEq.code_at (z_prog z) pc = Some (map erase (call_code cf c ++ [IReturn (returns_error c)])) /\ K q rest.
  Proof.
    intros (done & Ec & Hs & Hodd & Eis & _).
    destruct (calm_in _ _ (Hcs _ _ _ Ec) Hs) as (c' & Hin & Hall & Hent & Ha). destruct (Ha (fst (after done))) as (Ha1 & Ha2).
    destruct (answer_phase (fst (after done)) c' (lateness (fst (after done)) (late_of done) c') Hs) as (A1 & A2 & A3 & A4).
    exists (entry_place (snd plain_program) c'), (late_phase (answer (fst (after done)) c') (lateness (fst (after done)) (late_of done) c')). split; [|split].
    - cbn [z_calls endless_setting]. rewrite Eis, Hodd. cbn [fst].
      apply (in_map (fun c => (entry_place (snd plain_program) c, late_phase (answer (fst (after done)) c) (lateness (fst (after done)) (late_of done) c)))). exact Hin.
    - change (code_at (fst plain_program) (entry_place (snd plain_program) c') = Some (entry cf c)). rewrite Hent. apply plain_entries. exact Hall.
    - exists (done ++ [c]). rewrite after_snoc, late_snoc, Ha1, Ha2. rewrite <- app_assoc. repeat (split; [assumption|]). assumption.
  Qed.
  Lemma endless_begin : K (late_phase (after []) false) cs.
  Proof. exists []. split; [reflexivity|]. split; [left; reflexivity|]. split; [reflexivity|]. split; [reflexivity|exact Logic.I]. Qed.

  Definition o_nice : oracle C := mkOracle (None, None) (IterRes None None None) None 0%Z.
  Lemma o_nice_ok : obliging o_nice.
  Proof. split; [reflexivity|]. exists None, None. reflexivity. Qed.

  Lemma endless_sound : program_ok (z_prog z) = true /\ exists l, (forall a, In a l -> endless_good a = true) /\
    (forall st : state C, reached cf obliging [cs] st -> exists a, In a l /\ Rel (C := C) cf z K a st) /\
    (forall a (st : state C), In a l -> at_end z 0 a = false -> Rel cf z K a st -> leads cf obliging (returning 0) st).
  Proof.
    destruct (verify_sound (C := C) cf z obliging (proj1 (proj2 (proj2 (proj2 Hcf)))) endless_fin endless_never endless_dpi K endless_calls endless_expected _ _ _ _ _ _ _ endless_checked)
      as (Hg & l & Hgood & Hr & Hl).
    split; [exact Hg|]. exists l. split; [exact Hgood|]. split.
    - intros st H. apply (Hr [cs]); [|exact H]. constructor; [exact endless_begin|constructor].
    - intros a st Ha He HR. apply (Hl 0 a st (returning 0)); [left; reflexivity| |exact Ha|exact He|exact HR]. intros a' st' H H'. exact (at_return_ok cf z K Hg 0 a' st' H H').
  Qed.

  Lemma endless_no_crash (st : state C) : reached cf obliging [cs] st -> sh_crashed (s_sh st) = false.
  Proof. intros H. destruct endless_sound as (_ & l & _ & Hr & _). destruct (Hr _ H) as (a & _ & id & am & HR). exact (r_crash _ _ _ _ (rel_sh _ _ _ _ _ _ _ HR)). Qed.
  Lemma endless_good_of (st : state C) : reached cf obliging [cs] st -> exists a, endless_good a = true /\ Rel (C := C) cf z K a st.
  Proof. intros H. destruct endless_sound as (_ & l & Hgood & Hr & _). destruct (Hr _ H) as (a & Ha & HR). exists a. split; [exact (Hgood _ Ha)|exact HR]. Qed.
  Lemma endless_one_run (st : state C) : reached cf obliging [cs] st -> forall t u, kind_of st t = Some KRunner -> kind_of st u = Some KRunner -> ~ ended st t -> ~ ended st u -> t = u.
  Proof.
    intros H. destruct (endless_good_of _ H) as (a & Hg & HR). destruct (endless_good_spec _ Hg) as (_ & H1 & _). apply (one_runner_ok cf z K a st); assumption.
  Qed.
  Lemma endless_race_free (st : state C) f : reached cf obliging [cs] st -> f <> FFigures -> ~ data_race st f.
  Proof.
    intros H Hf. destruct (endless_good_of _ H) as (a & Hg & HR). destruct (endless_good_spec _ Hg) as (_ & _ & H1 & _).
    apply (race_free_ok cf z K (proj1 endless_sound) safe_fields f a st); try assumption. destruct f; cbn; try tauto.
  Qed.
  Lemma endless_returns (st : state C) : reached cf obliging [cs] st -> ~ ended st 0 -> leads cf obliging (returning 0) st.
  Proof.
    intros H Hn. destruct endless_sound as (_ & l & Hgood & Hr & Hl). destruct (Hr _ H) as (a & Ha & HR). apply (Hl a); [exact Ha| |exact HR].
    destruct (endless_good_spec _ (Hgood _ Ha)) as (Hg & _). apply (not_ended cf z K [0] 0 a st Hg (or_introl eq_refl) HR Hn).
  Qed.
  Lemma endless_answered (st : state C) done c rest th b : reached cf obliging [cs] st -> cs = done ++ c :: rest ->
    nth_error (s_th st) 0 = Some th -> th_code th = IReturn b :: client_code cf rest ->
    sh_status (s_sh st) = new_status (fst (after (done ++ [c]))) /\ match snd (after (done ++ [c])) with Some e => l_err (th_loc th) = e | None => True end /\
    (fst (after (done ++ [c])) = Running \/ fst (after (done ++ [c])) = Idle -> exists t, kind_of st t = Some KRunner /\ ~ ended st t).
  Proof.
    intros H Ecs Hth Hcode. destruct (endless_good_of _ H) as (a & Hgood & id & am & HR). destruct (endless_good_spec _ Hgood) as (Hcl & _ & _ & Han). pose proof (proj1 endless_sound) as Hprog.
    unfold clients_in in Hcl. cbn [forallb] in Hcl. rewrite andb_true_r in Hcl. unfold answered in Han. destruct (slot a 0) as [ath|] eqn:Es; [|discriminate Hcl]. apply kind_eqb_eq in Hcl.
    destruct (rel_client cf z K _ _ _ _ _ _ HR Es Hcl) as (th' & Hth' & Ht). rewrite Hth in Hth'. injection Hth' as <-.
    pose proof (thr_at cf z K Hprog _ _ _ _ _ Ht Hcode Logic.I) as Hat. cbn [erase] in Hat. rewrite Hat in Han. cbn zeta in Han.
    apply andb_prop in Han as (Han & Herr). apply andb_prop in Han as (Han & Hrun). apply andb_prop in Han as (Han & Hno). apply andb_prop in Han as (Hover & Hst).
    destruct Ht as [_ Hloc _ (k0 & tail & Hpc & Htl & Hin)]. unfold at_instr in Hat. destruct (t_mode ath) eqn:Em; try discriminate Hat. rewrite (over_spec _ _ _ Hpc) in Hat. destruct k0 as [|i0 k0]; [discriminate Hat|].
    cbn [map] in Hpc. destruct (node_spec _ Hprog _ _ _ Hpc) as (nd & Hnd & Hi & Hnx & _). unfold node_at in Hover. rewrite Hnd in Hover. rewrite (over_spec _ _ _ Hnx) in Hover.
    destruct k0 as [|? ?]; [|discriminate Hover]. cbn in Hin. destruct Hin as (Ec & _). rewrite Ec in Hcode. injection Hcode as _ Etail.
    rewrite Hcl in Htl. destruct Htl as (cs' & -> & (done' & Edone & _ & _ & Eis & Hk)).
    destruct (client_code_suffix cf (done ++ [c]) done' rest cs') as (<- & <-); [rewrite <- app_assoc; cbn; congruence|congruence|].
    rewrite Eis in Hst, Herr, Hrun. cbn [fst snd] in Hst, Herr, Hrun. split; [|split].
    - apply status_eqb_eq in Hst. pose proof (r_status _ _ _ _ (rel_sh _ _ _ _ _ _ _ HR)) as Hs. rewrite <- Hs in Hst, Hno. unfold abs_st in Hst, Hno. cbn in Hst, Hno.
      destruct (sh_status (s_sh st)) as [v e]. cbn in Hst, Hno. rewrite abs_err_none in Hno. destruct e; [discriminate Hno|]. unfold new_status. congruence.
    - destruct (snd (after (done ++ [c]))) as [e|]; [|exact Logic.I]. cbn [option_map] in Herr. destruct (x_err (t_loc ath)) as [f|] eqn:Ex; [|discriminate Herr].
      apply aerr_eqb_eq in Herr. destruct Hloc as [_ _ _ _ _ _ Hle _ _]. rewrite Ex in Hle. cbn in Hle. apply abs_err_known; congruence.
    - intros Hr. apply (live_runner_ok cf z K a st); [|exists id, am; exact HR]. destruct Hr as [Hr|Hr]; rewrite Hr in Hrun; exact Hrun.
  Qed.
End Endless.
