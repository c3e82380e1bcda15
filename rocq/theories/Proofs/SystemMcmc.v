(** MCMC under the controller. *)
From Coq Require Import List ZArith Lia Bool Reals.
From Verif Require Import Base.Go Base.Num Model.Clustering Model.Buffer Model.KmeansInit Model.Mcmc Model.Status Model.Finish
  Model.CtrlLang Model.CtrlCode Model.CtrlSeq Model.System Model.SystemMcmc
  Spec.SpaceSpec Spec.CtrlSpec Spec.CtrlSeqSpec Spec.McmcSpec Spec.SystemSpec
  Proofs.GoLemmas Proofs.NumLaws Proofs.McmcProofs Proofs.McmcMain Proofs.CtrlSeqProofs Proofs.CtrlSeqMain Proofs.SystemProofs Proofs.SystemBatch Proofs.SystemKmeans.
Import ListNotations.
Local Open Scope Z_scope.

Lemma all_some_inv {E} (l : list (option E)) : forall c, all_some l = Some c -> l = map Some c.
Proof.
  induction l as [|[x|] l IH]; cbn; intros c H; [injection H as <-; reflexivity| |discriminate].
  destruct (all_some l) as [c'|]; [|discriminate]. injection H as <-. cbn. f_equal. apply IH. reflexivity.
Qed.

Section Use.
Context {E F G I : Type} (N : Num F) (Sp : Space E F).
Context (pow : F -> F -> F) (log exp : F -> F) (cpus : Z) (D : distrib E F G) (conf : mparams F).
Context (initializer : I -> Z -> list E -> outcome (list (option E) * option init_error)) (to64 : F -> b64).
Context {R : Type} (draw : R -> I * draws F G) (cf : cconf) (P : E -> Prop).
Context (Hex : init_exact initializer) (Hk : mp_init_k conf <= mp_max_k conf).
Notation im := (with_draws draw (mcmc_implem N Sp pow log exp cpus D conf initializer to64)).
Notation mstep := (mstep N Sp pow log exp cpus D conf initializer).
Notation msteps := (msteps N Sp pow log exp cpus D conf initializer).

Lemma msteps_app s es os s1 es' os' s2 : msteps s es os s1 -> msteps s1 es' os' s2 -> msteps s (es ++ es') (os ++ os') s2.
Proof. induction 1 as [|s e o s0 es os s' H1 H2 IH]; cbn [app]; [auto|]. intros H. econstructor; [exact H1|]. apply IH. exact H. Qed.
Lemma msteps_snoc s es os s1 e o s2 : msteps s es os s1 -> mstep s1 e o s2 -> msteps s (es ++ [e]) (os ++ [o]) s2.
Proof. intros H1 H2. apply (msteps_app _ _ _ s1); [exact H1|]. econstructor; [exact H2|constructor]. Qed.
Lemma done_app (os os' : list (@mout F)) : iterations_done (os ++ os') = iterations_done os + iterations_done os'.
Proof. unfold iterations_done. rewrite filter_app, app_length. lia. Qed.
Lemma pushes_app (es es' : list (@mevent E F G I)) : pushes_in (es ++ es') = pushes_in es + pushes_in es'.
Proof. unfold pushes_in. rewrite filter_app, app_length. lia. Qed.

Variable m0 : mimpl E F.
Definition MD (log : list (event (list E))) (c : option (list E)) (m : mimpl E F) : Prop :=
  exists es os s, msteps (mkMsys m0 [] false) es os s /\ ms_impl s = m /\
    Forall (fun e => match e with EvPush x _ => P x | _ => True end) es /\
    pushes_in es = total_pushed log /\ iterations_done os = total_saved log /\
    (forall c', c = Some c' -> ms_centroids s = map Some c').
Definition MA (log : list (event (list E))) (c : option (list E)) (m : mimpl E F) : Prop :=
  exists es os s, msteps (mkMsys m0 [] false) es os s /\ ms_impl s = m /\
    Forall (fun e => match e with EvPush x _ => P x | _ => True end) es /\
    pushes_in es = total_pushed log /\ iterations_done os = total_saved log /\
    ms_ready s = true /\ exists c', c = Some c' /\ ms_centroids s = map Some c'.

Lemma mcmc_preserved : preserved im P MA MD.
Proof.
  split.
  - intros e lg c i He. split.
    + intros (es & os & s & H). exists es, os, s. destruct e; try contradiction; exact H.
    + intros (es & os & s & H). exists es, os, s. destruct e; try contradiction; exact H.
  - intros lg c i (es & os & s & H1 & H2 & H3 & H4 & H5 & _ & c0 & H7 & H8). exists es, os, s.
    split; [exact H1|]. split; [exact H2|]. split; [exact H3|]. split; [exact H4|]. split; [exact H5|]. intros c' X. congruence.
  - intros t lg c m m' r (es & os & s & H1 & H2 & H3 & H4 & H5 & H6 & c0 & -> & H8) Hit. cbn [im_iterate with_draws mcmc_implem] in Hit.
    destruct (mcmc_iterate N Sp pow log exp cpus D conf m c0 (snd (draw t))) as [[[m1 c1] f]|] eqn:Q; injection Hit as <- <-.
    + exists (es ++ [EvIterate (snd (draw t))]), (os ++ [OutFigures (d_u (snd (draw t))) f]), (mkMsys m1 (map Some c1) true).
      split; [apply (msteps_snoc _ _ _ s); [exact H1|]; apply ms_iterate with (c := c0); [exact H6|exact H8|rewrite H2; exact Q]|].
      split; [reflexivity|]. split; [apply Forall_app; split; [exact H3|repeat constructor]|].
      rewrite pushes_app, done_app. split; [rewrite H4; unfold pushes_in, total_pushed; cbn [filter length]; lia|].
      split; [rewrite H5; unfold iterations_done, total_saved; cbn [filter length]; lia|]. split; [reflexivity|]. exists c1. auto.
    + exists (es ++ [EvIterate (snd (draw t))]), (os ++ [OutPanic]), (mkMsys (ms_impl s) (ms_centroids s) false).
      split; [apply (msteps_snoc _ _ _ s); [exact H1|]; apply ms_iterate_panic with (c := c0); [exact H6|exact H8|rewrite H2; exact Q]|].
      split; [exact H2|]. split; [apply Forall_app; split; [exact H3|repeat constructor]|].
      rewrite pushes_app, done_app. split; [rewrite H4; unfold pushes_in; cbn [filter length]; lia|].
      split; [rewrite H5; unfold iterations_done; cbn [filter length]; lia|]. intros c' [= <-]. exact H8.
  - intros t lg c m m' c' e (es & os & s & H1 & H2 & H3 & H4 & H5 & H6) Hi. cbn [im_init with_draws mcmc_implem] in Hi.
    destruct (mcmc_init N Sp pow D conf initializer m (fst (draw t))) as [[[m1 cs] err]|] eqn:Q; [|discriminate]. injection Hi as <- <- <-.
    assert (Hst : mstep s (EvInit (fst (draw t))) (OutInit err) (mkMsys m1 cs (match err with None => true | Some _ => false end)))
      by (apply ms_init; rewrite H2; exact Q).
    assert (X : forall lg', msteps (mkMsys m0 [] false) (es ++ [EvInit (fst (draw t))]) (os ++ [OutInit err]) lg' ->
      Forall (fun e => match e with EvPush x _ => P x | _ => True end) (es ++ [EvInit (fst (draw t))]) /\
      pushes_in (es ++ [EvInit (fst (draw t))]) = total_pushed lg /\ iterations_done (os ++ [OutInit err]) = total_saved lg).
    { intros _ _. split; [apply Forall_app; split; [exact H3|repeat constructor]|]. rewrite pushes_app, done_app.
      split; [rewrite H4; unfold pushes_in; cbn [filter length]; lia|rewrite H5; unfold iterations_done; cbn [filter length]; lia]. }
    pose proof (msteps_snoc _ _ _ _ _ _ _ H1 Hst) as Hm. destruct (X _ Hm) as (X1 & X2 & X3). clear X.
    destruct err as [er|]; cbn [option_map].
    + exists (es ++ [EvInit (fst (draw t))]), (os ++ [OutInit (Some er)]), (mkMsys m1 cs false).
      split; [exact Hm|]. split; [reflexivity|]. split; [exact X1|]. split; [exact X2|]. split; [exact X3|]. intros c' X. apply all_some_inv. exact X.
    + exists (es ++ [EvInit (fst (draw t))]), (os ++ [OutInit None]), (mkMsys m1 cs true).
      split; [exact Hm|]. split; [reflexivity|]. split; [exact X1|]. split; [exact X2|]. split; [exact X3|]. split; [reflexivity|].
      cbn [ms_centroids]. unfold mcmc_init in Q. apply obind_ok in Q. destruct Q as (b & _ & Q). apply obind_ok in Q. destruct Q as ([cs' [e'|]] & Qi & Q); [discriminate|].
      destruct (Hex _ _ _ _ Qi) as (cc & -> & _). exists cc. apply obind_ok in Q. destruct Q as (c2 & _ & Q). apply obind_ok in Q. destruct Q as (l & _ & Q).
      apply obind_ok in Q. destruct Q as (p & _ & Q). injection Q as _ <-. split; [apply all_some_map|reflexivity].
  - intros x lg c m m' err Px. cbn [im_push with_draws mcmc_implem]. split.
    + intros (es & os & s & H1 & H2 & H3 & H4 & H5 & H6) Hp. destruct (buffer_push (mi_buffer m) x true) as [[b|]|] eqn:Q; try discriminate. injection Hp as <- <-.
      exists (es ++ [EvPush x true]), (os ++ [OutPush]), (mkMsys (set_buffer m b) (ms_centroids s) (ms_ready s)).
      split; [apply (msteps_snoc _ _ _ s); [exact H1|]; rewrite <- H2; apply ms_push; rewrite H2; exact Q|].
      split; [reflexivity|]. split; [apply Forall_app; split; [exact H3|constructor; [exact Px|constructor]]|]. rewrite pushes_app, done_app.
      split; [rewrite H4; unfold pushes_in, total_pushed; cbn [filter length]; lia|]. split; [rewrite H5; unfold iterations_done, total_saved; cbn [filter length]; lia|]. exact H6.
    + intros (es & os & s & H1 & H2 & H3 & H4 & H5 & H6) Hp. destruct (buffer_push (mi_buffer m) x false) as [[b|]|] eqn:Q; try discriminate. injection Hp as <- <-.
      exists (es ++ [EvPush x false]), (os ++ [OutPush]), (mkMsys (set_buffer m b) (ms_centroids s) (ms_ready s)).
      split; [apply (msteps_snoc _ _ _ s); [exact H1|]; rewrite <- H2; apply ms_push; rewrite H2; exact Q|].
      split; [reflexivity|]. split; [apply Forall_app; split; [exact H3|constructor; [exact Px|constructor]]|]. rewrite pushes_app, done_app.
      split; [rewrite H4; unfold pushes_in, total_pushed; cbn [filter length]; lia|]. split; [rewrite H5; unfold iterations_done, total_saved; cbn [filter length]; lia|]. exact H6.
Qed.

(** The history of the implementation behind any use of the controller. *)
Lemma mcmc_history xs q m : pushes_only P xs -> sys_acts cf im xs (seq0, m0) = Some (q, m) ->
  exists es os s, msteps (mkMsys m0 [] false) es os s /\ ms_impl s = m /\
    Forall (fun e => match e with EvPush x _ => P x | _ => True end) es /\
    pushes_in es = total_pushed (q_log q) /\ iterations_done os = total_saved (q_log q) /\
    (forall c, m_centroids (q_model q) = Some c -> ms_centroids s = map Some c) /\
    (st_alive (q_status q) = true -> ms_ready s = true /\ exists c, m_centroids (q_model q) = Some c).
Proof.
  intros Hx Hs.
  assert (H0 : MD [] None m0).
  { exists [], [], (mkMsys m0 [] false). split; [constructor|]. split; [reflexivity|]. split; [constructor|]. split; [reflexivity|]. split; [reflexivity|discriminate]. }
  assert (Hok : Forall (action_ok P) xs).
  { apply Forall_forall. intros [c now|p] Hin; [|exact Logic.I]. destruct c; try exact Logic.I. exact (Hx _ _ _ Hin). }
  pose proof (sys_invariant cf im P MA MD mcmc_preserved xs m0 (q, m) H0 Hok Hs) as H. unfold holds_in in H. cbn [fst snd] in H.
  destruct (st_alive (q_status q)) eqn:A.
  - destruct H as (es & os & s & H1 & H2 & H3 & H4 & H5 & H6 & c & H7 & H8). exists es, os, s.
    repeat (split; [assumption|]). split; [intros c' X; congruence|]. intros _. split; [exact H6|]. exists c. exact H7.
  - destruct H as (es & os & s & H1 & H2 & H3 & H4 & H5 & H6). exists es, os, s.
    repeat (split; [assumption|]). discriminate.
Qed.

Lemma mcmc_use elemts size xs q m : new_mcmc N elemts size = Ok m0 -> pushes_only P xs -> sys_acts cf im xs (seq0, m0) = Some (q, m) ->
  exists es os s, msteps (mkMsys m0 [] false) es os s /\ ms_impl s = m /\
    Forall (fun e => match e with EvPush x _ => P x | _ => True end) es /\
    pushes_in es = total_pushed (q_log q) /\ iterations_done os = total_saved (q_log q) /\
    mi_acc m = accepted N os /\ 0 <= mi_acc m <= total_saved (q_log q) /\
    (forall c, m_centroids (q_model q) = Some c -> ms_centroids s = map Some c) /\
    (st_alive (q_status q) = true -> ms_ready s = true /\ exists c, m_centroids (q_model q) = Some c /\
       c = pr_centers (mi_current m) /\ pr_k (mi_current m) = Z.of_nat (length c) /\
       1 <= Z.of_nat (length c) <= Z.min (mp_max_k conf) (Z.of_nat (length (bdata (mi_buffer m))))).
Proof.
  intros Hn Hx Hs. destruct (mcmc_history xs q m Hx Hs) as (es & os & s & H1 & H2 & H3 & H4 & H5 & H6 & H7).
  assert (Hns : new_msys N elemts size = Ok (mkMsys m0 [] false)) by (unfold new_msys; rewrite Hn; reflexivity).
  destruct (bookkeeping_main _ _ _ _ N Sp pow log exp cpus D conf initializer Hex Hk elemts size _ es os s Hns H1) as (B1 & _ & B3 & B4 & _).
  destruct (bounds_main _ _ _ _ N Sp pow log exp cpus D conf initializer Hex Hk elemts size _ es os s Hns H1) as (B5 & _).
  exists es, os, s. repeat (split; [assumption|]). rewrite H2 in *. split; [exact B3|].
  split; [rewrite B3; pose proof (accepted_le N os); lia|]. split; [exact H6|]. intros A. destruct (H7 A) as (R1 & c & Hc). split; [exact R1|].
  exists c. split; [exact Hc|]. destruct (B1 R1) as [C1 C2]. pose proof (H6 c Hc) as Hs2. rewrite C1 in Hs2. apply map_Some_inj in Hs2.
  split; [symmetry; exact Hs2|]. specialize (B5 R1). unfold n_centroids, data_size in *. rewrite C1, map_length, H2, Hs2 in *. auto.
Qed.
End Use.

Section Real.
Context {E G I : Type} (Sp : Space E R) (P : E -> Prop).
Context (pow : R -> R -> R) (log exp : R -> R) (cpus : Z) (D : distrib E R G) (conf : mparams R).
Context (initializer : I -> Z -> list E -> outcome (list (option E) * option init_error)) (to64 : R -> b64) (cf : cconf).
Context (HM : mean_space Sp P) (Hcpus : 0 < cpus) (Hdist : forall x y, (0 <= sdist Sp x y)%R).
Context (Hsample : forall g mu t, P mu -> exists x, dsample D g mu t = Ok x /\ P x).
Context (Hpdf : forall x mu t, P x -> P mu -> exists p, dpdf D x mu t = Ok p).
Context (Hproba : length (mp_proba_k conf) = 3%nat /\ Forall (fun w => (0 <= w)%R) (mp_proba_k conf)).
Context (Hpar : mp_par conf = true -> 0 < mp_num_cpu conf).
Context (Hex : init_exact initializer) (Hk : mp_init_k conf <= mp_max_k conf).
Context (HinitP : forall i k data c, Forall P data -> initializer i k data = Ok (map Some c, None) -> Forall P c).
Notation mi := (mcmc_implem RNum Sp pow log exp cpus D conf initializer to64).
Notation mstep := (mstep RNum Sp pow log exp cpus D conf initializer).
Notation msteps := (msteps RNum Sp pow log exp cpus D conf initializer).

Lemma history_full elemts size m0 es os s : Forall P elemts -> new_mcmc RNum elemts size = Ok m0 ->
  Forall (fun e => match e with EvPush x _ => P x | _ => True end) es -> msteps (mkMsys m0 [] false) es os s -> full P conf s.
Proof.
  intros HE Hn Hes H. assert (Hns : new_msys RNum elemts size = Ok (mkMsys m0 [] false)) by (unfold new_msys; rewrite Hn; reflexivity).
  exact (full_steps Sp P HM pow log exp cpus D conf initializer Hcpus Hsample Hex Hk HinitP _ es os s (full_new P conf elemts size _ HE Hns) Hes H).
Qed.

Lemma mcmc_iterates {Dr} (draw : Dr -> I * draws R G) elemts size m0 xs q m : Forall P elemts -> new_mcmc RNum elemts size = Ok m0 -> pushes_only P xs ->
  sys_acts cf (with_draws draw mi) xs (seq0, m0) = Some (q, m) -> st_alive (q_status q) = true ->
  (exists c, m_centroids (q_model q) = Some c /\ Forall P c) /\
  forall d, in_unit (snd (draw d)) -> exists m' c' f, im_iterate (with_draws draw mi) d m (m_centroids (q_model q)) = (m', IterRes (Some c') (Some f) None).
Proof.
  intros HE Hn Hx Hs A.
  destruct (mcmc_history RNum Sp pow log exp cpus D conf initializer to64 draw cf P Hex m0 xs q m Hx Hs) as (es & os & s & H1 & H2 & H3 & H4 & H5 & H6 & H7).
  pose proof (history_full elemts size m0 es os s HE Hn H3 H1) as Fs. destruct (H7 A) as (Hr & c & Hc). split.
  - exists c. split; [exact Hc|]. destruct (fu_ready P conf s Fs Hr) as (c' & Hc' & G1 & _). rewrite (H6 c Hc) in Hc'. apply map_Some_inj in Hc'. subst c'.
    rewrite <- G1. apply (fu_elements P conf s Fs).
  - intros d (U1 & U2 & U3 & _). cbn [im_iterate with_draws mcmc_implem]. rewrite Hc.
    destruct (McmcMain.iterate_ok Sp P HM pow log exp cpus D conf Hcpus Hdist Hsample Hpdf Hproba Hpar s c (snd (draw d)) Fs Hr (H6 c Hc) U1 U2 U3) as (m' & c' & f & Hit).
    rewrite H2 in Hit. rewrite Hit. eauto.
Qed.

Lemma mcmc_batch_main elemts size m0 xs q m n : Forall P elemts -> new_mcmc RNum elemts size = Ok m0 -> pushes_only P xs ->
  sys_acts cf (with_draws (@proj1_sig _ (fun d => in_unit (snd d))) mi) xs (seq0, m0) = Some (q, m) ->
  q_locked q = false -> only_budget cf -> cf_timeout cf = false ->
  n = (if status_eqb (st_value (q_status q)) Created then CtrlSpec.pushes (q_log q) else 0) -> n <= 2 ^ 53 -> budget cf n <= 2 ^ 53 ->
  forall d start mid ps now,
  let batch := sys_do cf (with_draws (@proj1_sig _ (fun d => in_unit (snd d))) mi) (YBatch d start mid ps) now (q, m) in
  match mcmc_init RNum Sp pow D conf initializer m (fst (proj1_sig d)) with
  | Panic => batch = None
  | Ok (m1, cs, Some e) => exists q', batch = Some ((q', m1), Some (ErrImpl (error_code e))) /\ q_locked q' = true /\
      q_status q' = new_status_error (ErrImpl (error_code e)) /\ m_centroids (q_model q') = all_some cs
  | Ok (m1, cs, None) =>
      (forall q' m' e, batch = Some ((q', m'), e) ->
         e = None /\ q_status q' = new_status Finished /\ q_locked q' = false /\ iterations_saved (q_log q') = budget cf n /\
         exists drs os c, Z.of_nat (length drs) = budget cf n /\ Forall in_unit drs /\
           msteps (mkMsys m1 cs true) (map EvIterate drs) os (mkMsys m' (map Some c) true) /\ ~ In OutPanic os /\
           m_centroids (q_model q') = Some c /\ Forall P c /\
           1 <= Z.of_nat (length c) <= Z.min (mp_max_k conf) (Z.of_nat (length (bdata (mi_buffer m')))) /\
           mi_acc m' = mi_acc m + accepted RNum os) /\
      (ps <> [] -> budget cf n <= Z.of_nat (turns (mid ++ concat (map snd (removelast ps)))) -> batch <> None)
  end.
Proof.
  intros HE Hn Hx Hs Hu HB HT En Hn' Hb d start mid ps now batch.
  set (dr := @proj1_sig _ (fun d : I * draws R G => in_unit (snd d))) in *.
  destruct (mcmc_history RNum Sp pow log exp cpus D conf initializer to64 dr cf P Hex m0 xs q m Hx Hs) as (es & os & s & H1 & H2 & H3 & _).
  pose proof (sys_reachable cf _ _ _ _ Hs) as Hq. cbn [fst] in Hq.
  assert (Hns : new_msys RNum elemts size = Ok (mkMsys m0 [] false)) by (unfold new_msys; rewrite Hn; reflexivity).
  assert (Hi : im_init (with_draws dr mi) d m = match mcmc_init RNum Sp pow D conf initializer m (fst (dr d)) with
    | Panic => None | Ok (m', cs, err) => Some (m', (all_some cs, option_map error_code err)) end) by reflexivity.
  destruct (mcmc_init RNum Sp pow D conf initializer m (fst (dr d))) as [[[m1 cs] [e|]]|] eqn:Q.
  - apply (batch_failed cf (with_draws dr mi) q m n Hq Hu En). exact Hi.
  - assert (Hc : exists c0, cs = map Some c0 /\ all_some cs = Some c0).
    { unfold mcmc_init in Q. apply obind_ok in Q. destruct Q as (b & _ & Q). apply obind_ok in Q. destruct Q as ([cs' [e'|]] & Qi & Q); [discriminate|].
      destruct (Hex _ _ _ _ Qi) as (cc & -> & _). exists cc. apply obind_ok in Q. destruct Q as (c2 & _ & Q). apply obind_ok in Q. destruct Q as (l & _ & Q).
      apply obind_ok in Q. destruct Q as (p & _ & Q). injection Q as _ <-. split; [reflexivity|apply all_some_map]. }
    destruct Hc as (c0 & Ecs & Hc0). rewrite Hc0 in Hi. cbn [option_map] in Hi.
    assert (H1' : msteps (mkMsys m0 [] false) (es ++ [EvInit (fst (dr d))]) (os ++ [OutInit None]) (mkMsys m1 cs true)).
    { apply (msteps_snoc RNum Sp pow log exp cpus D conf initializer _ _ _ s); [exact H1|].
      apply ms_init with (err := None). rewrite H2. exact Q. }
    assert (H3' : Forall (fun e => match e with EvPush x _ => P x | _ => True end) (es ++ [EvInit (fst (dr d))])) by (apply Forall_app; split; [exact H3|repeat constructor]).
    set (W := fun (j : nat) (c : list E) (m' : mimpl E R) => exists drs os', length drs = j /\ Forall in_unit drs /\
      msteps (mkMsys m1 cs true) (map EvIterate drs) os' (mkMsys m' (map Some c) true) /\ ~ In OutPanic os').
    assert (Hfull : forall j c m', W j c m' -> full P conf (mkMsys m' (map Some c) true)).
    { intros j c m' (drs & os' & _ & _ & Hm & _).
      apply (full_steps Sp P HM pow log exp cpus D conf initializer Hcpus Hsample Hex Hk HinitP (mkMsys m1 cs true) (map EvIterate drs) os'); [|apply Forall_map, Forall_forall; intros ? _; exact Logic.I|exact Hm].
      apply (history_full elemts size m0 _ _ _ HE Hn H3' H1'). }
    destruct (batch_ok cf (with_draws dr mi) q m n HB HT Hq Hu En Hn' Hb W) with (d := d) (start := start) (mid := mid) (ps := ps) (now := now) (i1 := m1) (c0 := c0) as [G1 G2].
    + intros j c m' d' Hw. pose proof (Hfull j c m' Hw) as Fw. destruct Hw as (drs & os' & L & U & Hm & Hno). cbn [im_iterate with_draws mcmc_implem].
      pose proof (proj2_sig d') as U'. cbn beta in U'. change (proj1_sig d') with (dr d') in U'. pose proof U' as (U1 & U2 & U3 & _).
      destruct (McmcMain.iterate_ok Sp P HM pow log exp cpus D conf Hcpus Hdist Hsample Hpdf Hproba Hpar _ c (snd (dr d')) Fw eq_refl eq_refl U1 U2 U3) as (m'' & c' & f & Hit).
      cbn [ms_impl] in Hit. rewrite Hit. do 3 eexists. split; [reflexivity|]. exists (drs ++ [snd (dr d')]), (os' ++ [OutFigures (d_u (snd (dr d'))) f]).
      rewrite app_length. cbn [length]. split; [lia|]. split; [apply Forall_app; auto|]. rewrite map_app. cbn [map].
      split; [|intros X; apply in_app_or in X; destruct X as [X|[X|[]]]; [contradiction|discriminate]].
      apply (msteps_snoc RNum Sp pow log exp cpus D conf initializer _ _ _ (mkMsys m' (map Some c) true)); [exact Hm|].
      apply ms_iterate with (c := c); [reflexivity|reflexivity|exact Hit].
    + exact Hi.
    + exists [], []. split; [reflexivity|]. split; [constructor|]. split; [rewrite <- Ecs; constructor|intros []].
    + split; [|exact G2]. intros q' m' e Hd. destruct (G1 _ _ Hd) as (X1 & X2 & X3 & j & c & X4 & X5 & X6 & Hw). cbn [fst snd] in *.
      pose proof (Hfull _ _ _ Hw) as Fw. destruct Hw as (drs & os' & L & U & Hm & Hno).
      split; [exact X1|]. split; [exact X2|]. split; [exact X3|]. split; [exact X5|]. exists drs, os', c. split; [lia|]. split; [exact U|]. split; [exact Hm|]. split; [exact Hno|].
      split; [exact X6|].
      pose proof (msteps_app RNum Sp pow log exp cpus D conf initializer _ _ _ _ _ _ _ H1' Hm) as Hall.
      destruct (fu_ready P conf _ Fw eq_refl) as (c' & Hc' & G3 & _). cbn [ms_centroids ms_impl] in Hc', G3. apply map_Some_inj in Hc'. subst c'.
      split; [rewrite <- G3; apply (fu_elements P conf _ Fw)|].
      destruct (bookkeeping_main _ _ _ _ RNum Sp pow log exp cpus D conf initializer Hex Hk elemts size _ _ _ _ Hns Hall) as (_ & _ & B3 & _).
      destruct (bookkeeping_main _ _ _ _ RNum Sp pow log exp cpus D conf initializer Hex Hk elemts size _ _ _ _ Hns H1) as (_ & _ & B4 & _).
      destruct (bounds_main _ _ _ _ RNum Sp pow log exp cpus D conf initializer Hex Hk elemts size _ _ _ _ Hns Hall) as (B5 & _).
      split. { specialize (B5 eq_refl). unfold n_centroids, data_size in B5. cbn [ms_centroids ms_impl] in B5. rewrite map_length in B5. exact B5. }
      cbn [ms_impl] in B3. rewrite H2 in B4. rewrite B3, B4, !accepted_app. change (accepted RNum [OutInit None]) with 0. lia.
  - destruct (batch_start cf q now n (None, None) Hq Hu En) as (q1 & e1 & E1 & E2 & _).
    subst batch. unfold sys_do. cbn [fst]. rewrite Hu. unfold sys_batch. cbn [fst snd]. rewrite E1. unfold sys_play, impl_result. cbn [fst snd]. rewrite E2, Hi. reflexivity.
Qed.
End Real.
