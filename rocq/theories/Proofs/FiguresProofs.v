(** The runtime figures that implementations publish (C99). *)
From Coq Require Import String List ZArith Lia Bool.
From Verif Require Import Base.Go Base.Num Model.Clustering Model.Kmeans Model.Buffer Model.KmeansInit Model.Mcmc Model.Streaming Model.Status Model.Finish
  Model.CtrlLang Model.CtrlCode Model.CtrlSeq Model.System Model.SystemMcmc Model.Euclid
  Spec.NearestSpec Spec.CtrlSpec Spec.CtrlSeqSpec Spec.McmcSpec Spec.StreamingSpec Spec.SystemSpec
  Proofs.GoLemmas Proofs.NumLaws Proofs.StreamingProofs Proofs.McmcCases Proofs.CtrlMain Proofs.CtrlSeqProofs Proofs.CtrlSeqMain Proofs.SystemProofs
  Proofs.SystemStreaming Proofs.SystemMcmc Proofs.SystemMcmcMain.
Import ListNotations.
Local Open Scope Z_scope.

Lemma saved_pos {C} (lg : list (event C)) c f : 0 < iterations_saved (EvSaved c f :: lg).
Proof. unfold iterations_saved. cbn [since_reset filter length]. lia. Qed.

Section Any.
Context {E C I D : Type} (cf : cconf) (im : implem E C I D).

Lemma sys_reachable xs i0 q i : sys_acts cf im xs (seq0, i0) = Some (q, i) -> seq_reachable cf q.
Proof.
  assert (Hgen : forall xs (s s' : sys_st C I), seq_reachable cf (fst s) -> sys_acts cf im xs s = Some s' -> seq_reachable cf (fst s')).
  { induction xs0 as [|x xs0 IH]; intros s s' Hr; cbn [sys_acts]; [intros [= <-]; exact Hr|].
    destruct (sys_act cf im x s) as [s1|] eqn:Ha; [|discriminate]. apply IH.
    destruct Hr as [ys Hys]. destruct (act_sim _ _ _ _ _ Ha) as [zs Hzs]. exists (ys ++ zs). rewrite acts_app, Hys. exact Hzs. }
  intros H. apply (Hgen xs (seq0, i0) (q, i)); [exists []; reflexivity|exact H].
Qed.

Lemma own_figures xs i0 q i key : sys_acts cf im xs (seq0, i0) = Some (q, i) -> own_key key ->
  figure (m_figs (q_model q)) key = figure (last_saved (q_log q)) key.
Proof.
  intros H Hk. destruct (reach_rest cf q (sys_reachable _ _ _ _ H)) as [[HC _] _]. destruct (c_log _ _ HC) as (_ & _ & H3).
  apply H3. intros X. apply Hk. unfold reserved in X. cbn. intuition congruence.
Qed.
Lemma count_figures xs i0 q i : sys_acts cf im xs (seq0, i0) = Some (q, i) ->
  figure (m_figs (q_model q)) "iterations" = b64_of_Z (iterations_saved (q_log q)).
Proof.
  intros H. destruct (reach_rest cf q (sys_reachable _ _ _ _ H)) as [[HC _] _]. destruct (c_log _ _ HC) as (H1 & _).
  destruct (c_fig _ _ HC) as [H2 _]. cbn in H1. rewrite <- H1. apply H2.
Qed.
End Any.

(** ** MCMC *)
Section Mcmc.
Context {E F G I : Type} (N : Num F) (Sp : Space E F).
Context (pow : F -> F -> F) (log exp : F -> F) (cpus : Z) (D : distrib E F G) (conf : mparams F).
Context (initializer : I -> Z -> list E -> outcome (list (option E) * option init_error)) (to64 : F -> b64).
Context {R : Type} (draw : R -> I * draws F G) (cf : cconf).
Notation im := (with_draws draw (mcmc_implem N Sp pow log exp cpus D conf initializer to64)).

Lemma iterate_figures (m m' : mimpl E F) c d c' f : mcmc_iterate N Sp pow log exp cpus D conf m c d = Ok (m', c', f) ->
  f_time f = Z.of_nat (length (bdata (mi_buffer m))) /\ f_acceptations f = mi_acc m' /\ f_lambda f = mi_lambda m' /\ f_rho f = mi_rho m' /\ f_rgibbs f = mi_rgibbs m'.
Proof.
  unfold mcmc_iterate. destruct (do_iter _ _ _ _ _ _ _ _ _ _ _ _) as [[m1 c1]|]; cbn [obind]; [|discriminate].
  destruct (buffer_apply _) as [b|]; cbn [obind]; [|discriminate]. intros [= <- _ <-]. cbn. repeat split; reflexivity.
Qed.

(** The figures of [m], [t] being the time. *)
Definition figures_at (m : mimpl E F) (t : Z) : list (string * b64) :=
  [("acceptations"%string, to64 (nof N (mi_acc m))); ("lambda"%string, to64 (mi_lambda m));
   ("rho"%string, to64 (mi_rho m)); ("rGibbs"%string, to64 (mi_rgibbs m)); ("time"%string, to64 (nof N t))].
Definition MJ (lg : list (event (list E))) (c : option (list E)) (m : mimpl E F) : Prop :=
  iterations_saved lg = 0 /\ last_saved lg = [] \/ 0 < iterations_saved lg /\ exists t, last_saved lg = figures_at m t.

Lemma mj_iterate d m m' c r : im_iterate im d m c = (m', r) ->
  match r with
  | IterRes (Some c') (Some f) None => f = figures_at m' (Z.of_nat (length (bdata (mi_buffer m))))
  | IterRes _ _ _ => False
  | IterPanic _ => m' = m
  end.
Proof.
  cbn [im_iterate with_draws mcmc_implem]. destruct (mcmc_iterate _ _ _ _ _ _ _ _ _ _ _) as [[[m1 c1] f]|] eqn:H; intros [= <- <-]; [|reflexivity].
  destruct (iterate_figures _ _ _ _ _ _ H) as (H1 & H2 & H3 & H4 & H5). unfold mcmc_figures, figures_at. rewrite H1, H2, H3, H4, H5. reflexivity.
Qed.

Lemma mj_preserved : preserved im (fun _ => True) MJ MJ.
Proof.
  split.
  - intros e lg c m He. unfold MJ. destruct e; try contradiction; cbn [last_saved]; auto.
  - auto.
  - intros d lg c m m' r H Hit. apply mj_iterate in Hit. destruct r as [[c'|] [f|] [n|]|n]; try contradiction.
    + right. split; [apply saved_pos|]. exists (Z.of_nat (length (bdata (mi_buffer m)))). cbn [last_saved]. exact Hit.
    + subst m'. exact H.
  - intros d lg c m m' c' e H Hi.
    assert (X : MJ lg c' m').
    { destruct H as [H|[Hp [t H]]]; [left; exact H|right; split; [exact Hp|]; exists t]. rewrite H. clear H. revert Hi.
      cbn [im_init with_draws mcmc_implem]. unfold mcmc_init. destruct (buffer_apply (mi_buffer m)) as [b|]; cbn [obind]; [|discriminate].
      destruct (initializer _ _ _) as [[cs [err|]]|]; cbn [obind]; [intros [= <- _ _]; reflexivity| |discriminate].
      destruct (somes cs) as [cc|]; cbn [obind]; [|discriminate]. destruct (strategy_loss _ _ _ _ _ _) as [l|]; cbn [obind]; [|discriminate].
      destruct (proba _ _ _ _ _) as [p|]; cbn [obind]; [|discriminate]. intros [= <- _ _]. reflexivity. }
    destruct e; exact X.
  - intros x lg c m m' err _. cbn [im_push with_draws mcmc_implem].
    assert (X : forall alive, MJ lg c m -> match buffer_push (mi_buffer m) x alive with None => None | Some Panic => None | Some (Ok b) => Some (set_buffer m b, None) end = Some (m', err) ->
      MJ (match err with None => EvPushed :: lg | Some _ => lg end) c m').
    { intros alive H. destruct (buffer_push _ x alive) as [[b|]|]; try discriminate. intros [= <- <-]. exact H. }
    split; apply X.
Qed.

Lemma mcmc_figures_main m0 xs q m : sys_acts cf im xs (seq0, m0) = Some (q, m) ->
  (iterations_saved (q_log q) = 0 -> forall key, own_key key -> figure (m_figs (q_model q)) key = b64_of_Z 0) /\
  (0 < iterations_saved (q_log q) -> exists t, forall key, own_key key -> figure (m_figs (q_model q)) key = figure (figures_at m t) key).
Proof.
  intros Hs.
  assert (Hok : Forall (action_ok (fun _ : E => True)) xs).
  { apply Forall_forall. intros [c now|p] Hin; [|exact Logic.I]. destruct c; exact Logic.I. }
  pose proof (sys_invariant cf im _ MJ MJ mj_preserved xs m0 (q, m) (or_introl (conj eq_refl eq_refl)) Hok Hs) as H.
  assert (X : MJ (q_log q) (m_centroids (q_model q)) m) by (unfold holds_in in H; cbn [fst snd] in H; destruct (st_alive (q_status q)); exact H).
  destruct X as [[X0 X]|[X0 [t X]]]; (split; intros Y; [|try lia]); try lia.
  - intros key Hk. rewrite (own_figures cf im xs m0 q m key Hs Hk), X. reflexivity.
  - exists t. intros key Hk. rewrite (own_figures cf im xs m0 q m key Hs Hk), X. reflexivity.
Qed.
End Mcmc.

(** ** Streaming *)
Section Stream.
Context {E F : Type} (N : Num F) (good : F -> Prop) (HN : NumOrd N good).
Hypothesis Heq0 : forall x, neqb N x (nof N 0) = true -> nleb N x (nof N 0) = true.
Context (Sp : Space E F) (bs oa : Z) (ratio : F) (to64 : F -> b64) (cf : cconf) (elemts : list E).
Hypothesis Hdist : forall x y, good (sdist Sp x y) /\ nleb N (nof N 0) (sdist Sp x y) = true.
Notation im := (streaming_implem N Sp bs oa ratio to64).
Let P := fun _ : E => True.
Definition SF (lg : list (event (list E))) (s : streaming E F) : Prop :=
  iterations_saved lg = 0 /\ last_saved lg = [] \/ 0 < iterations_saved lg /\ last_saved lg = [("maxDistance"%string, to64 (s_max s))].
Let JA lg c s := TA N Sp bs oa ratio P elemts lg c s /\ SF lg s.
Let JD lg c s := TD N Sp bs oa ratio P elemts lg c s /\ SF lg s.

Lemma td_max lg c s : TD N Sp bs oa ratio P elemts lg c s -> update_max N (s_max s) (nof N 0) = s_max s.
Proof.
  intros (ops & rs & H1 & H2 & _).
  assert (Hm0 : good_max N good (s_max (new_streaming (E := E) N elemts))).
  { split; [apply (good_of N good HN)|]. apply (leb_refl N good HN). apply (good_of N good HN). }
  destruct (sexec_init_first N good HN Heq0 Sp bs oa ratio Hdist _ _ _ _ H1 Hm0 (or_intror H2)) as [[M1 M2] _].
  unfold update_max. rewrite (ltb_nleb N good HN) by (auto; apply (good_of N good HN)). rewrite M2. reflexivity.
Qed.

Lemma sf_preserved : preserved im P JA JD.
Proof.
  pose proof (streaming_preserved N good HN Sp bs oa ratio to64 P elemts) as pr. split.
  - intros e lg c s He. unfold JA, JD. assert (X : SF lg s -> SF (e :: lg) s) by (unfold SF; destruct e; try contradiction; cbn [last_saved]; auto).
    destruct (pr_neutral _ _ _ _ pr e lg c s He) as [A B]. split; intros [H1 H2]; auto.
  - intros lg c s [H1 H2]. split; [apply (pr_dead _ _ _ _ pr); exact H1|exact H2].
  - intros t lg c s s' r [H1 H2] Hit. pose proof (pr_iterate _ _ _ _ pr _ _ _ _ _ _ H1 Hit) as H3.
    cbn [im_iterate streaming_implem] in Hit. destruct (streaming_iterate N Sp oa ratio s t) as [[s1 c1]|] eqn:Hi; injection Hit as <- <-.
    + destruct c1 as [c1|]; split; try exact H3; [right; split; [apply saved_pos|reflexivity]|].
      unfold streaming_iterate in Hi. destruct (s_queue s); [injection Hi as <-; exact H2|].
      destruct (process _ _ _ _ _ _ _); discriminate.
    + split; [exact H3|exact H2].
  - intros d lg c s s' c' e [H1 H2] Hi. pose proof (pr_init _ _ _ _ pr _ _ _ _ _ _ _ H1 Hi) as H3.
    assert (X : SF lg s').
    { cbn [im_init streaming_implem] in Hi. unfold streaming_init in Hi. destruct (s_queue s) as [|x q']; [injection Hi as <- _ _; exact H2|].
      assert (Y : s_max s' = s_max s) by (injection Hi as <- _ _; cbn [add_center s_max]; apply (td_max _ _ _ H1)).
      unfold SF. rewrite Y. exact H2. }
    destruct e; split; assumption.
  - intros x lg c s s' err Hx. destruct (pr_push _ _ _ _ pr x lg c s s' err Hx) as [A B].
    assert (X : SF lg s -> im_push im s x true = Some (s', err) -> SF (match err with None => EvPushed :: lg | Some _ => lg end) s').
    { intros H Hp. cbn [im_push streaming_implem] in Hp. unfold streaming_push in Hp.
      destruct (slen (s_queue s) <? bs); injection Hp as <- <-; exact H. }
    split; intros [H1 H2] Hp; (split; [auto|apply X; auto]).
Qed.

Lemma streaming_figures_main xs q s : sys_acts cf im xs (seq0, new_streaming N elemts) = Some (q, s) ->
  forall key, own_key key ->
  figure (m_figs (q_model q)) key = if (0 <? iterations_saved (q_log q)) && String.eqb key "maxDistance" then to64 (s_max s) else b64_of_Z 0.
Proof.
  intros Hs key Hk.
  assert (Hok : Forall (action_ok P) xs).
  { apply Forall_forall. intros [c now|p] Hin; [|exact I]. destruct c; exact I. }
  assert (H0 : JD [] None (new_streaming N elemts)).
  { split; [|left; split; reflexivity]. exists [], []. split; [constructor|]. split; [intros [|? ?] ? ? X; discriminate|]. split; [reflexivity|]. split; [constructor|]. split; [reflexivity|].
    split; [discriminate|]. intros X. contradiction X. reflexivity. }
  pose proof (sys_invariant cf im P JA JD sf_preserved xs _ (q, s) H0 Hok Hs) as H.
  assert (X : SF (q_log q) s) by (unfold holds_in in H; cbn [fst snd] in H; destruct (st_alive (q_status q)); apply H).
  rewrite (own_figures cf im xs _ q s key Hs Hk). destruct X as [[X0 X]|[X0 X]]; rewrite X.
  - rewrite X0. reflexivity.
  - destruct (Z.ltb_spec 0 (iterations_saved (q_log q))); [|lia]. cbn [andb]. unfold figure. cbn [find fst snd]. rewrite String.eqb_sym.
    destruct (String.eqb key "maxDistance"); reflexivity.
Qed.
End Stream.

(** Three elements pushed, Batch twice with one iteration each, whose proposals are accepted. *)
Definition batch_mcmc : sys_action (list b64) (unit * draws b64 unit) :=
  let d := mdraw (b64_div (b64_of_Z 3) (b64_of_Z 4)) (b64_of_Z 0) in
  YCall (YBatch d 4 [STurn d 0 5] [(6, []); (7, [])]) 8.
Definition mcmc_twice : list (sys_action (list b64) (unit * draws b64 unit)) :=
  [YCall (YPush (v64 [0]) 1) 1; YCall (YPush (v64 [2]) 2) 2; YCall (YPush (v64 [10]) 3) 3; batch_mcmc; batch_mcmc].
Definition one_iteration : cconf := mkCConf 1 0 0 false None None.

Lemma acceptations_twice : exists q m, sys_acts one_iteration mcmc1 mcmc_twice (seq0, mcmc0) = Some (q, m) /\
  q_status q = new_status Finished /\ total_saved (q_log q) = 2 /\
  b64_eqb (figure (m_figs (q_model q)) "iterations") (b64_of_Z 1) = true /\
  b64_eqb (figure (m_figs (q_model q)) "acceptations") (b64_of_Z 2) = true.
Proof.
  assert (H : match sys_acts one_iteration mcmc1 mcmc_twice (seq0, mcmc0) with None => False | Some (q, m) =>
    q_status q = new_status Finished /\ total_saved (q_log q) = 2 /\
    b64_eqb (figure (m_figs (q_model q)) "iterations") (b64_of_Z 1) = true /\
    b64_eqb (figure (m_figs (q_model q)) "acceptations") (b64_of_Z 2) = true end) by (vm_compute; repeat split; reflexivity).
  destruct (sys_acts _ _ _ _) as [[q m]|]; [|contradiction]. exists q, m. split; [reflexivity|exact H].
Qed.

Lemma kmeans_figures_main : forall (E F : Type) (N : Num F) (Sp : Space E F) (D : Type) (initializer : D -> list E -> option (option (list E) * option nat)) par cf xs b0 q b,
  sys_acts cf (kmeans_implem N Sp initializer par) xs (seq0, b0) = Some (q, b) ->
  forall key, own_key key -> figure (m_figs (q_model q)) key = b64_of_Z 0.
Proof.
  intros E F N Sp D initializer par cf xs b0 q b Hs key Hk.
  set (J := fun (lg : list (event (list E))) (_ : option (list E)) (_ : buffer E) => last_saved lg = []).
  assert (pr : preserved (kmeans_implem N Sp initializer par) (fun _ => True) J J).
  { split; unfold J.
    - intros e lg _ _ He. destruct e; try contradiction; cbn [last_saved]; auto.
    - auto.
    - intros d lg c i i' r H. cbn [im_iterate kmeans_implem]. destruct (strategy_iterate _ _ _ _ _) as [l|]; [|intros [= _ <-]; exact H].
      destruct (buffer_apply i) as [b'|]; [|intros [= _ <-]; exact H]. destruct (all_some l); intros [= _ <-]; [reflexivity|exact H].
    - intros d lg c i i' c' e H _. destruct e; exact H.
    - intros x lg c i i' err _. split; intros H _; destruct err; exact H. }
  assert (Hok : Forall (action_ok (fun _ : E => True)) xs).
  { apply Forall_forall. intros [c now|p] Hin; [|exact I]. destruct c; exact I. }
  pose proof (sys_invariant cf _ _ J J pr xs b0 (q, b) eq_refl Hok Hs) as H.
  rewrite (own_figures cf _ xs b0 q b key Hs Hk).
  assert (X : last_saved (q_log q) = []) by (unfold holds_in in H; cbn [fst snd] in H; destruct (st_alive (q_status q)); exact H).
  rewrite X. reflexivity.
Qed.

Lemma mcmc_iteration_main : forall (E F G I : Type) (N : Num F) (Sp : Space E F) pow log exp cpus (D : distrib E F G) conf
  (initializer : I -> Z -> list E -> outcome (list (option E) * option init_error)) (to64 : F -> b64) d m c m' c' f e,
  im_iterate (mcmc_implem N Sp pow log exp cpus D conf initializer to64) d m c = (m', IterRes c' f e) ->
  e = None /\ c' <> None /\ exists f', f = Some f' /\
  figure f' "acceptations" = to64 (nof N (mi_acc m')) /\ figure f' "time" = to64 (nof N (Z.of_nat (length (bdata (mi_buffer m))))) /\
  figure f' "lambda" = to64 (mi_lambda m') /\ figure f' "rho" = to64 (mi_rho m') /\ figure f' "rGibbs" = to64 (mi_rgibbs m').
Proof.
  intros E F G I N Sp pow log exp cpus D conf initializer to64 d m c m' c' f e H.
  pose proof (mj_iterate N Sp pow log exp cpus D conf initializer to64 (fun x => x) d m m' c (IterRes c' f e) H) as X. cbn in X.
  destruct c' as [c'|], f as [f|], e as [e|]; try contradiction. subst f. split; [reflexivity|]. split; [discriminate|].
  eexists. split; [reflexivity|]. repeat split.
Qed.

Lemma mcmc_shown : forall (E F G I : Type) (N : Num F) (Sp : Space E F) pow log exp cpus (D : distrib E F G) conf
  (initializer : I -> Z -> list E -> outcome (list (option E) * option init_error)) (to64 : F -> b64) (Dr : Type) (draw : Dr -> I * draws F G) cf m0 xs q m,
  sys_acts cf (with_draws draw (mcmc_implem N Sp pow log exp cpus D conf initializer to64)) xs (seq0, m0) = Some (q, m) ->
  let figs := m_figs (q_model q) in
  (iterations_saved (q_log q) = 0 -> forall key, own_key key -> figure figs key = b64_of_Z 0) /\
  (0 < iterations_saved (q_log q) ->
     figure figs "acceptations" = to64 (nof N (mi_acc m)) /\ figure figs "lambda" = to64 (mi_lambda m) /\
     figure figs "rho" = to64 (mi_rho m) /\ figure figs "rGibbs" = to64 (mi_rgibbs m)).
Proof.
  intros E F G I N Sp pow log exp cpus D conf initializer to64 Dr draw cf m0 xs q m Hs figs.
  destruct (mcmc_figures_main N Sp pow log exp cpus D conf initializer to64 draw cf m0 xs q m Hs) as [H1 H2]. split; [exact H1|].
  intros Hp. destruct (H2 Hp) as [t Ht]. unfold figs. rewrite !Ht by (unfold own_key; cbn; intuition discriminate). repeat split.
Qed.
