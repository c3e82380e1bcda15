(** C99: the runtime figures that implementations publish, for one client. *)
From Coq Require Import String List ZArith Bool.
From Verif Require Import Base.Go Base.Num Model.Clustering Model.Buffer Model.KmeansInit Model.Mcmc Model.Streaming Model.Status Model.Finish
  Model.CtrlLang Model.CtrlCode Model.CtrlSeq Model.System Model.SystemMcmc Model.Euclid
  Spec.NearestSpec Spec.CtrlSpec Spec.CtrlSeqSpec Spec.McmcSpec Spec.StreamingSpec Spec.SystemSpec
  Proofs.StreamingProofs Proofs.CtrlSeqEx Proofs.SystemMain Proofs.SystemMcmcMain Proofs.FiguresProofs.
Import ListNotations.
Local Open Scope Z_scope.

(** Two Batch of one iteration each, both proposals accepted: the figures say 1 iteration and 2 acceptations. *)
Theorem C99_acceptations_refuted : exists q m, sys_acts one_iteration mcmc1 mcmc_twice (seq0, mcmc0) = Some (q, m) /\
  q_status q = new_status Finished /\ total_saved (q_log q) = 2 /\
  b64_eqb (figure (m_figs (q_model q)) "iterations") (b64_of_Z 1) = true /\
  b64_eqb (figure (m_figs (q_model q)) "acceptations") (b64_of_Z 2) = true.
Proof. exact acceptations_twice. Qed.
Print Assumptions C99_acceptations_refuted.

(** MCMC: nothing before the first iteration since the last Init, then the values of the implementation ([mi_acc] counts
    the proposals accepted since its creation: C91). *)
Theorem C99_mcmc_partial : forall (E F G I : Type) (N : Num F) (Sp : Space E F) pow log exp cpus (D : distrib E F G) conf
  (initializer : I -> Z -> list E -> outcome (list (option E) * option init_error)) (to64 : F -> b64) (Dr : Type) (draw : Dr -> I * draws F G) cf m0 xs q m,
  sys_acts cf (with_draws draw (mcmc_implem N Sp pow log exp cpus D conf initializer to64)) xs (seq0, m0) = Some (q, m) ->
  let figs := m_figs (q_model q) in
  (iterations_saved (q_log q) = 0 -> forall key, own_key key -> figure figs key = b64_of_Z 0) /\
  (0 < iterations_saved (q_log q) ->
     figure figs "acceptations" = to64 (nof N (mi_acc m)) /\ figure figs "lambda" = to64 (mi_lambda m) /\
     figure figs "rho" = to64 (mi_rho m) /\ figure figs "rGibbs" = to64 (mi_rgibbs m)).
Proof. exact mcmc_shown. Qed.
Print Assumptions C99_mcmc_partial.

(** The figures an iteration of MCMC returns; the time is the number of data it worked on. *)
Theorem C99_iteration_partial : forall (E F G I : Type) (N : Num F) (Sp : Space E F) pow log exp cpus (D : distrib E F G) conf
  (initializer : I -> Z -> list E -> outcome (list (option E) * option init_error)) (to64 : F -> b64) d m c m' c' f e,
  im_iterate (mcmc_implem N Sp pow log exp cpus D conf initializer to64) d m c = (m', IterRes c' f e) ->
  e = None /\ c' <> None /\ exists f', f = Some f' /\
  figure f' "acceptations" = to64 (nof N (mi_acc m')) /\ figure f' "time" = to64 (nof N (Z.of_nat (length (bdata (mi_buffer m))))) /\
  figure f' "lambda" = to64 (mi_lambda m') /\ figure f' "rho" = to64 (mi_rho m') /\ figure f' "rGibbs" = to64 (mi_rgibbs m').
Proof. exact mcmc_iteration_main. Qed.
Print Assumptions C99_iteration_partial.

(** After the first of the two Batch; an iteration on three data. *)
Example C99_case : match sys_acts one_iteration mcmc1 (firstn 4 mcmc_twice) (seq0, mcmc0) with
  | Some (q, m) => iterations_saved (q_log q) = 1 /\ mi_acc m = 1 /\
      b64_eqb (figure (m_figs (q_model q)) "acceptations") (b64_of_Z 1) = true /\ b64_eqb (figure (m_figs (q_model q)) "time") (b64_of_Z 3) = true
  | None => False
  end /\
  match sys_acts one_iteration mcmc1 (firstn 3 mcmc_twice) (seq0, mcmc0) with
  | Some (q, _) => iterations_saved (q_log q) = 0
  | None => False
  end.
Proof. vm_compute. repeat split; reflexivity. Qed.

(** Streaming: the maximal distance of the implementation, once an iteration was saved since the last Init. *)
Theorem C99_streaming_partial : forall (E F : Type) (N : Num F) good, NumOrd N good ->
  (forall x, neqb N x (nof N 0) = true -> nleb N x (nof N 0) = true) ->
  forall (Sp : Space E F) bs oa ratio to64 cf elemts,
  (forall x y, good (sdist Sp x y) /\ nleb N (nof N 0) (sdist Sp x y) = true) -> forall xs q s,
  sys_acts cf (streaming_implem N Sp bs oa ratio to64) xs (seq0, new_streaming N elemts) = Some (q, s) ->
  forall key, own_key key ->
  figure (m_figs (q_model q)) key = if (0 <? iterations_saved (q_log q)) && String.eqb key "maxDistance" then to64 (s_max s) else b64_of_Z 0.
Proof. exact @streaming_figures_main. Qed.
Print Assumptions C99_streaming_partial.

Example C99_streaming_case : own_key "maxDistance" /\
  match sys_acts conf_free streaming2 (firstn 5 reinit) (seq0, new_streaming B64Num [true; false; true]) with
  | Some (q, s) => iterations_saved (q_log q) = 2 /\ b64_eqb (figure (m_figs (q_model q)) "maxDistance") (b64_of_Z 3) = true
  | None => False
  end.
Proof.
  split; [intros H; cbn in H; intuition discriminate|]. vm_compute. split; reflexivity.
Qed.

(** k-means publishes no figures of its own. *)
Theorem C99_kmeans_partial : forall (E F : Type) (N : Num F) (Sp : Space E F) (D : Type) (initializer : D -> list E -> option (option (list E) * option nat)) par cf xs b0 q b,
  sys_acts cf (kmeans_implem N Sp initializer par) xs (seq0, b0) = Some (q, b) ->
  forall key, own_key key -> figure (m_figs (q_model q)) key = b64_of_Z 0.
Proof. exact kmeans_figures_main. Qed.
Print Assumptions C99_kmeans_partial.

Example C99_kmeans_case : own_key "loss" /\ match sys_acts conf_free kmeans1 kmeans_session (seq0, buffer0) with
  | Some (q, b) => iterations_saved (q_log q) = 1
  | None => False
  end.
Proof. split; [intros H; cbn in H; intuition discriminate|]. vm_compute. reflexivity. Qed.
