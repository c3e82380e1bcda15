(** C107: whose elements the published centroids are. *)
From Coq Require Import List ZArith Bool Lia.
From Verif Require Import Base.Go Base.Num Model.Clustering Model.Buffer Model.Euclid Model.Kmeans Model.KmeansInit Model.Streaming Model.Mcmc
  Model.Status Model.Finish Model.CtrlLang Model.CtrlSeq Model.System Model.SystemMcmc Model.HeapVec
  Spec.McmcSpec Spec.NearestSpec Spec.CtrlSpec Spec.CtrlSeqSpec Spec.SystemSpec Spec.OwnSpec
  Proofs.StreamingProofs Proofs.CtrlSeqEx Proofs.SystemMain Proofs.McmcCases Proofs.SystemMcmcMain Proofs.OwnProofs Proofs.HeapVecProofs.
Import ListNotations.
Local Open Scope Z_scope.
Local Notation euclid64 := (euclid_space B64Num).

(** Init with kmeans++ publishes an element of the client. *)
Theorem C107_pp_refuted : exists q b, sys_acts conf_free pp_own pp_session (seq0, tbuffer0) = Some (q, b) /\
  pushes_only (fun x => fst x = false) pp_session /\ q_status q = new_status Ready /\
  exists c, m_centroids (q_model q) = Some (mine [0] :: c) /\ ~ made (tracked euclid64) (mine [0]).
Proof. exact pp_own_ex. Qed.
Print Assumptions C107_pp_refuted.

(** So does streaming, for every center of cardinality 1. *)
Theorem C107_streaming_refuted : exists q s c, sys_acts conf_free streaming_own streaming_session (seq0, new_streaming B64Num own_elemts) = Some (q, s) /\
  m_centroids (q_model q) = Some c /\ In (false, false) own_elemts /\ In (false, false) c /\ ~ made (tracked two_point_space) (false, false) /\ s_cards s = [2; 1] /\ c = [(true, true); (false, false)].
Proof. exact streaming_own_ex. Qed.
Print Assumptions C107_streaming_refuted.

(** With an initializer that copies, k-means publishes only what Copy and Combine made, whatever the calls. *)
Theorem C107_kmeans_partial : forall (E F : Type) (N : Num F) (Sp : Space E F) (D : Type) (initializer : D -> list E -> option (option (list E) * option nat)) par cf xs b0 q b c,
  copies Sp initializer -> sys_acts cf (kmeans_implem N Sp initializer par) xs (seq0, b0) = Some (q, b) -> m_centroids (q_model q) = Some c -> Forall (made Sp) c.
Proof. exact @kmeans_made. Qed.
Print Assumptions C107_kmeans_partial.

(** Given and random initializers copy. *)
Theorem C107_initializers : forall (E F : Type) (Sp : Space E F),
  (forall k, copies Sp (with_given Sp k)) /\ (forall k, copies Sp (with_rand Sp k)) /\ copies_k Sp (use_given Sp) /\ copies_k Sp (use_rand Sp).
Proof. exact @initializers_copy. Qed.
Print Assumptions C107_initializers.

(** With kmeans++, all but the first one. *)
Theorem C107_pp_partial : forall (E F : Type) (N : Num F) (Sp : Space E F) degree k par cf xs b0 q b c0 c,
  sys_acts cf (kmeans_implem N Sp (with_pp N Sp degree k) par) xs (seq0, b0) = Some (q, b) -> m_centroids (q_model q) = Some (c0 :: c) -> Forall (made Sp) c.
Proof. exact @kmeans_pp_made. Qed.
Print Assumptions C107_pp_partial.

(** MCMC: made, or sampled from one that was. *)
Theorem C107_mcmc_partial : forall (E F G I : Type) (N : Num F) (Sp : Space E F) pow log exp cpus (D : distrib E F G) conf
  (initializer : I -> Z -> list E -> outcome (list (option E) * option init_error)) (to64 : F -> b64) cf elemts size m0 xs q m c,
  copies_k Sp initializer -> new_mcmc N elemts size = Ok m0 ->
  sys_acts cf (mcmc_implem N Sp pow log exp cpus D conf initializer to64) xs (seq0, m0) = Some (q, m) -> m_centroids (q_model q) = Some c -> Forall (made_or_sampled Sp D) c.
Proof. exact @mcmc_made. Qed.
Print Assumptions C107_mcmc_partial.

(** Streaming: a center of cardinality 1 is a given element, any other one was made by Combine. *)
Theorem C107_streaming_partial : forall (E F : Type) (N : Num F) (Sp : Space E F) bs oa ratio (to64 : F -> b64) (P : E -> Prop) cf elemts xs q s,
  Forall P elemts -> pushes_only P xs -> sys_acts cf (streaming_implem N Sp bs oa ratio to64) xs (seq0, new_streaming N elemts) = Some (q, s) ->
  Forall2 (fun x n => (n = 1 /\ P x) \/ (2 <= n /\ made Sp x)) (s_clust s) (s_cards s).
Proof. exact @own_streaming. Qed.
Print Assumptions C107_streaming_partial.

Example C107_case : (forall x, made (tracked euclid64) x -> fst x = true) /\
  marks (sys_acts conf_free given_own given_session (seq0, tbuffer0)) = Some [true; true] /\
  marks (sys_acts conf_free pp_own pp_session (seq0, tbuffer0)) = Some [false; true] /\
  new_mcmc B64Num (@nil (bool * list b64)) 0 = Ok mcmc_own0 /\ marks (sys_acts conf_free mcmc_own mcmc_own_session (seq0, mcmc_own0)) = Some [true; true] /\
  marks (sys_acts conf_free streaming_own streaming_session (seq0, new_streaming B64Num own_elemts)) = Some [true; false].
Proof.
  split; [apply tracked_made|]. split; [vm_compute; reflexivity|]. split; [vm_compute; reflexivity|]. split; [reflexivity|]. split; vm_compute; reflexivity.
Qed.

(** In memory: Copy and Combine of vectors give a new array and leave all the others as they are. *)
Theorem C107_arrays : forall (F : Type) (N : Num F) (m : list (list F)) a, (a < length m)%nat ->
  hpoint_copy N m a = Ok (m ++ [nth a m []], length m) /\
  forall n b k, (b < length m)%nat ->
    hpoint_combine N m a n b k = match point_combine N (nth a m []) n (nth b m []) k with Ok v => Ok (m ++ [v], length m) | Panic => Panic end.
Proof. exact (fun F N m a Ha => conj (hcopy_new N m a Ha) (fun n b k Hb => hcombine_new N m a n b k Ha Hb)). Qed.
Print Assumptions C107_arrays.

(** The points of the copy of a series are new arrays, all distinct. *)
Theorem C107_series : forall (F : Type) (N : Num F) (s : list nat) (m : list (list F)), Forall (fun a => (a < length m)%nat) s ->
  hseries_copy N m s = Ok (m ++ map (fun a => nth a m []) s, seq (length m) (length s)).
Proof. exact @hseries_new. Qed.
Print Assumptions C107_series.

Example C107_arrays_case : (0 < length [[1; 2]; [3; 6]])%nat /\ shown (point_combine B64Num (v64 [1; 2]) 1 (v64 [3; 6]) 1) = Ok (map show64 (v64 [2; 4])) /\
  shown_mem (hpoint_combine B64Num [v64 [1; 2]; v64 [3; 6]] 0 1 1 1) = Ok (map (map show64) [v64 [1; 2]; v64 [3; 6]; v64 [2; 4]], 2%nat) /\
  hpoint_combine B64Num [v64 [1; 2]; v64 [3]] 0 1 1 1 = Panic /\
  shown_mem (hseries_copy B64Num [v64 [1]; v64 [2]] [1; 0; 1]%nat) = Ok (map (map show64) [v64 [1]; v64 [2]; v64 [2]; v64 [1]; v64 [2]], [2; 3; 4]%nat).
Proof. split; [cbn; lia|]. split; [vm_compute; reflexivity|]. split; [vm_compute; reflexivity|]. split; vm_compute; reflexivity. Qed.
