(** C108: copies of MCMC algorithms. *)
From Coq Require Import List ZArith Lia Bool.
From Verif Require Import Base.Go Base.Num Model.Clustering Model.Buffer Model.Euclid Model.KmeansInit Model.Mcmc Model.Status Model.Finish Model.Conf
  Model.CtrlLang Model.CtrlSeq Model.System Model.SystemMcmc Model.Copy Model.CopyMcmc
  Spec.McmcSpec Spec.NearestSpec Spec.CtrlSpec Spec.CtrlSeqSpec Spec.SystemSpec Spec.CopySpec
  Proofs.McmcCases Proofs.SystemMcmcMain Proofs.CopyProofs Proofs.CopyMcmcProofs.
Import ListNotations.
Local Open Scope Z_scope.

(** Three pushes, one accepted iteration with two centers, Stop, a push: for the same draws the algorithm and its copy
    give other centroids, because the algorithm still has the two centers of its first run. *)
Theorem C108_same_refuted : exists (a0 a' : mcmc_algo unit (list b64)) q m,
  mcmc_create tt 2 xconf [] = Ok a0 /\ sys_acts (ctrl_of (mc_ctrl xconf)) (xmcmc a0) xsession (seq0, xa_impl a0) = Some (q, m) /\
  st_value (q_status q) = Finished /\ bpipe (mi_buffer m) = [] /\ mi_acc m = 1 /\
  mcmc_copy tt 2 (mkMcmcAlgo (xa_conf a0) (xa_strategy a0) m q) (xa_conf a0) = Ok a' /\
  shown_answers (replay (xmcmc a0) up [up] m) = [Some (map (map show64) [v64 [1]; v64 [20]], Some (show64 (b64_of_Z 2)))] /\
  shown_answers (replay (xmcmc a') up [up] (xa_impl a')) = [Some (map (map show64) [v64 [4]; v64 [30]], Some (show64 (b64_of_Z 1)))].
Proof. exact copy_differs. Qed.
Print Assumptions C108_same_refuted.

(** As for k-means (C95), FrameSize and Par given to Copy are ignored. *)
Theorem C108_conf_refuted : exists a a' b : mcmc_algo unit Z,
  mcmc_create tt 4 xconf [1; 2; 3] = Ok a /\ mcmc_copy tt 4 a (mkMcmcConf ctrl1 true 1 None (b64_of_Z 1) (b64_of_Z 1) (b64_of_Z 1) (b64_of_Z 2) 2 [] 2 0) = Ok a' /\
  mc_frame_size (xa_conf a') = 2 /\ bdata (mi_buffer (xa_impl a')) = [1; 2; 3] /\ mc_par (xa_conf a') = true /\ xa_strategy a' = None /\
  mcmc_create tt 4 (mkMcmcConf ctrl1 true 1 None (b64_of_Z 1) (b64_of_Z 1) (b64_of_Z 1) (b64_of_Z 2) 2 [] 2 0) [1; 2; 3] = Ok b /\
  bdata (mi_buffer (xa_impl b)) = [2; 3] /\ xa_strategy b = Some 4.
Proof. exact copy_frame_mcmc. Qed.
Print Assumptions C108_conf_refuted.

(** A copy in any state a client can bring the algorithm to: it holds the data and nothing else; as long as no proposal was
    accepted and no element is staged, it answers as the algorithm does, for all draws. *)
Theorem C108_same_partial : forall (G : Type) (rgen0 : G) cpus (E H I : Type) (Sp : Space E b64) pow log exp (D : distrib E b64 H)
  (initializer : I -> Z -> list E -> outcome (list (option E) * option init_error)) (c : mcmc_conf G) elemts a0 cf xs q m,
  mcmc_create rgen0 cpus c elemts = Ok a0 ->
  sys_acts cf (mcmc_of cpus Sp pow log exp D initializer a0) xs (seq0, xa_impl a0) = Some (q, m) ->
  exists a', mcmc_copy rgen0 cpus (mkMcmcAlgo (xa_conf a0) (xa_strategy a0) m q) (xa_conf a0) = Ok a' /\
    xa_conf a' = xa_conf a0 /\ xa_strategy a' = xa_strategy a0 /\ xa_ctrl a' = seq0 /\
    bdata (mi_buffer (xa_impl a')) = bdata (mi_buffer m) /\ mi_store (xa_impl a') = [] /\ mi_acc (xa_impl a') = 0 /\
    (bpipe (mi_buffer m) = [] -> mi_acc m = 0 -> forall d ds,
       replay (mcmc_of cpus Sp pow log exp D initializer a') d ds (xa_impl a') = replay (mcmc_of cpus Sp pow log exp D initializer a0) d ds m).
Proof. exact @mcmc_copy_same. Qed.
Print Assumptions C108_same_partial.

(** The configuration of a copy, and when it is an algorithm newly created with it. *)
Theorem C108_conf_partial : forall (G : Type) (rgen0 : G) cpus (E : Type) (a a' : mcmc_algo G E) (c : mcmc_conf G), mcmc_copy rgen0 cpus a c = Ok a' ->
  xa_conf a' = mcmc_set_defaults rgen0 cpus c /\ mc_init_k (xa_conf a') = mc_init_k c /\ mc_ctrl (xa_conf a') = mc_ctrl c /\
  xa_strategy a' = mcmc_strategy (mcmc_set_defaults rgen0 cpus (xa_conf a)) /\ xa_ctrl a' = seq0 /\
  mi_store (xa_impl a') = [] /\ mi_acc (xa_impl a') = 0 /\ bpipe (mi_buffer (xa_impl a')) = [] /\
  (mc_frame_size c = mc_frame_size (xa_conf a) -> mc_par c = mc_par (xa_conf a) ->
   (mc_par c = true -> default_int (mc_num_cpu c) cpus = default_int (mc_num_cpu (xa_conf a)) cpus) ->
   mcmc_create rgen0 cpus c (bdata (mi_buffer (xa_impl a))) = Ok a').
Proof. exact @mcmc_copy_conf. Qed.
Print Assumptions C108_conf_partial.

(** What a copy does with the settings of [c]: all are used but FrameSize, Par and NumCPU, which are those of the algorithm copied. *)
Theorem C108_mixed_partial : forall (G : Type) (rgen0 : G) cpus (E H I : Type) (Sp : Space E b64) pow log exp (D : distrib E b64 H)
  (initializer : I -> Z -> list E -> outcome (list (option E) * option init_error)) (a a' : mcmc_algo G E) (c : mcmc_conf G), mcmc_copy rgen0 cpus a c = Ok a' ->
  exists b, mcmc_create rgen0 cpus (mkMcmcConf (mc_ctrl c) (mc_par (xa_conf a)) (mc_init_k c) (mc_rgen c) (mc_b c) (mc_amp c) (mc_r c) (mc_norm c) (mc_max_k c) (mc_proba_k c)
      (mc_frame_size (xa_conf a)) (mc_num_cpu (xa_conf a))) (bdata (mi_buffer (xa_impl a))) = Ok b /\
    xa_impl a' = xa_impl b /\ mcmc_of cpus Sp pow log exp D initializer a' = mcmc_of cpus Sp pow log exp D initializer b /\
    (mc_par (xa_conf a) = true -> mp_num_cpu (mcmc_params a') = default_int (mc_num_cpu (xa_conf a)) cpus).
Proof. exact @mcmc_copy_mixed. Qed.
Print Assumptions C108_mixed_partial.

(** Before any iteration, with three elements: one accepted iteration from both. *)
Example C108_case : match mcmc_create tt 2 xconf [] with Panic => False | Ok a0 =>
  match sys_acts (ctrl_of (mc_ctrl xconf)) (xmcmc a0) (firstn 3 xsession) (seq0, xa_impl a0) with None => False | Some (q, m) =>
    bpipe (mi_buffer m) = [] /\ mi_acc m = 0 /\ length (bdata (mi_buffer m)) = 3%nat /\
    match mcmc_copy tt 2 (mkMcmcAlgo (xa_conf a0) (xa_strategy a0) m q) (xa_conf a0) with Panic => False | Ok a' =>
      shown_answers (replay (xmcmc a0) up [up] m) = [Some (map (map show64) [v64 [1]; v64 [10]], Some (show64 (b64_of_Z 1)))] /\
      shown_answers (replay (xmcmc a') up [up] (xa_impl a')) = [Some (map (map show64) [v64 [1]; v64 [10]], Some (show64 (b64_of_Z 1)))]
    end end end.
Proof. vm_compute. repeat split; reflexivity. Qed.
