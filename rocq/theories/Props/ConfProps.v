(** C30, C31: finishing conditions and configurations. *)
From Coq Require Import String List ZArith Bool.
From Flocq Require Import IEEE754.BinarySingleNaN.
From Verif Require Import Base.Go Base.Num Model.Status Model.Finish Model.Buffer Model.Conf
  Spec.ConfSpec Proofs.ConfProofs.
Import ListNotations.
Local Open Scope Z_scope.

Theorem C30_finishing : forall (m : fin_model),
  is_finished None m = false /\
  (forall l, is_finished (Some (FAnd l)) m = true <-> l <> [] /\ forall f, In f l -> is_finished f m = true) /\
  (forall l, is_finished (Some (FOr l)) m = true <-> exists f, In f l /\ is_finished f m = true) /\
  (forall iter ipd, is_finished (Some (FIter iter ipd)) m = true <->
     (0 < iter \/ 0 < ipd) /\
     iter + int_of_b64 (figure (fm_figures m) "pushedData") * ipd <= int_of_b64 (figure (fm_figures m) "iterations")) /\
  (forall l error, is_finished (Some (FStatus l error)) m = true <->
     (error = true /\ st_error (fm_status m) <> None) \/ In (st_value (fm_status m)) l).
Proof. exact finish_main. Qed.
Print Assumptions C30_finishing.

(** With the counters stored as float64 by the controller. *)
Theorem C30_iterations : forall st iterations pushed iter ipd,
  0 <= iterations <= 2 ^ 53 -> 0 <= pushed <= 2 ^ 53 ->
  forall rf, figure rf "iterations" = b64_of_Z iterations -> figure rf "pushedData" = b64_of_Z pushed ->
  (is_finished (Some (FIter iter ipd)) (mkFinModel st rf) = true <->
   (0 < iter \/ 0 < ipd) /\ iter + pushed * ipd <= iterations).
Proof. exact finish_iter. Qed.
Print Assumptions C30_iterations.

Example C30_case :
  let rf := [("iterations"%string, b64_of_Z 12); ("pushedData"%string, b64_of_Z 3)] in
  let m := mkFinModel (mkStatus Idle (Some ErrTimeout)) rf in
  is_finished (Some (FAnd [Some (FIter 6 2); Some (FOr [None; Some (FStatus [Idle] false)])])) m = true /\
  is_finished (Some (FIter 7 2)) m = false /\ is_finished (Some (FAnd [])) m = false /\
  is_finished (Some (FStatus [] true)) m = true /\ is_finished (Some (FOr [Some (FStatus [Ready] false)])) m = false.
Proof. vm_compute. auto 10. Qed.

Theorem C31_kmeans : forall G : Type, forall E (rgen0 : G) cpus (c : kmeans_conf G) (data : list E), 1 <= cpus ->
  (kmeans_valid c -> exists b, kmeans_new_algo rgen0 cpus c data =
     Ok (mkKmeansConf (km_ctrl c) (km_par c) (km_k c) (km_frame_size c)
           (match km_rgen c with None => Some rgen0 | Some r => Some r end)
           (if km_num_cpu c =? 0 then cpus else km_num_cpu c), b)) /\
  (~ kmeans_valid c -> kmeans_new_algo rgen0 cpus c data = Panic).
Proof. exact @kmeans_conf_main. Qed.
Print Assumptions C31_kmeans.

Theorem C31_mcmc : forall G : Type, forall E (rgen0 : G) cpus (c : mcmc_conf G) (data : list E), 1 <= cpus ->
  (mcmc_valid c -> exists c' b, mcmc_new_algo rgen0 cpus c data = Ok (c', b) /\
     mc_init_k c' = mc_init_k c /\ mc_ctrl c' = mc_ctrl c /\ mc_frame_size c' = mc_frame_size c /\ mc_amp c' = mc_amp c /\
     (mc_max_k c = 0 -> mc_max_k c' = 16) /\ (mc_max_k c <> 0 -> mc_max_k c' = mc_max_k c) /\
     1 <= mc_init_k c' <= mc_max_k c' /\ mc_proba_k c' <> []) /\
  (~ mcmc_valid c -> mcmc_new_algo rgen0 cpus c data = Panic).
Proof. exact @mcmc_conf_main. Qed.
Print Assumptions C31_mcmc.

Theorem C31_streaming : forall G : Type, forall E (rgen0 : G) (c : streaming_conf G) (data : list E),
  (streaming_valid c data -> exists c', streaming_new_algo rgen0 c data = Ok (c', data) /\
     sc_ctrl c' = sc_ctrl c /\ sc_out_after c' = (if sc_out_after c =? 0 then 5 else sc_out_after c) /\
     sc_buffer_size c' = (if sc_buffer_size c =? 0 then 100 else sc_buffer_size c) /\
     2 <= sc_out_after c' /\ Z.of_nat (length data) <= sc_buffer_size c') /\
  (~ streaming_valid c data -> streaming_new_algo rgen0 c data = Panic).
Proof. exact @streaming_conf_main. Qed.
Print Assumptions C31_streaming.

Theorem C31_prepare_idempotent : forall G : Type, forall (r0 r1 : G) cpus, 1 <= cpus ->
  (forall c, prepare_conf (kmeans_ops r1 cpus) (fst (prepare_conf (kmeans_ops r0 cpus) c)) = prepare_conf (kmeans_ops r0 cpus) c) /\
  (forall c, prepare_conf (mcmc_ops r1 cpus) (fst (prepare_conf (mcmc_ops r0 cpus) c)) = prepare_conf (mcmc_ops r0 cpus) c) /\
  (forall c, prepare_conf (streaming_ops r1) (fst (prepare_conf (streaming_ops r0) c)) = prepare_conf (streaming_ops r0) c).
Proof. exact @prepare_idem_main. Qed.
Print Assumptions C31_prepare_idempotent.

Example C31_case :
  let ctrl := mkCtrl 10 (b64_of_Z 0) 0 0 0 None in
  kmeans_valid (mkKmeansConf ctrl true 3 0 (@None unit) 0) /\
  ~ kmeans_valid (mkKmeansConf (mkCtrl (-1) (b64_of_Z 0) 0 0 0 None) true 3 0 (@None unit) 0) /\
  mcmc_valid (mkMcmcConf ctrl false 16 (@None unit) (b64_of_Z 0) (b64_of_Z 1) (b64_of_Z 1) (b64_of_Z 0) 0 [] 0 0) /\
  ~ mcmc_valid (mkMcmcConf ctrl false 17 (@None unit) (b64_of_Z 0) (b64_of_Z 1) (b64_of_Z 1) (b64_of_Z 0) 0 [] 0 0) /\
  streaming_valid (mkStreamingConf ctrl 0 (b64_of_Z 0) (b64_of_Z 0) (b64_of_Z 0) 0 (@None unit)) [1; 2; 3] /\
  ~ streaming_valid (mkStreamingConf ctrl 2 (b64_of_Z 0) (b64_of_Z 0) (b64_of_Z 0) 0 (@None unit)) [1; 2; 3].
Proof.
  assert (Hc : ctrl_valid (mkCtrl 10 (b64_of_Z 0) 0 0 0 None)).
  { unfold ctrl_valid. cbn [cc_iter cc_iter_freq cc_timeout cc_data_per_iter cc_iter_per_data].
    repeat split; try discriminate. }
  repeat split; cbn; try discriminate; try exact Hc.
  - intros [(_ & _ & _ & _ & H) _]. cbn in H. apply H. reflexivity.
  - left. split; [reflexivity|discriminate].
  - intros (_ & _ & [[_ H]|[H _]]); cbn in H; [apply H; reflexivity|apply H; reflexivity].
  - left. reflexivity.
  - left. split; [reflexivity|discriminate].
  - intros (_ & _ & [[H _]|[_ H]]); cbn in H; [discriminate|apply H; reflexivity].
Qed.
