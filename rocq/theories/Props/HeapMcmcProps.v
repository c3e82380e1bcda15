(** C112: the slices of mcmc in memory. *)
From Coq Require Import List ZArith Bool.
From Verif Require Import Base.Go Base.Num Model.Clustering Model.Euclid Model.KmeansInit Model.Mcmc Model.Heap Model.HeapPar Model.HeapMcmc
  Spec.NearestSpec Spec.HeapMcmcSpec Proofs.NumLaws Proofs.McmcCases Proofs.HeapMcmcProofs.
Import ListNotations.

(** Whatever the pushes, initializations, draws and interleavings: the centroids published exist in memory, the slices that the
    client had before NewAlgo read the same as at that time, and every slice of the memory (centroids published at any time,
    centers of the store and of the current proposal) reads the same in every later state. *)
Theorem C112_snapshots : forall E F G I (N : Num F) good, NumOrd N good -> forall (Sp : Space E F) pow log exp cpus (D : distrib E F G) conf
  (initializer : I -> Z -> list E -> outcome (list (option E) * option init_error)) hinitializer,
  (0 < cpus)%Z -> forall m0 data frame_size h0, initializer_in m0 initializer hinitializer -> new_hmsys N m0 data frame_size = Ok h0 ->
  forall es1 os1 h1 es2 os2 h2, hmsteps N Sp pow log exp cpus D conf hinitializer h0 es1 os1 h1 -> hmsteps N Sp pow log exp cpus D conf hinitializer h1 es2 os2 h2 ->
  valid (hs_mem h1) (hs_centroids h1) /\ extends m0 (hs_mem h1) /\ extends (hs_mem h1) (hs_mem h2).
Proof. intros E F G I. exact (@mcmc_snapshots E F G I). Qed.
Print Assumptions C112_snapshots.

(** The executions in memory are those of Model/Mcmc.v: the same events, figures and errors, and Centroids() reads the same
    values; every execution without panic there is one in memory, for some interleavings. *)
Theorem C112_values : forall E F G I (N : Num F) good, NumOrd N good -> forall (Sp : Space E F) pow log exp cpus (D : distrib E F G) conf
  (initializer : I -> Z -> list E -> outcome (list (option E) * option init_error)) hinitializer,
  (0 < cpus)%Z -> forall m0 data frame_size h0 s0, initializer_in m0 initializer hinitializer -> new_hmsys N m0 data frame_size = Ok h0 -> new_msys N data frame_size = Ok s0 ->
  (forall es os h, hmsteps N Sp pow log exp cpus D conf hinitializer h0 es os h ->
     exists s, msteps N Sp pow log exp cpus D conf initializer s0 (map event_of es) os s /\ read (hs_mem h) (hs_centroids h) = ms_centroids s /\ hs_ready h = ms_ready s) /\
  (forall es os s, msteps N Sp pow log exp cpus D conf initializer s0 es os s -> ~ In OutPanic os ->
     exists es' h, map event_of es' = es /\ hmsteps N Sp pow log exp cpus D conf hinitializer h0 es' os h).
Proof. intros E F G I. exact (@mcmc_heap_values E F G I). Qed.
Print Assumptions C112_values.

(** Clust.Initializer, which gives the slice of the client, and the initializers that fill a new slice meet the hypothesis. *)
Theorem C112_initializers : forall E I (m0 : mem E),
  (forall initializer : I -> Z -> list E -> outcome (list (option E) * option init_error), initializer_in m0 initializer (in_new_slice initializer)) /\
  (forall t, valid m0 t -> initializer_in m0 (the_elements (read m0 t)) (the_slice t)).
Proof. intros E I m0. exact (conj (fun initializer => new_slice_in initializer m0) (the_slice_in m0)). Qed.
Print Assumptions C112_initializers.

(** The client's slice is published, then two centers (accepted, one goroutine after the other in either order), then one
    center is rejected. *)
Example C112_case : let m0 := [[Some (v64 [0]%Z)]] in let t := mkSlice 0 1 in
  let sp := euclid_space B64Num in let show := map (option_map (map show64)) in let z := map (fun z => Some (map show64 (v64 [z]))) in
  let threequarters := b64_div (b64_of_Z 3) (b64_of_Z 4) in
  let steps := hmsteps B64Num sp (fun x _ => b64_mul x x) (fun x => x) (fun x => x) 2 (dirac B64Num) conf64 (the_slice t) in
  exists h0 os1 h1 os2 h2, new_hmsys B64Num m0 [v64 [0]; v64 [2]]%Z 0 = Ok h0 /\ steps h0 [HEvPush (v64 [10]%Z) false; HEvInit tt] os1 h1 /\
    steps h1 [HEvIterate (draw64 threequarters (b64_of_Z 0)) [1; 0; 1]; HEvIterate (draw64 quarter (b64_of_Z 0)) [0; 1; 1]] os2 h2 /\
    hs_centroids h1 = t /\ sl_arr (hs_centroids h2) <> 0 /\ show (read (hs_mem h2) (hs_centroids h2)) = z [1; 10]%Z /\ show (read (hs_mem h2) t) = z [0]%Z /\
    map fst (hm_store (hs_impl h2)) = [2]%Z /\ hp_centers (hm_current (hs_impl h2)) = hs_centroids h2 /\ length (hs_mem h2) = 12.
Proof.
  cbv zeta. set (m0 := [[Some (v64 [0]%Z)]]). set (t := mkSlice 0 1).
  set (es1 := [HEvPush (v64 [10]%Z) false; HEvInit tt] : list (hmevent (list b64) b64 unit unit)).
  set (es2 := [HEvIterate (draw64 (b64_div (b64_of_Z 3) (b64_of_Z 4)) (b64_of_Z 0)) [1; 0; 1]; HEvIterate (draw64 quarter (b64_of_Z 0)) [0; 1; 1]] : list (hmevent (list b64) b64 unit unit)).
  pose (run := hrun B64Num (euclid_space B64Num) (fun x _ => b64_mul x x) (fun x => x) (fun x => x) 2 (dirac B64Num) conf64 (the_slice t)).
  assert (V : match new_hmsys B64Num m0 [v64 [0]; v64 [2]]%Z 0 with
    | Ok h0 => match run h0 es1 with
      | Some (_, h1) => match run h1 es2 with
        | Some (_, h2) => hs_centroids h1 = t /\ sl_arr (hs_centroids h2) <> 0 /\
            map (option_map (map show64)) (read (hs_mem h2) (hs_centroids h2)) = map (fun z => Some (map show64 (v64 [z]))) [1; 10]%Z /\
            map (option_map (map show64)) (read (hs_mem h2) t) = map (fun z => Some (map show64 (v64 [z]))) [0]%Z /\
            map fst (hm_store (hs_impl h2)) = [2]%Z /\ hp_centers (hm_current (hs_impl h2)) = hs_centroids h2 /\ length (hs_mem h2) = 12
        | None => False end
      | None => False end
    | Panic => False end).
  { vm_compute. repeat split; try discriminate. }
  destruct (new_hmsys B64Num m0 [v64 [0]; v64 [2]]%Z 0) as [h0|]; [|contradiction]. destruct (run h0 es1) as [[os1 h1]|] eqn:H1; [|contradiction].
  destruct (run h1 es2) as [[os2 h2]|] eqn:H2; [|contradiction]. exists h0, os1, h1, os2, h2. split; [reflexivity|]. apply hrun_ok in H1. apply hrun_ok in H2. split; [exact H1|]. split; [exact H2|exact V].
Qed.
