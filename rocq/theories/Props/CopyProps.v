(** C95-C98: copies of algorithms, predictions. *)
From Coq Require Import List ZArith Lia Bool Reals.
From Flocq Require Import IEEE754.BinarySingleNaN.
From Verif Require Import Base.Go Base.Num Model.Clustering Model.Par Model.Buffer Model.Euclid Model.Kmeans Model.KmeansInit Model.Streaming
  Model.Status Model.Finish Model.Conf Model.CtrlLang Model.CtrlCode Model.CtrlSeq Model.System Model.Copy
  Spec.ClusterSpec Spec.BufferSpec Spec.RealSpec Spec.KmeansSpec Spec.NearestSpec Spec.FloatSpec Spec.StreamingSpec Spec.CtrlSpec Spec.CtrlSeqSpec Spec.SystemSpec
  Proofs.NumLaws Proofs.FloatKmeans Proofs.CtrlSeqEx Proofs.SystemMain Proofs.CopyProofs.
Import ListNotations.
Local Open Scope Z_scope.
Local Notation euclid64 := (euclid_space B64Num).

(** k-means with FrameSize 0, sequential, copied with FrameSize 2 and Par: the copy keeps three elements and
    iterates sequentially, as an algorithm created with the new configuration would not. *)
Theorem C95_kmeans_refuted : exists a a' b : kmeans_algo unit Z,
  kmeans_create tt 4 (km_conf false 0) [1; 2; 3] = Ok a /\ kmeans_copy tt 4 a (km_conf true 2) = Ok a' /\
  km_frame_size (ka_conf a') = 2 /\ bdata (ka_buffer a') = [1; 2; 3] /\ km_par (ka_conf a') = true /\ ka_par a' = None /\
  kmeans_create tt 4 (km_conf true 2) [1; 2; 3] = Ok b /\ bdata (ka_buffer b) = [2; 3] /\ ka_par b = Some 4.
Proof. exact copy_frame. Qed.
Print Assumptions C95_kmeans_refuted.

(** Streaming with BufferSize 1 and OutAfter 5, copied with 10 and 2: the copy refuses a second element. *)
Theorem C95_streaming_refuted : exists a a' b : streaming_algo unit bool,
  streaming_create tt (st_conf 1 5) [] = Ok a /\ streaming_copy tt a (st_conf 10 2) = Ok a' /\
  sc_buffer_size (sa_conf a') = 10 /\ sc_out_after (sa_conf a') = 2 /\
  sc_buffer_size (sa_impl_conf a') = 1 /\ sc_out_after (sa_impl_conf a') = 5 /\
  streaming_create tt (st_conf 10 2) [] = Ok b /\ sc_buffer_size (sa_impl_conf b) = 10 /\
  snd (streaming_push (sc_buffer_size (sa_impl_conf a')) (fst (streaming_push (sc_buffer_size (sa_impl_conf a')) (sa_impl a') true)) true) = true.
Proof. exact copy_streaming_conf. Qed.
Print Assumptions C95_streaming_refuted.

(** K and the settings of the controller are those given to Copy; when FrameSize, Par and NumCPU do not change, the
    copy is an algorithm newly created with the configuration and the data held. *)
Theorem C95_conf_partial : forall (G : Type) (rgen0 : G) cpus (E : Type) (a a' : kmeans_algo G E) (c : kmeans_conf G),
  kmeans_copy rgen0 cpus a c = Ok a' ->
  km_k (ka_conf a') = km_k c /\ km_ctrl (ka_conf a') = km_ctrl c /\ ka_ctrl a' = seq0 /\
  (km_frame_size c = km_frame_size (ka_conf a) -> km_par c = km_par (ka_conf a) ->
   (km_par c = true -> default_int (km_num_cpu c) cpus = default_int (km_num_cpu (ka_conf a)) cpus) ->
   kmeans_create rgen0 cpus c (bdata (ka_buffer a)) = Ok a').
Proof. exact @copy_conf_main. Qed.
Print Assumptions C95_conf_partial.

Example C95_case : exists a a' : kmeans_algo unit Z,
  kmeans_create tt 4 (km_conf true 2) [1; 2; 3] = Ok a /\ kmeans_copy tt 4 a (mkKmeansConf ctrl_free true 7 2 None 4) = Ok a' /\
  default_int 4 4 = default_int (km_num_cpu (ka_conf a)) 4 /\ km_k (ka_conf a') = 7 /\ ka_par a' = Some 4 /\ bdata (ka_buffer a') = [2; 3].
Proof. do 2 eexists. repeat (split; [reflexivity|]). reflexivity. Qed.

(** Two centers of three elements and one element to be processed: the copy has the two centers to process. *)
Theorem C96_forgets_refuted : exists (a0 a' : streaming_algo unit bool) q s,
  streaming_create tt (st_conf 10 5) [true; false; true] = Ok a0 /\
  sys_acts (ctrl_of (sc_ctrl (sa_conf a0))) (streaming_of a0) learning (seq0, sa_impl a0) = Some (q, s) /\
  s_clust s = [true; false] /\ s_cards s = [2; 1] /\ s_queue s = [false] /\ b64_eqb (s_max s) (b64_of_Z 3) = true /\
  streaming_copy tt (with_impl a0 s q) (st_conf 10 5) = Ok a' /\
  s_clust (sa_impl a') = [] /\ s_cards (sa_impl a') = [] /\ s_queue (sa_impl a') = [true; false] /\ b64_eqb (s_max (sa_impl a')) (b64_of_Z 0) = true.
Proof. exact copy_forgets. Qed.
Print Assumptions C96_forgets_refuted.

(** More centers than BufferSize: Copy panics. *)
Theorem C96_panics_refuted : exists (a0 : streaming_algo unit bool) q s,
  streaming_create tt (st_conf 1 5) [true] = Ok a0 /\
  sys_acts (ctrl_of (sc_ctrl (sa_conf a0))) (streaming_of a0) two_centers (seq0, sa_impl a0) = Some (q, s) /\
  s_clust s = [true; false] /\ streaming_copy tt (with_impl a0 s q) (sa_conf a0) = Panic.
Proof. exact copy_panics. Qed.
Print Assumptions C96_panics_refuted.

(** What a copy that does not panic holds. *)
Theorem C96_copy_partial : forall (G : Type) (rgen0 : G) (E : Type) (a a' : streaming_algo G E) (c : streaming_conf G),
  streaming_copy rgen0 a c = Ok a' ->
  slen (s_clust (sa_impl a)) <= sc_buffer_size (sa_impl_conf a') /\
  s_queue (sa_impl a') = s_clust (sa_impl a) /\ s_clust (sa_impl a') = [] /\ s_cards (sa_impl a') = [] /\
  s_max (sa_impl a') = b64_of_Z 0 /\ s_count (sa_impl a') = 0 /\ sa_ctrl a' = seq0.
Proof. exact @copy_streaming_main. Qed.
Print Assumptions C96_copy_partial.

Example C96_case : exists a a' : streaming_algo unit bool,
  streaming_create tt (st_conf 3 5) [] = Ok a /\
  streaming_copy tt (with_impl a (mkStreaming (b64_of_Z 3) [true; false] [2; 1] [true] 2) seq0) (st_conf 9 9) = Ok a' /\
  s_queue (sa_impl a') = [true; false].
Proof. do 2 eexists. repeat (split; [reflexivity|]). reflexivity. Qed.

(** Copy of a k-means algorithm in any state a client can bring it to. *)
Theorem C97_batch : forall (G : Type) (rgen0 : G) cpus (E F : Type) (N : Num F) good, NumOrd N good -> forall (Sp : Space E F) (D : Type)
  (initializer : Z -> D -> list E -> option (option (list E) * option nat)) (P : E -> Prop) M (c : kmeans_conf G) elemts a0 xs q b,
  let im a := kmeans_implem N Sp (initializer (km_k (ka_conf a))) (ka_par a) in
  let cf (a : kmeans_algo G E) := ctrl_of (km_ctrl (ka_conf a)) in
  kmeans_create rgen0 cpus c elemts = Ok a0 -> valid_par (ka_par a0) -> kept Sp M P ->
  initializes (initializer (km_k c)) (Z.to_nat (km_k c)) P -> Forall P elemts -> pushes_only P xs ->
  sys_acts (cf a0) (im a0) xs (seq0, ka_buffer a0) = Some (q, b) -> Z.of_nat (length elemts) + total_pushed (q_log q) <= M ->
  exists a', kmeans_copy rgen0 cpus (mkKmeansAlgo (ka_conf a0) (ka_par a0) b q) (ka_conf a0) = Ok a' /\
    ka_conf a' = ka_conf a0 /\ ka_par a' = ka_par a0 /\ ka_ctrl a' = seq0 /\ bdata (ka_buffer a') = bdata b /\
    let cc := km_ctrl (ka_conf a0) in
    (bpipe b = [] -> q_locked q = false -> cc_finishing cc = None -> cc_timeout cc <= 0 -> 0 <= cc_iter cc <= 2 ^ 53 -> 0 <= cc_iter_per_data cc ->
     0 < cc_iter cc \/ 0 < cc_iter_per_data cc -> cc_iter_per_data cc = 0 \/ st_value (q_status q) <> Created ->
     CtrlSpec.pushes (q_log q) <= 2 ^ 53 ->
     forall d start mid ps now start' mid' ps' now' q1 b1 e1 q2 b2 e2,
       sys_do (cf a0) (im a0) (YBatch d start mid ps) now (q, b) = Some ((q1, b1), e1) ->
       sys_do (cf a') (im a') (YBatch d start' mid' ps') now' (ka_ctrl a', ka_buffer a') = Some ((q2, b2), e2) ->
       e1 = e2 /\ q_status q1 = q_status q2 /\ m_centroids (q_model q1) = m_centroids (q_model q2) /\ bdata b1 = bdata b2).
Proof. exact @copy_batch_main. Qed.
Print Assumptions C97_batch.

(** Two pushes and a Batch, then Batch on the algorithm and on its copy. *)
Example C97_case : only_budget (ctrl_of ctrl1) /\ initializes (with_given euclid64 1) (Z.to_nat 1) (box_vec 4 1) /\
  match kmeans_create tt 4 (km_conf false 3) [] with Panic => False | Ok a0 =>
    match sys_acts (ctrl_of ctrl1) kmeans1 copied (seq0, ka_buffer a0) with None => False | Some (q, b) =>
      bpipe b = [] /\ q_locked q = false /\ st_value (q_status q) = Finished /\
      match kmeans_copy tt 4 (mkKmeansAlgo (ka_conf a0) (ka_par a0) b q) (ka_conf a0) with Panic => False | Ok a' =>
        match sys_do (ctrl_of ctrl1) kmeans1 (YBatch tt 7 [] [(8, four_turns); (9, [])]) 9 (q, b),
              sys_do (ctrl_of ctrl1) kmeans1 (YBatch tt 1 four_turns [(2, []); (3, [])]) 3 (ka_ctrl a', ka_buffer a') with
        | Some ((q1, b1), None), Some ((q2, b2), None) =>
            option_map (is_value 4) (m_centroids (q_model q1)) = Some true /\ option_map (is_value 4) (m_centroids (q_model q2)) = Some true
        | _, _ => False
        end end end end.
Proof.
  split; [repeat split; try (left; reflexivity); discriminate|]. split; [apply given_initializes; auto; lia|].
  vm_compute. repeat split; reflexivity.
Qed.

(** After a failed Init with RandInitializer or PPInitializer the centroids are nil elements. *)
Theorem C98_predict_refuted : exists q q',
  after_init (rand_initializer euclid64 2 [v64 [5]] []) = Some (q, Some (ErrImpl 2)) /\ st_value (q_status q) = Finished /\
  predict_opt B64Num euclid64 (m_centroids (q_model q)) (v64 [5]) = Panic /\
  after_init (Some (pp_initializer B64Num euclid64 4 2 [v64 [5]] 0 (fun _ => b64_of_Z 0))) = Some (q', Some (ErrImpl 2)) /\ st_value (q_status q') = Finished /\
  predict_opt B64Num euclid64 (m_centroids (q_model q')) (v64 [5]) = Panic.
Proof. exact predict_nil. Qed.
Print Assumptions C98_predict_refuted.

(** Without nil elements it is the nearest centroid of C01, of no centroid if there are none. *)
Theorem C98_values_partial : forall (E F : Type) (N : Num F) (Sp : Space E F) c x,
  predict_opt N Sp (option_map (map Some) c) x = predict N Sp c x.
Proof. exact predict_values. Qed.
Print Assumptions C98_values_partial.

(** k-means and streaming on float64 vectors used by one client; the Clust of a failed initialization taken for nil
    (as GivenInitializer does). *)
Theorem C98_kmeans_partial : forall par cf size k (kc : nat) d (D : Type) (initializer : D -> list (list b64) -> option (option (list (list b64)) * option nat)) elemts,
  valid_par par -> -1074 <= k <= 970 -> (0 < kc)%nat -> initializes initializer kc (box_vec k d) -> forall xs b0 q b,
  new_data_buffer elemts size = Ok b0 -> Forall (box_vec k d) elemts -> pushes_only (box_vec k d) xs ->
  sys_acts cf (kmeans_implem B64Num euclid64 initializer par) xs (seq0, b0) = Some (q, b) ->
  Z.of_nat (length elemts) + total_pushed (q_log q) < 2 ^ 53 ->
  forall x, length x = d -> Forall (fun v => is_finite v = true) x ->
  match m_centroids (q_model q) with
  | None | Some [] => predict B64Num euclid64 (m_centroids (q_model q)) x = Ok (None, -1, b64_of_Z (-1))
  | Some c => exists l cl, predict B64Num euclid64 (m_centroids (q_model q)) x = Ok (Some cl, Z.of_nat l, sdist euclid64 x cl) /\ first_nearest64 euclid64 c x l cl
  end.
Proof. exact kmeans_predict. Qed.
Print Assumptions C98_kmeans_partial.

Theorem C98_streaming_partial : forall bs oa ratio to64 cf k d (elemts : list (list b64)) xs q s,
  -1020 <= k <= 970 -> Z.of_nat (length elemts) <= bs -> Forall (box_vec k d) elemts -> pushes_only (box_vec k d) xs ->
  sys_acts cf (streaming_implem B64Num euclid64 bs oa ratio to64) xs (seq0, new_streaming B64Num elemts) = Some (q, s) ->
  Z.of_nat (length elemts) + total_pushed (q_log q) < 2 ^ 53 ->
  forall x, length x = d -> Forall (fun v => is_finite v = true) x ->
  match m_centroids (q_model q) with
  | None => predict B64Num euclid64 (m_centroids (q_model q)) x = Ok (None, -1, b64_of_Z (-1))
  | Some c => exists l cl, predict B64Num euclid64 (m_centroids (q_model q)) x = Ok (Some cl, Z.of_nat l, sdist euclid64 x cl) /\ first_nearest64 euclid64 c x l cl
  end.
Proof. exact streaming_predict. Qed.
Print Assumptions C98_streaming_partial.

Example C98_case : match sys_acts conf_free kmeans1 kmeans_session (seq0, buffer0) with
  | Some (q, b) => total_pushed (q_log q) = 3 /\
      match predict B64Num euclid64 (m_centroids (q_model q)) (v64 [7]) with Ok (Some _, l, _) => l = 0 | _ => False end
  | None => False
  end.
Proof. vm_compute. split; reflexivity. Qed.
