(** C93, C94: series as elements of the clustering algorithms. *)
From Coq Require Import List ZArith Lia Bool.
From Verif Require Import Base.Go Base.Num Model.Clustering Model.Par Model.Buffer Model.Euclid Model.Dtw Model.DtwSpace Model.Kmeans Model.KmeansInit Model.Mcmc
  Model.Status Model.Finish Model.CtrlLang Model.CtrlCode Model.CtrlSeq Model.System
  Spec.DtwSpec Spec.FloatSpec Spec.KmeansSpec Spec.NearestSpec Spec.McmcSpec Spec.SystemSpec
  Proofs.FloatKmeans Proofs.CtrlSeqEx Proofs.SystemMain Proofs.DtwBounded Proofs.DtwSystem.
Import ListNotations.
Local Open Scope Z_scope.

(** Dist and Combine of non-empty series do not panic; the average is no longer than the longest series. *)
Theorem C94_total : forall (F : Type) (N : Num F) inf (pdist : list F -> list F -> F) pcombine (Q : list F -> Prop) M,
  (forall a wa b wb, Q a -> Q b -> 0 < wa -> 0 < wb -> wa + wb <= M -> Q (pcombine a wa b wb)) ->
  forall (L : Z) (a b : list (list F)) window wa wb,
  0 < window -> L <= M -> series Q L a -> series Q L b -> 0 < wa -> 0 < wb -> wa + wb <= M ->
  (exists v, dtw_dist N inf pdist pcombine window a b = Ok v) /\
  (exists r, dtw_combine N inf pdist pcombine window a wa b wb = Ok r /\ series Q L r).
Proof. exact @series_total. Qed.
Print Assumptions C94_total.

(** The hypothesis of C86-C88 on the space. *)
Theorem C94_kept : forall (F : Type) (N : Num F) inf (pdist : list F -> list F -> F) pcombine (Q : list F -> Prop) M,
  (forall a wa b wb, Q a -> Q b -> 0 < wa -> 0 < wb -> wa + wb <= M -> Q (pcombine a wa b wb)) ->
  forall L window,
  0 < window -> L <= M -> kept (dtw_space N inf pdist pcombine window) M (series Q L).
Proof. exact @series_kept. Qed.
Print Assumptions C94_kept.

(** Float64 points in a box: the averages are in the box. *)
Theorem C94_float64 : forall pdist k d window, -1074 <= k <= 970 -> 0 < window ->
  kept (dtw_space B64Num b64_inf pdist (scombine (euclid_space B64Num)) window) (2 ^ 53 - 1) (series (box_vec k d) (2 ^ 53 - 1)).
Proof. exact series_float64. Qed.
Print Assumptions C94_float64.

(** k-means on float64 series, used through the controller. *)
Theorem C94_kmeans : forall pdist k d window (D : Type)
  (initializer : D -> list (list (list b64)) -> option (option (list (list (list b64))) * option nat)) par cf size kc elemts xs b0 q b,
  -1074 <= k <= 970 -> 0 < window -> valid_par par -> (0 < kc)%nat ->
  let P := series (box_vec k d) (2 ^ 53 - 1) in
  let im := kmeans_implem B64Num (dtw_space B64Num b64_inf pdist (scombine (euclid_space B64Num)) window) initializer par in
  initializes initializer kc P -> new_data_buffer elemts size = Ok b0 -> Forall P elemts -> pushes_only P xs ->
  sys_acts cf im xs (seq0, b0) = Some (q, b) -> Z.of_nat (length elemts) + total_pushed (q_log q) <= 2 ^ 53 - 1 ->
  (forall c, m_centroids (q_model q) = Some c -> Forall P c) /\
  (st_alive (q_status q) = true -> (exists c, m_centroids (q_model q) = Some c /\ length c = kc) /\
     forall dr, exists b' c', im_iterate im dr b (m_centroids (q_model q)) = (b', IterRes (Some c') None None)).
Proof. exact series_kmeans. Qed.
Print Assumptions C94_kmeans.

Example C94_case : series (box_vec 4 1) (2 ^ 53 - 1) (series64 [0; 2; 4]) /\ series (box_vec 4 1) (2 ^ 53 - 1) (series64 [4; 6; 6]) /\
  initializes (with_given (dtw_space B64Num b64_inf edist64 (scombine (euclid_space B64Num)) 2) 1) 1 (series (box_vec 4 1) (2 ^ 53 - 1)) /\
  new_data_buffer [] 0 = Ok bufferS /\
  show_series (sys_acts conf_free dtw1 dtw_session (seq0, bufferS)) = Some (new_status Running, 1, Some [map (map show64) (series64 [2; 4; 5])]).
Proof.
  assert (H : forall z, Z.abs z <= 16 -> box_vec 4 1 [b64_of_Z z]) by (intros z Hz; apply (box_of_Zs 4 [z]); [lia|]; cbn; rewrite andb_true_r; apply Z.leb_le; exact Hz).
  split; [split; [discriminate|]; split; [vm_compute; discriminate|]; repeat (constructor; [apply H; lia|]); constructor|].
  split; [split; [discriminate|]; split; [vm_compute; discriminate|]; repeat (constructor; [apply H; lia|]); constructor|].
  split; [apply (given_initializes (dtw_space B64Num b64_inf edist64 (scombine (euclid_space B64Num)) 2)); auto; lia|].
  split; [reflexivity|]. vm_compute. reflexivity.
Qed.

(** C93 for series: the dimension of their points. *)
Theorem C93_series : forall F G I (N : Num F) inf pdist pcombine window pow log exp cpus (D : distrib (list (list F)) F G) conf
  (initializer : I -> Z -> list (list (list F)) -> outcome (list (option (list (list F))) * option init_error)) (d : nat),
  let P := fun s : list (list F) => s <> [] /\ Forall (fun p => length p = d) s in
  init_exact initializer ->
  (forall i k data c, Forall P data -> initializer i k data = Ok (map Some c, None) -> Forall P c) ->
  forall data size s0 es os s, Forall P data -> new_msys N data size = Ok s0 ->
  Forall (fun e => match e with EvPush x _ => P x | _ => True end) es ->
  msteps N (dtw_space N inf pdist pcombine window) pow log exp cpus D conf initializer s0 es os s -> ms_ready s = true ->
  mi_dim (ms_impl s) = Z.of_nat d.
Proof. exact series_dim_main. Qed.
Print Assumptions C93_series.

