(** Series in k-means and MCMC. *)
From Coq Require Import List ZArith Lia Bool Reals Lra.
From Verif Require Import Base.Go Base.Num Model.Clustering Model.Par Model.Buffer Model.Euclid Model.Dtw Model.DtwSpace Model.Kmeans Model.KmeansInit Model.Mcmc
  Model.Status Model.Finish Model.CtrlLang Model.CtrlCode Model.CtrlSeq Model.System
  Spec.DtwSpec Spec.FloatSpec Spec.KmeansSpec Spec.NearestSpec Spec.McmcSpec Spec.SystemSpec
  Proofs.NumLaws Proofs.FloatKmeans Proofs.DtwBounded Proofs.SystemKmeans Proofs.SystemMain Proofs.SystemMcmcMain.
Import ListNotations.
Local Open Scope Z_scope.

Lemma series_kmeans : forall pdist k d window (D : Type)
  (initializer : D -> list (list (list b64)) -> option (option (list (list (list b64))) * option nat)) par cf size kc elemts xs b0 q b,
  -1074 <= k <= 970 -> 0 < window -> valid_par par -> (0 < kc)%nat ->
  let P := series (box_vec k d) (2 ^ 53 - 1) in
  let im := kmeans_implem B64Num (dtw_space B64Num b64_inf pdist (scombine (euclid_space B64Num)) window) initializer par in
  initializes initializer kc P -> new_data_buffer elemts size = Ok b0 -> Forall P elemts -> pushes_only P xs ->
  sys_acts cf im xs (seq0, b0) = Some (q, b) -> Z.of_nat (length elemts) + total_pushed (q_log q) <= 2 ^ 53 - 1 ->
  (forall c, m_centroids (q_model q) = Some c -> Forall P c) /\
  (st_alive (q_status q) = true -> (exists c, m_centroids (q_model q) = Some c /\ length c = kc) /\
     forall dr, exists b' c', im_iterate im dr b (m_centroids (q_model q)) = (b', IterRes (Some c') None None)).
Proof.
  intros pdist k d window D initializer par cf size kc elemts xs b0 q b Hk Hw Hpar Hkc P im Hi Hb HE Hx Hs HM.
  destruct (kmeans_use B64Num _ B64NumOrd _ initializer par cf size kc P (2 ^ 53 - 1) elemts Hpar Hkc (series_float64 pdist k d window Hk Hw) Hi xs b0 q b Hb HE Hx Hs HM)
    as (_ & _ & _ & H1 & H2). auto.
Qed.

Lemma series_dim_main : forall F G I (N : Num F) inf pdist pcombine window pow log exp cpus (D : distrib (list (list F)) F G) conf
  (initializer : I -> Z -> list (list (list F)) -> outcome (list (option (list (list F))) * option init_error)) (d : nat),
  let P := fun s : list (list F) => s <> [] /\ Forall (fun p => length p = d) s in
  init_exact initializer ->
  (forall i k data c, Forall P data -> initializer i k data = Ok (map Some c, None) -> Forall P c) ->
  forall data size s0 es os s, Forall P data -> new_msys N data size = Ok s0 ->
  Forall (fun e => match e with EvPush x _ => P x | _ => True end) es ->
  msteps N (dtw_space N inf pdist pcombine window) pow log exp cpus D conf initializer s0 es os s -> ms_ready s = true ->
  mi_dim (ms_impl s) = Z.of_nat d.
Proof.
  intros F G I N inf pdist pcombine window pow log exp cpus D conf initializer d P Hex Hini data size s0 es os s HD Hn He H Hr.
  destruct (dim_main N _ pow log exp cpus D conf initializer P Hex Hini data size s0 es os s HD Hn He H Hr) as (x & l & Hx & ->).
  inversion Hx as [|x' l' [H1 H2] _]; subst. destruct x as [|p x]; [congruence|]. inversion H2; subst. reflexivity.
Qed.

(** Two clusters of series with different lengths. *)
Definition dtw1 := kmeans_implem B64Num (dtw_space B64Num b64_inf edist64 (scombine (euclid_space B64Num)) 2)
  (with_given (dtw_space B64Num b64_inf edist64 (scombine (euclid_space B64Num)) 2) 1) None.
Definition dtw_session : list (sys_action (list (list b64)) unit) :=
  [YCall (YPush (series64 [0; 2; 4]) 1) 1; YCall (YPush (series64 [4; 6; 6]) 2) 2; YCall (YPlay tt) 3; YProgress (STurn tt 0 4)].
Definition bufferS : buffer (list (list b64)) := match new_data_buffer [] 0 with Ok b => b | Panic => mkBuffer [] [] InfiniteSize end.
Definition show_series (r : option (seq_st (list (list (list b64))) * buffer (list (list b64)))) :=
  match r with
  | Some (q, _) => Some (q_status q, total_saved (q_log q), option_map (map (map (map show64))) (m_centroids (q_model q)))
  | None => None
  end.
