(** C86-C90: the controller with k-means and with streaming, for one client. *)
From Coq Require Import List ZArith Lia Bool Reals.
From Verif Require Import Base.Go Base.Num Model.Clustering Model.Par Model.Buffer Model.Euclid Model.Kmeans Model.KmeansInit Model.Streaming
  Model.Status Model.Finish Model.CtrlLang Model.CtrlCode Model.CtrlSeq Model.System
  Spec.ClusterSpec Spec.BufferSpec Spec.RealSpec Spec.KmeansSpec Spec.NearestSpec Spec.FloatSpec Spec.StreamingSpec Spec.CtrlSpec Spec.CtrlSeqSpec Spec.SystemSpec
  Proofs.NumLaws Proofs.FloatKmeans Proofs.StreamingProofs Proofs.CtrlSeqEx Proofs.SystemKmeans Proofs.SystemKmeansBatch Proofs.SystemStreaming Proofs.SystemMain Proofs.SystemRebatch.
Import ListNotations.
Local Open Scope Z_scope.
Local Notation euclid := (euclid_space RNum).
Local Notation euclid64 := (euclid_space B64Num).

(** Any calls of one client, any schedule of the run goroutine. *)
Theorem C86_use : forall (E F : Type) (N : Num F) good, NumOrd N good -> forall (Sp : Space E F) (D : Type)
  (initializer : D -> list E -> option (option (list E) * option nat)) par cf size k (P : E -> Prop) M elemts,
  valid_par par -> (0 < k)%nat -> kept Sp M P -> initializes initializer k P -> forall xs b0 q b,
  new_data_buffer elemts size = Ok b0 -> Forall P elemts -> pushes_only P xs ->
  sys_acts cf (kmeans_implem N Sp initializer par) xs (seq0, b0) = Some (q, b) -> Z.of_nat (length elemts) + total_pushed (q_log q) <= M ->
  Forall P (bdata b ++ bpipe b) /\
  (size <= 0 -> Z.of_nat (length (bdata b ++ bpipe b)) = Z.of_nat (length elemts) + total_pushed (q_log q)) /\
  (0 < size -> Z.of_nat (length (bdata b)) <= size) /\
  (forall c, m_centroids (q_model q) = Some c -> Forall P c) /\
  (st_alive (q_status q) = true ->
     (exists c, m_centroids (q_model q) = Some c /\ length c = k) /\
     forall d, exists b' c', im_iterate (kmeans_implem N Sp initializer par) d b (m_centroids (q_model q)) = (b', IterRes (Some c') None None)).
Proof. exact @kmeans_use. Qed.
Print Assumptions C86_use.

Theorem C86_float64 : forall k d, -1074 <= k <= 970 -> kept euclid64 (2 ^ 53 - 1) (box_vec k d).
Proof. exact kept_box. Qed.
Print Assumptions C86_float64.

Theorem C86_given : forall (E F : Type) (Sp : Space E F) (P : E -> Prop), (forall x, P x -> P (scopy Sp x)) ->
  forall k, 1 <= k -> initializes (with_given Sp k) (Z.to_nat k) P.
Proof. exact @given_initializes. Qed.
Print Assumptions C86_given.

Theorem C86_rand : forall (E F : Type) (Sp : Space E F) (P : E -> Prop), (forall x, P x -> P (scopy Sp x)) ->
  forall k, 1 <= k -> initializes (with_rand Sp k) (Z.to_nat k) P.
Proof. exact @rand_initializes. Qed.
Print Assumptions C86_rand.

Theorem C86_pp : forall (E F : Type) (N : Num F) (Sp : Space E F) (P : E -> Prop), (forall x, P x -> P (scopy Sp x)) ->
  forall degree k, 1 <= k -> initializes (with_pp N Sp degree k) (Z.to_nat k) P.
Proof. exact @pp_initializes. Qed.
Print Assumptions C86_pp.

(** Two pushes, Play, a push and two turns. *)
Example C86_case : valid_par None /\ kept euclid64 (2 ^ 53 - 1) (box_vec 4 1) /\
  initializes (with_given euclid64 1) 1 (box_vec 4 1) /\ pushes_only (box_vec 4 1) kmeans_session /\
  new_data_buffer [] 0 = Ok buffer0 /\
  show_sys (is_value 4) (sys_acts conf_free kmeans1 kmeans_session (seq0, buffer0)) = Some (new_status Running, 1, 3, true).
Proof.
  split; [exact I|]. split; [apply kept_box; lia|]. split; [apply given_initializes; auto; lia|]. split; [exact session_pushes|].
  split; [reflexivity|]. vm_compute. reflexivity.
Qed.

(** Batch in any state: what it does with the result of the initializer. *)
Theorem C87_batch : forall (E F : Type) (N : Num F) good, NumOrd N good -> forall (Sp : Space E F) (D : Type)
  (initializer : D -> list E -> option (option (list E) * option nat)) par cf size k (P : E -> Prop) M elemts,
  valid_par par -> (0 < k)%nat -> kept Sp M P -> initializes initializer k P -> forall xs b0 q b n,
  new_data_buffer elemts size = Ok b0 -> Forall P elemts -> pushes_only P xs ->
  sys_acts cf (kmeans_implem N Sp initializer par) xs (seq0, b0) = Some (q, b) -> Z.of_nat (length elemts) + total_pushed (q_log q) <= M ->
  q_locked q = false -> only_budget cf -> cf_timeout cf = false ->
  n = (if status_eqb (st_value (q_status q)) Created then CtrlSpec.pushes (q_log q) else 0) -> n <= 2 ^ 53 -> budget cf n <= 2 ^ 53 ->
  exists b1, buffer_apply b = Ok b1 /\ Forall P (bdata b1) /\
    (size <= 0 -> Z.of_nat (length (bdata b1)) = Z.of_nat (length elemts) + total_pushed (q_log q)) /\
    forall d start mid ps now,
      match initializer d (bdata b1) with
      | None => sys_do cf (kmeans_implem N Sp initializer par) (YBatch d start mid ps) now (q, b) = None
      | Some (c0, Some m) => exists q', sys_do cf (kmeans_implem N Sp initializer par) (YBatch d start mid ps) now (q, b) = Some ((q', b1), Some (ErrImpl m)) /\
          q_locked q' = true /\ q_status q' = new_status_error (ErrImpl m) /\ m_centroids (q_model q') = c0
      | Some (o, None) => exists c0 c, o = Some c0 /\ iterations N Sp par (bdata b1) (Z.to_nat (budget cf n)) c0 c /\
          (forall q' b' e, sys_do cf (kmeans_implem N Sp initializer par) (YBatch d start mid ps) now (q, b) = Some ((q', b'), e) ->
             e = None /\ b' = b1 /\ q_status q' = new_status Finished /\ q_locked q' = false /\
             m_centroids (q_model q') = Some c /\ iterations_saved (q_log q') = budget cf n) /\
          (ps <> [] -> budget cf n <= Z.of_nat (turns (mid ++ concat (map snd (removelast ps)))) ->
             sys_do cf (kmeans_implem N Sp initializer par) (YBatch d start mid ps) now (q, b) <> None)
      end.
Proof. exact @kmeans_batch_main. Qed.
Print Assumptions C87_batch.

(** The elements given and pushed to a new algorithm, then Batch. *)
Theorem C87_new : forall (E F : Type) (N : Num F) good, NumOrd N good -> forall (Sp : Space E F) (D : Type)
  (initializer : D -> list E -> option (option (list E) * option nat)) par cf size k (P : E -> Prop) M elemts,
  valid_par par -> (0 < k)%nat -> kept Sp M P -> initializes initializer k P -> forall l b0,
  new_data_buffer elemts size = Ok b0 -> Forall P elemts -> Forall P (elements_of l) ->
  Z.of_nat (length elemts) + Z.of_nat (length l) <= M -> only_budget cf -> cf_timeout cf = false ->
  Z.of_nat (length l) <= 2 ^ 53 -> budget cf (Z.of_nat (length l)) <= 2 ^ 53 ->
  exists q b data, sys_acts cf (kmeans_implem N Sp initializer par) (push_all l) (seq0, b0) = Some (q, b) /\
    (size <= 0 -> data = elemts ++ elements_of l) /\
    (0 < size -> rotation data (last_n (Z.to_nat size) (elemts ++ elements_of l))) /\
    forall d c0, initializer d data = Some (Some c0, None) ->
    exists c, iterations N Sp par data (Z.to_nat (budget cf (Z.of_nat (length l)))) c0 c /\
      forall start mid ps now,
      (forall q' b' e, sys_do cf (kmeans_implem N Sp initializer par) (YBatch d start mid ps) now (q, b) = Some ((q', b'), e) ->
         e = None /\ q_status q' = new_status Finished /\ m_centroids (q_model q') = Some c /\
         iterations_saved (q_log q') = budget cf (Z.of_nat (length l))) /\
      (ps <> [] -> budget cf (Z.of_nat (length l)) <= Z.of_nat (turns (mid ++ concat (map snd (removelast ps)))) ->
         sys_do cf (kmeans_implem N Sp initializer par) (YBatch d start mid ps) now (q, b) <> None).
Proof. exact @kmeans_new_main. Qed.
Print Assumptions C87_new.

(** Real vectors: the loss does not exceed that of the initialization, and with a large budget an iteration changes nothing. *)
Theorem C87_euclid : forall (pow : R -> R -> R), (forall x, (0 <= x)%R -> pow x 2%R = (x * x)%R) ->
  forall (D : Type) (initializer : D -> list (list R) -> option (option (list (list R)) * option nat)) par cf size k d elemts l b0,
  valid_par par -> (0 < k)%nat -> initializes initializer k (fun v => length v = d) ->
  new_data_buffer elemts size = Ok b0 -> all_dim d elemts -> all_dim d (elements_of l) ->
  only_budget cf -> cf_timeout cf = false ->
  Z.of_nat (length l) <= 2 ^ 53 -> budget cf (Z.of_nat (length l)) <= 2 ^ 53 ->
  exists q b data, sys_acts cf (kmeans_implem RNum euclid initializer par) (push_all l) (seq0, b0) = Some (q, b) /\
    (size <= 0 -> data = elemts ++ elements_of l) /\
    (0 < size -> rotation data (last_n (Z.to_nat size) (elemts ++ elements_of l))) /\
    forall dr c0, initializer dr data = Some (Some c0, None) ->
    exists c l0 l1, length c = k /\ total_loss RNum euclid pow c0 data 2%R = Ok l0 /\ total_loss RNum euclid pow c data 2%R = Ok l1 /\ (l1 <= l0)%R /\
      (Z.of_nat ((k + 2 ^ length data) ^ k) <= budget cf (Z.of_nat (length l)) -> strategy_iterate RNum euclid par c data = Ok (map Some c)) /\
      forall start mid ps now,
      (forall q' b' e, sys_do cf (kmeans_implem RNum euclid initializer par) (YBatch dr start mid ps) now (q, b) = Some ((q', b'), e) ->
         e = None /\ q_status q' = new_status Finished /\ m_centroids (q_model q') = Some c) /\
      (ps <> [] -> budget cf (Z.of_nat (length l)) <= Z.of_nat (turns (mid ++ concat (map snd (removelast ps)))) ->
         sys_do cf (kmeans_implem RNum euclid initializer par) (YBatch dr start mid ps) now (q, b) <> None).
Proof. exact kmeans_euclid_main. Qed.
Print Assumptions C87_euclid.

Example C87_case : only_budget conf_per_data /\ cf_timeout conf_per_data = false /\ budget conf_per_data 2 = 4 /\
  show_sys (is_value 4) (sys_acts conf_per_data kmeans1 (firstn 3 batch_twice) (seq0, buffer0)) = Some (new_status Finished, 4, 2, true).
Proof.
  split; [repeat split; try (right; reflexivity); discriminate|]. split; [reflexivity|]. split; [reflexivity|]. exact batch_first.
Qed.

(** Streaming: the history is one of Model/Streaming.v (C32-C38, C81 apply), nothing is lost, iterations do not fail. *)
Theorem C88_streaming : forall (E F : Type) (N : Num F) good, NumOrd N good -> forall (Sp : Space E F) bs oa ratio to64 cf (P : E -> Prop) elemts xs q s,
  Z.of_nat (length elemts) <= bs -> pushes_only P xs ->
  sys_acts cf (streaming_implem N Sp bs oa ratio to64) xs (seq0, new_streaming N elemts) = Some (q, s) ->
  exists ops rs, sexec N Sp bs oa ratio (new_streaming N elemts) ops rs s /\ init_first rs /\
    Z.of_nat (length (accepted ops rs)) = total_pushed (q_log q) /\ Forall P (accepted ops rs) /\
    zsum (s_cards s) + Z.of_nat (length (s_queue s)) = Z.of_nat (length elemts) + total_pushed (q_log q) /\
    Z.of_nat (length (s_queue s)) <= bs /\
    (forall c, m_centroids (q_model q) = Some c -> c <> [] /\ end_of c (s_clust s)) /\
    (st_alive (q_status q) = true -> m_centroids (q_model q) <> None /\
       forall t, exists s' c' f, im_iterate (streaming_implem N Sp bs oa ratio to64) t s (m_centroids (q_model q)) = (s', IterRes c' f None)).
Proof. exact @streaming_use. Qed.
Print Assumptions C88_streaming.

Example C88_case : NumOrd B64Num not_nan64 /\ Z.of_nat (length [true; false; true]) <= 10 /\ pushes_only (fun _ => True) reinit /\
  match sys_acts conf_free streaming2 (firstn 5 reinit) (seq0, new_streaming B64Num [true; false; true]) with
  | Some (q, s) => s_cards s = [2; 1] /\ s_queue s = [true] /\ total_pushed (q_log q) = 1 /\ m_centroids (q_model q) = Some [true; false]
  | None => False
  end.
Proof.
  split; [exact B64NumOrd|]. split; [discriminate|]. split; [intros x t now _; exact I|]. vm_compute. auto.
Qed.

(** Two pushes, Batch, a push, Batch: the second Batch does no iteration. *)
Theorem C89_budget_refuted : exists q b q' b',
  sys_acts conf_per_data kmeans1 (firstn 4 batch_twice) (seq0, buffer0) = Some (q, b) /\ total_pushed (q_log q) = 3 /\
  sys_do conf_per_data kmeans1 (YBatch tt 7 [] [(8, four_turns); (9, [])]) 9 (q, b) = Some ((q', b'), None) /\
  q_status q' = new_status Finished /\ iterations_saved (q_log q') = 0 /\ budget conf_per_data 3 = 6.
Proof. exact batch_unused. Qed.
Print Assumptions C89_budget_refuted.

(** With a fixed number of iterations (Iter, and IterPerData 0) a Batch after further pushes does process them. *)
Theorem C89_iter_partial : forall (E F : Type) (N : Num F) good, NumOrd N good -> forall (Sp : Space E F) (D : Type)
  (initializer : D -> list E -> option (option (list E) * option nat)) par cf size k (P : E -> Prop) M elemts,
  valid_par par -> (0 < k)%nat -> kept Sp M P -> initializes initializer k P -> forall xs b0 q b l,
  new_data_buffer elemts size = Ok b0 -> Forall P elemts -> pushes_only P xs -> Forall P (elements_of l) ->
  sys_acts cf (kmeans_implem N Sp initializer par) xs (seq0, b0) = Some (q, b) -> st_value (q_status q) = Finished -> q_locked q = false ->
  Z.of_nat (length elemts) + total_pushed (q_log q) + Z.of_nat (length l) <= M ->
  only_budget cf -> cf_timeout cf = false -> cf_ipd cf = 0 -> cf_iter cf <= 2 ^ 53 ->
  exists q1 b1 data, sys_acts cf (kmeans_implem N Sp initializer par) (push_all l) (q, b) = Some (q1, b1) /\
    (size <= 0 -> data = bdata b ++ elements_of l ++ bpipe b) /\
    (0 < size -> exists old, rotation (bdata b) (last_n (Z.to_nat size) old) /\ rotation data (last_n (Z.to_nat size) (old ++ elements_of l ++ bpipe b))) /\
    forall d c0, initializer d data = Some (Some c0, None) ->
    exists c, iterations N Sp par data (Z.to_nat (cf_iter cf)) c0 c /\
      forall start mid ps now,
      (forall q' b' e, sys_do cf (kmeans_implem N Sp initializer par) (YBatch d start mid ps) now (q1, b1) = Some ((q', b'), e) ->
         e = None /\ q_status q' = new_status Finished /\ m_centroids (q_model q') = Some c /\ iterations_saved (q_log q') = cf_iter cf) /\
      (ps <> [] -> cf_iter cf <= Z.of_nat (turns (mid ++ concat (map snd (removelast ps)))) ->
         sys_do cf (kmeans_implem N Sp initializer par) (YBatch d start mid ps) now (q1, b1) <> None).
Proof. exact @rebatch_main. Qed.
Print Assumptions C89_iter_partial.

Example C89_case : only_budget conf_two /\ cf_ipd conf_two = 0 /\ cf_iter conf_two = 2 /\ new_data_buffer [] 0 = Ok buffer0 /\
  show_sys (is_value 4) (sys_acts conf_two kmeans1 first_batch (seq0, buffer0)) = Some (new_status Finished, 2, 2, true) /\
  show_sys (is_value 6) (sys_acts conf_two kmeans1 (first_batch ++ push_all later ++ [YCall (YBatch tt 7 [] [(8, four_turns); (9, [])]) 9]) (seq0, buffer0)) = Some (new_status Finished, 2, 3, true).
Proof. exact rebatch_case. Qed.

(** Play, two turns, Stop, a push, Init: the centers of the three first elements are not published any more. *)
Theorem C90_published_refuted : exists q s, sys_acts conf_free streaming2 reinit (seq0, new_streaming B64Num [true; false; true]) = Some (q, s) /\
  q_status q = new_status Ready /\ m_centroids (q_model q) = Some [true] /\ s_clust s = [true; false; true] /\ s_cards s = [2; 1; 1] /\ s_queue s = [].
Proof. exact reinit_ex. Qed.
Print Assumptions C90_published_refuted.

(** What is published is always the end of the list of centers. *)
Theorem C90_published_partial : forall (E F : Type) (N : Num F) good, NumOrd N good -> forall (Sp : Space E F) bs oa ratio to64 cf (P : E -> Prop) elemts xs q s c,
  Z.of_nat (length elemts) <= bs -> pushes_only P xs ->
  sys_acts cf (streaming_implem N Sp bs oa ratio to64) xs (seq0, new_streaming N elemts) = Some (q, s) -> m_centroids (q_model q) = Some c -> c <> [] /\ end_of c (s_clust s).
Proof. exact @published_main. Qed.
Print Assumptions C90_published_partial.

Example C90_case : end_of [true] [true; false; true] /\ ~ end_of [false] [true; false; true].
Proof. split; [exists [true; false]; reflexivity|]. intros ([|[] [|[] [|[] [|? ?]]]] & H); discriminate H. Qed.
