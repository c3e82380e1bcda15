(** C116, C117: elements of different dimensions. *)
From Coq Require Import List ZArith Lia.
From Verif Require Import Base.Go Base.Num Model.Clustering Model.Par Model.Euclid Model.Cosinus Model.Buffer Model.Kmeans Model.Streaming
  Model.Status Model.CtrlLang Model.CtrlSeq Model.System Model.Checked Spec.NearestSpec Spec.CheckedSpec Proofs.CtrlSeqEx Proofs.CheckedProofs.
Import ListNotations.
Local Open Scope nat_scope.

(** A vector longer than the centroids, two goroutines: the process ends, whereas the panic of the sequential strategy is
    recovered. *)
Theorem C116_process_refuted : exists (c data : list (list b64)) p, Forall (of_dim 2) c /\
  kseq_iterate B64Num k64 c data = Panic /\ kpar_start B64Num k64 2 c data = Ok p /\ fatal k64 c p.
Proof. exact fatal_witness. Qed.
Print Assumptions C116_process_refuted.

(** A vector shorter than the others, first of its cluster: the mean is that of the first coordinates. *)
Theorem C116_truncated_refuted : exists c data : list (list b64), Forall (of_dim 2) c /\
  shown_clust (kseq_iterate B64Num k64 c data) = Some [Some (map show64 (v64 [3]%Z))].
Proof. exact truncated_witness. Qed.
Print Assumptions C116_truncated_refuted.

(** The goroutine that panics has called wg.Done(): its caller may go on, without its data, until the process ends. *)
Theorem C116_skipped_refuted : exists (c data : list (list b64)) p p' r, kpar_start B64Num k64 2 c data = Ok p /\ psteps k64 c p p' /\
  p_dead p' = false /\ In GPanic (p_gors p') /\ p_main p' = Some r /\ shown_clust r = Some [Some (map show64 (v64 [2; 2]%Z))] /\
  shown_clust (kseq_iterate B64Num k64 c data) = None.
Proof. exact skipped_witness. Qed.
Print Assumptions C116_skipped_refuted.

(** Joining without a part: the caller skips the missing parts that come first, and panics itself at one that comes after a
    part that was written. *)
Theorem C116_missing_partial : forall (E F : Type) (K : checked E F) (c : list E) parts,
  kpar_join K c (None :: parts) = kpar_join K c parts /\
  forall n before p rest, before = repeat None n -> fst p <> [] ->
    kpar_join K c (before ++ Some p :: None :: rest) = Panic.
Proof. exact missing_main. Qed.
Print Assumptions C116_missing_partial.

Example C116_missing_case : let p := ([Some (v64 [1; 3]%Z)], [2]%Z) in fst p <> [] /\
  shown_clust (kpar_join k64 [v64 [0; 0]%Z] [None; None; Some p]) = Some [Some (map show64 (v64 [1; 3]%Z))] /\
  kpar_join k64 [v64 [0; 0]%Z] [None; Some p; None] = Panic.
Proof. split; [discriminate|]. split; vm_compute; reflexivity. Qed.

(** Same dimension: no panic of Dist or Combine, the results are those of the rest of the model, and no goroutine ends the
    process. *)
Theorem C116_same_partial : forall F (N : Num F) d (c data : list (list F)), Forall (of_dim d) c -> Forall (of_dim d) data ->
  kseq_iterate N (euclid_checked N) c data = seq_iterate N (euclid_space N) c data /\
  kseq_iterate N (cosinus_checked N) c data = seq_iterate N (cosinus_space N) c data /\
  (forall degree v, par_iterate N (euclid_space N) degree c data = Ok v ->
     exists p, kpar_start N (euclid_checked N) degree c data = Ok p /\ forall p', psteps (euclid_checked N) c p p' ->
       p_dead p' = false /\ (p_main p' = None \/ p_main p' = Some (Ok v))) /\
  (forall degree v, par_iterate N (cosinus_space N) degree c data = Ok v ->
     exists p, kpar_start N (cosinus_checked N) degree c data = Ok p /\ forall p', psteps (cosinus_checked N) c p p' ->
       p_dead p' = false /\ (p_main p' = None \/ p_main p' = Some (Ok v))).
Proof. exact same_main. Qed.
Print Assumptions C116_same_partial.

Example C116_same_case : Forall (of_dim 2) [v64 [0; 0]%Z] /\ Forall (of_dim 2) [v64 [1; 3]%Z; v64 [3; 5]%Z; v64 [2; 4]%Z] /\
  shown_clust (par_iterate B64Num (euclid_space B64Num) 2 [v64 [0; 0]%Z] [v64 [1; 3]%Z; v64 [3; 5]%Z; v64 [2; 4]%Z])
    = Some [Some (map show64 (v64 [2; 4]%Z))].
Proof. split; [repeat constructor|]. split; [repeat constructor|]. vm_compute. reflexivity. Qed.

(** The sizes that matter for the spaces of vectors are the dimensions. *)
Theorem C116_spaces_partial : forall F (N : Num F), sized (euclid_checked N) (@length F) /\ sized (cosinus_checked N) (@length F).
Proof. exact sized_main. Qed.
Print Assumptions C116_spaces_partial.

Example C116_spaces_case : kdist k64 (v64 [1]%Z) (v64 [1; 2]%Z) <> Panic /\ kdist k64 (v64 [1; 2]%Z) (v64 [1]%Z) = Panic.
Proof. split; [discriminate|reflexivity]. Qed.

(** With two sizes in the data, no second iteration succeeds. *)
Theorem C116_seq_partial : forall (E F : Type) (N : Num F) (K : checked E F) (sz : E -> nat), sized K sz ->
  forall c data1 data2 c1 x y, In x data1 -> sz x < sz y -> In y data2 ->
  kseq_iterate N K c data1 = Ok (map Some c1) -> kseq_iterate N K c1 data2 = Panic.
Proof. exact @two_seq. Qed.
Print Assumptions C116_seq_partial.

Example C116_seq_case : let data := [v64 [5]%Z; v64 [1; 2]%Z] in length (v64 [5]%Z) < length (v64 [1; 2]%Z) /\
  match kseq_iterate B64Num k64 [v64 [0; 0]%Z] data with Ok [Some c1] => kseq_iterate B64Num k64 [c1] data = Panic | _ => False end.
Proof. split; [vm_compute; lia|]. vm_compute. reflexivity. Qed.

(** With goroutines the process ends in the first iteration, or in the second one if the first succeeds. *)
Theorem C116_par_partial : forall (E F : Type) (N : Num F) (K : checked E F) (sz : E -> nat), sized K sz ->
  forall degree c data1 data2 x y p1, In x data1 -> sz x < sz y -> In y data2 -> kpar_start N K degree c data1 = Ok p1 ->
  fatal K c p1 \/
  (forall p1' c1, psteps K c p1 p1' -> p_main p1' = Some (Ok (map Some c1)) ->
     forall p2, kpar_start N K degree c1 data2 = Ok p2 -> fatal K c1 p2).
Proof. exact @two_par. Qed.
Print Assumptions C116_par_partial.

Example C116_par_case : let data := [v64 [5]%Z; v64 [1; 2]%Z] in
  match kpar_start B64Num k64 2 [v64 [0; 0]%Z] data with
  | Ok p => length (p_gors p) = 2 /\ shown_clust (kpar_join k64 [v64 [0; 0]%Z] (map (fun g => match g with GWork (Ok q) => Some q | _ => None end) (p_gors p)))
      = Some [Some (map show64 (v64 [3]%Z))]
  | Panic => False
  end.
Proof. split; vm_compute; reflexivity. Qed.

(** The sequential strategy under the controller: two turns, unless the run was over after the first. *)
Theorem C116_controller_partial : forall (E F D : Type) (N : Num F) (K : checked E F) (sz : E -> nat)
  (initializer : D -> list E -> option (option (list E) * option nat)) (cf : cconf), sized K sz ->
  forall (q : seq_st (list E)) (b : buffer E) c x y d1 t1 n1 d2 t2 n2,
  st_value (q_status q) = Running -> q_run q = AtSelect -> m_centroids (q_model q) = Some c -> bstrategy b = InfiniteSize ->
  In x (bdata b) -> In y (bdata b) -> sz x < sz y ->
  let s1 := sys_advance cf (kchecked_implem N K initializer) (STurn d1 t1 n1) (q, b) in
  let s2 := sys_advance cf (kchecked_implem N K initializer) (STurn d2 t2 n2) s1 in
  q_status (fst s2) = mkStatus Finished (Some (ErrImpl 0)) \/ (q_status (fst s1) = new_status Ready /\ q_run (fst s1) = NoRun).
Proof. exact @mixed_ctrl. Qed.
Print Assumptions C116_controller_partial.

Example C116_controller_case :
  mixed_shown (sys_acts conf_free mixed_im mixed_use (seq0, mixed_start)) = Some (new_status Running, AtSelect, [1; 2], InfiniteSize, []) /\
  mixed_shown (sys_acts conf_free mixed_im (mixed_use ++ mixed_more) (seq0, mixed_start))
    = Some (mkStatus Finished (Some (ErrImpl 0)), NoRun, [1; 2], InfiniteSize, []).
Proof. split; vm_compute; reflexivity. Qed.

(** A vector of one coordinate becomes a center: afterwards no vector of two coordinates is ever processed. *)
Theorem C117_poison_refuted : exists (s : streaming (list b64) b64) rs m,
  kstream_run B64Num k64 10 (b64_of_Z 2) 100 (new_streaming B64Num [v64 [0; 0]%Z]) [SInit; SPush (v64 [5]%Z); SIterate (b64_of_Z 0)] = (s, rs) /\
  In m (s_clust s) /\ length m = 1 /\ s_queue s = [] /\
  forall ops, stream_pushes (fun x => length x = 2) ops -> Forall (fun r => ~ absorbed r) (snd (kstream_run B64Num k64 10 (b64_of_Z 2) 100 s ops)).
Proof. exact poison_witness. Qed.
Print Assumptions C117_poison_refuted.

(** The general fact: a center smaller than all elements to come. *)
Theorem C117_poison_partial : forall (E F : Type) (N : Num F) (K : checked E F) (sz : E -> nat), sized K sz ->
  forall bs oa (ratio : F) ops (s : streaming E F) m, In m (s_clust s) -> Forall (fun x => sz m < sz x) (s_queue s) -> stream_pushes (fun x => sz m < sz x) ops ->
  let (s', rs) := kstream_run N K oa ratio bs s ops in
  Forall (fun r => ~ absorbed r) rs /\
  exists l, s_clust s' = s_clust s ++ l /\ s_cards s' = s_cards s ++ map (fun _ => 1%Z) l.
Proof. exact @poison. Qed.
Print Assumptions C117_poison_partial.

(** A refused element leaves the queue and changes neither the centers nor their cardinalities. *)
Theorem C117_failed_partial : forall (E F : Type) (N : Num F) (K : checked E F) oa (ratio : F) (s s' : streaming E F) t,
  kstreaming_iterate N K oa ratio s t = (s', Panic) ->
  s_clust s' = s_clust s /\ s_cards s' = s_cards s /\ s_count s' = s_count s /\ exists x, s_queue s = x :: s_queue s'.
Proof. exact @kiterate_failed. Qed.
Print Assumptions C117_failed_partial.

Example C117_case : poison_shown (kstream_run B64Num k64 10 (b64_of_Z 2) 100 (new_streaming B64Num [v64 [0; 0]%Z]) poison_ops)
  = ([2; 1], [1; 1]%Z, [Some false; Some false; Some true; Some false; None]).
Proof. vm_compute. reflexivity. Qed.

(** Same dimension: as in the rest of the model. *)
Theorem C117_same_partial : forall F (N : Num F) d bs oa (ratio : F) elemts ops rs s,
  sexec N (euclid_space N) bs oa ratio (new_streaming N elemts) ops rs s -> Forall (of_dim d) elemts -> stream_pushes (of_dim d) ops ->
  kstream_run N (euclid_checked N) oa ratio bs (new_streaming N elemts) ops = (s, map Ok rs).
Proof. exact stream_same_main. Qed.
Print Assumptions C117_same_partial.

Example C117_same_case : stream_pushes (of_dim 2) [@SInit (list b64) b64; SPush (v64 [5; 5]%Z); SIterate (b64_of_Z 0)] /\
  poison_shown (kstream_run B64Num k64 10 (b64_of_Z 2) 100 (new_streaming B64Num [v64 [0; 0]%Z]) [SInit; SPush (v64 [5; 5]%Z); SIterate (b64_of_Z 0)])
  = ([2; 2], [1; 1]%Z, [Some false; Some false; Some true]).
Proof.
  split; [|vm_compute; reflexivity]. intros x [H|[H|[H|[]]]]; try discriminate. injection H as <-. reflexivity.
Qed.
