(** C80, C81, C84, C85, C106: k-means, streaming and the distance in binary64. *)
From Coq Require Import List ZArith Lia Bool Reals Permutation.
From Flocq Require Import IEEE754.BinarySingleNaN.
From Verif Require Import Base.Go Base.Num Model.Clustering Model.Par Model.Euclid Model.Kmeans Model.Streaming
  Spec.ClusterSpec Spec.RealSpec Spec.KmeansSpec Spec.NearestSpec Spec.StreamingSpec Spec.FloatSpec
  Proofs.StreamingProofs Proofs.FloatKmeans Proofs.FloatDist Proofs.FloatLoss.
Import ListNotations.
Local Open Scope R_scope.
Local Notation euclid64 := (euclid_space B64Num).

Theorem C80_box : forall par k d (c data : list (list b64)), valid_par par -> c <> [] -> (-1074 <= k <= 970)%Z ->
  (Z.of_nat (length data) < 2 ^ 53)%Z -> Forall (box_vec k d) c -> Forall (box_vec k d) data ->
  forall n, (exists cn, iterations B64Num euclid64 par data n c cn) /\
    forall cn, iterations B64Num euclid64 par data n c cn -> length cn = length c /\ Forall (box_vec k d) cn.
Proof. exact float_box_main. Qed.
Print Assumptions C80_box.

Example C80_case : valid_par (Some 3%Z) /\ (-1074 <= 4 <= 970)%Z /\
  let c := [v64 [0; 5]; v64 [10; 6]]%Z in let data := [v64 [1; 2]; v64 [9; 3]; v64 [3; -16]]%Z in
  c <> [] /\ (Z.of_nat (length data) < 2 ^ 53)%Z /\ Forall (box_vec 4 2) c /\ Forall (box_vec 4 2) data.
Proof.
  cbv zeta.
  split; [reflexivity|]. split; [lia|]. split; [discriminate|]. split; [reflexivity|].
  split; repeat (apply Forall_cons; [apply (box_of_Zs 4); (lia || reflexivity)|]); apply Forall_nil.
Qed.

Theorem C80_predict : forall par k d (c data : list (list b64)), valid_par par -> c <> [] -> (-1074 <= k <= 970)%Z ->
  (Z.of_nat (length data) < 2 ^ 53)%Z -> Forall (box_vec k d) c -> Forall (box_vec k d) data ->
  forall n cn (x : list b64), iterations B64Num euclid64 par data n c cn -> length x = d -> Forall (fun v => is_finite v = true) x ->
  exists l cl, assign B64Num euclid64 cn x = Ok (Some cl, Z.of_nat l, sdist euclid64 x cl) /\
    first_nearest64 euclid64 cn x l cl.
Proof. exact float_predict_main. Qed.
Print Assumptions C80_predict.

Example C80_predict_case : length (v64 [4; 4]%Z) = 2%nat /\ Forall (fun v => is_finite v = true) (v64 [4; 4]%Z) /\
  match assign B64Num euclid64 [v64 [0; 5]; v64 [10; 6]]%Z (v64 [4; 4]%Z) with Ok (Some _, l, _) => l = 0%Z | _ => False end.
Proof.
  split; [reflexivity|]. split; [repeat (apply Forall_cons; [vm_compute; reflexivity|]); apply Forall_nil|].
  vm_compute. reflexivity.
Qed.

Theorem C81_means : forall par k d (c data : list (list b64)) (lab : list b64 -> Z),
  valid_par par -> c <> [] -> (-1020 <= k <= 970)%Z -> (Z.of_nat (length data) < 2 ^ 53)%Z -> Forall (box_vec k d) data ->
  (forall x, exists cl di, assign B64Num euclid64 c x = Ok (cl, lab x, di)) ->
  exists c', strategy_iterate B64Num euclid64 par c data = Ok (map Some c') /\ length c' = length c /\
    forall i ci ci', nth_error c i = Some ci -> nth_error c' i = Some ci' ->
      (members lab i data = [] -> ci' = ci) /\
      (members lab i data <> [] -> length ci' = d /\ forall j, (j < d)%nat ->
         Rabs (coord j (reals ci') - rsum (map (fun v => coord j (reals v)) (members lab i data)) / INR (length (members lab i data)))
         <= INR (length (members lab i data)) * powerRZ 2 (k - 51)).
Proof. exact float_mean_main. Qed.
Print Assumptions C81_means.

(** The mean 1/3 of 0, 0 and 1 is not a float64. *)
Example C81_case : let c := [v64 [0]; v64 [9]]%Z in let data := [v64 [0]; v64 [0]; v64 [1]]%Z in
  (-1020 <= 0 <= 970)%Z /\ (Z.of_nat (length data) < 2 ^ 53)%Z /\ Forall (box_vec 0 1) data /\
  map (fun x => match assign B64Num euclid64 c x with Ok (_, l, _) => l | Panic => (-1)%Z end) data = [0; 0; 0]%Z /\
  shown64 (seq_iterate B64Num euclid64 c data)
    = Some (map (fun v => Some (map show64 v)) [[b64_div (b64_of_Z 1) (b64_of_Z 3)]; v64 [9]%Z]).
Proof.
  cbv zeta.
  split; [lia|]. split; [reflexivity|].
  split; [repeat (apply Forall_cons; [apply (box_of_Zs 0); (lia || reflexivity)|]); apply Forall_nil|].
  split; vm_compute; reflexivity.
Qed.

Theorem C81_streaming : forall k d bs oa ratio (elemts : list (list b64)) ops rs s,
  (-1020 <= k <= 970)%Z -> (Z.of_nat (taken rs) < 2 ^ 53)%Z ->
  sexec B64Num euclid64 bs oa ratio (new_streaming B64Num elemts) ops rs s ->
  Forall (box_vec k d) (elemts ++ accepted ops rs) ->
  Forall (box_vec k d) (s_clust s) /\
  exists parts,
    Permutation (concat parts) (firstn (taken rs) (elemts ++ accepted ops rs)) /\
    s_cards s = map (fun vs => Z.of_nat (length vs)) parts /\
    Forall2 (fun c vs => vs <> [] /\ forall j, (j < d)%nat ->
       Rabs (coord j (reals c) - rsum (map (fun v => coord j (reals v)) vs) / INR (length vs))
       <= INR (length vs) * powerRZ 2 (k - 51)) (s_clust s) parts.
Proof. exact float_streaming_main. Qed.
Print Assumptions C81_streaming.

Example C81_streaming_case : (-1020 <= 7 <= 970)%Z /\
  Forall (box_vec 7 1) ([v64 [0]; v64 [8]; v64 [2]] ++ [v64 [80]])%Z /\
  match srun B64Num euclid64 10 2 (b64_of_Z 2) (new_streaming B64Num [v64 [0]; v64 [8]; v64 [2]]%Z)
          [SInit; SIterate (b64_of_Z 0); SPush (v64 [80]%Z); SIterate (b64_of_Z 2); SIterate (b64_of_Z 100)] with
  | Ok (s, rs) => taken rs = 4%nat /\ s_cards s = [2; 1; 1]%Z /\
      map (map show64) (s_clust s) = map (map show64) [v64 [1]; v64 [8]; v64 [80]]%Z
  | Panic => False
  end.
Proof.
  split; [lia|]. split; [repeat (apply Forall_cons; [apply (box_of_Zs 7); (lia || reflexivity)|]); apply Forall_nil|].
  vm_compute. auto.
Qed.

(** 0.1, 0.1 and 0.4, in one cluster: two goroutines, or another order, give another float64. *)
Theorem C84_grouping_refuted : exists c data data' : list (list b64),
   Permutation data data' /\
  par_iterate B64Num euclid64 2 c data <> seq_iterate B64Num euclid64 c data /\
  seq_iterate B64Num euclid64 c data' <> seq_iterate B64Num euclid64 c data.
Proof. exact float_grouping_refuted. Qed.
Print Assumptions C84_grouping_refuted.

(** The difference is bounded. *)
Theorem C84_par_seq_partial : forall degree k d (c data cs cp : list (list b64)),
  (0 < degree)%Z -> c <> [] -> (-1020 <= k <= 970)%Z -> (Z.of_nat (length data) < 2 ^ 53)%Z -> Forall (box_vec k d) data ->
  seq_iterate B64Num euclid64 c data = Ok (map Some cs) -> par_iterate B64Num euclid64 degree c data = Ok (map Some cp) ->
  length cs = length c /\ length cp = length c /\
  forall i a b, nth_error cs i = Some a -> nth_error cp i = Some b ->
    a = b \/ forall j, (j < d)%nat ->
      Rabs (coord j (reals a) - coord j (reals b)) <= INR (length data) * powerRZ 2 (k - 50).
Proof. exact float_par_seq_main. Qed.
Print Assumptions C84_par_seq_partial.

Example C84_case : let c := [v64 [0]; v64 [9]]%Z in let data := [v64 [0]; v64 [0]; v64 [1]]%Z in
  (0 < 2)%Z /\ (-1020 <= 0 <= 970)%Z /\ Forall (box_vec 0 1) data /\
  shown64 (par_iterate B64Num euclid64 2 c data)
    = Some (map (fun v => Some (map show64 v)) [[b64_div (b64_of_Z 1) (b64_of_Z 3)]; v64 [9]%Z]).
Proof.
  cbv zeta.
  split; [lia|]. split; [lia|]. split; [repeat (apply Forall_cons; [apply (box_of_Zs 0); (lia || reflexivity)|]); apply Forall_nil|].
  vm_compute. reflexivity.
Qed.

(** Three points at 0.1 and the centroid on them: the iteration moves it away. *)
Theorem C85_loss_refuted : forall pow : b64 -> b64 -> b64, (forall x, pow x (b64_of_Z 2) = b64_mul x x) ->
  exists c data c' l l', Forall (fun x => In x c) data /\
    seq_iterate B64Num euclid64 c data = Ok (map Some c') /\
    total_loss B64Num euclid64 pow c data (b64_of_Z 2) = Ok l /\
    total_loss B64Num euclid64 pow c' data (b64_of_Z 2) = Ok l' /\
    b64_eqb l (b64_of_Z 0) = true /\ b64_ltb l l' = true.
Proof. exact float_loss_refuted. Qed.
Print Assumptions C85_loss_refuted.

(** The increase is within the rounding errors: the exact loss of the new centroids exceeds the exact loss of the old
    ones by at most [8 * rel_err d] of it, plus an amount of the order of the error of the means. *)
Theorem C85_exact_partial : forall par k d (c data : list (list b64)) l, valid_par par -> c <> [] -> (-500 <= k <= 480)%Z -> (Z.of_nat d <= 2 ^ 47)%Z ->
  (Z.of_nat (length data) < 2 ^ 53)%Z -> Forall (box_vec k d) c -> Forall (box_vec k d) data -> exact_loss c data l ->
  exists c' l', strategy_iterate B64Num euclid64 par c data = Ok (map Some c') /\ length c' = length c /\ exact_loss c' data l' /\
    l' <= (1 + 8 * rel_err d) * l + INR (length data) * (INR d * (INR (length data) * powerRZ 2 (k - 51)) ^ 2 + powerRZ 2 55 * abs_err d ^ 2).
Proof. exact loss_main. Qed.
Print Assumptions C85_exact_partial.

Example C85_case : let c := [v64 [0]; v64 [9]]%Z in let data := [v64 [0]; v64 [0]; v64 [1]]%Z in
  valid_par None /\ c <> [] /\ (-500 <= 4 <= 480)%Z /\ (Z.of_nat 1 <= 2 ^ 47)%Z /\ Forall (box_vec 4 1) c /\ Forall (box_vec 4 1) data /\ exact_loss c data 1.
Proof. exact loss_case. Qed.

Theorem C106_distance : forall k d (p1 p2 : list b64), (-500 <= k <= 480)%Z -> (Z.of_nat d <= 2 ^ 47)%Z -> box_vec k d p1 -> box_vec k d p2 ->
  exists D, point_dist B64Num p1 p2 = Ok D /\ is_finite D = true /\ Rabs (B2R D - exact_dist p1 p2) <= rel_err d * exact_dist p1 p2 + abs_err d.
Proof. exact dist_main. Qed.
Print Assumptions C106_distance.

(** The distance from (0, 0) to (1, 1) is not a float64. *)
Example C106_case : (-500 <= 1 <= 480)%Z /\ (Z.of_nat 2 <= 2 ^ 47)%Z /\ box_vec 1 2 (v64 [0; 0]%Z) /\ box_vec 1 2 (v64 [1; 1]%Z) /\
  match point_dist B64Num (v64 [0; 0]%Z) (v64 [1; 1]%Z) with Ok D => show64 D = show64 (b64_sqrt (b64_of_Z 2)) | Panic => False end.
Proof.
  split; [lia|]. split; [lia|]. split; [apply (box_of_Zs 1); (lia || reflexivity)|]. split; [apply (box_of_Zs 1); (lia || reflexivity)|].
  vm_compute. reflexivity.
Qed.

Theorem C106_nearest : forall k d (c : list (list b64)) (x : list b64), (-500 <= k <= 480)%Z -> (Z.of_nat d <= 2 ^ 47)%Z ->
  c <> [] -> Forall (box_vec k d) c -> box_vec k d x ->
  exists l cl, assign B64Num euclid64 c x = Ok (Some cl, Z.of_nat l, sdist euclid64 x cl) /\ nth_error c l = Some cl /\
    forall y, In y c -> exact_dist x cl <= (1 + 3 * rel_err d) * exact_dist x y + 3 * abs_err d.
Proof. exact nearest_main. Qed.
Print Assumptions C106_nearest.

Example C106_nearest_case : let c := [v64 [0; 5]; v64 [10; 6]]%Z in c <> [] /\ Forall (box_vec 4 2) c /\ box_vec 4 2 (v64 [9; 4]%Z) /\
  match assign B64Num euclid64 c (v64 [9; 4]%Z) with Ok (Some _, l, _) => l = 1%Z | _ => False end.
Proof.
  cbv zeta. split; [discriminate|].
  split; [repeat (apply Forall_cons; [apply (box_of_Zs 4); (lia || reflexivity)|]); apply Forall_nil|].
  split; [apply (box_of_Zs 4); (lia || reflexivity)|]. vm_compute. reflexivity.
Qed.
