(** C32-C38: the streaming algorithm. *)
From Coq Require Import List ZArith Bool Lia Reals Lra Permutation.
From Verif Require Import Base.Go Base.Num Model.Clustering Model.Euclid Model.Streaming Model.Kmeans Model.Heap
  Spec.RealSpec Spec.NearestSpec Spec.StreamingSpec Spec.HeapSpec Proofs.NumLaws Proofs.StreamingProofs Proofs.HeapProofs.
Import ListNotations.

Theorem C32_accounting : forall E F (N : Num F) (Sp : Space E F) bs oa ratio (elemts : list E) ops rs s,
  sexec N Sp bs oa ratio (new_streaming N elemts) ops rs s ->
  length (s_clust s) = length (s_cards s) /\
  Forall (fun c => (1 <= c)%Z) (s_cards s) /\
  zsum (s_cards s) = Z.of_nat (taken rs).
Proof. exact accounting_main. Qed.
Print Assumptions C32_accounting.

Theorem C32_step : forall E F (N : Num F) good, NumOrd N good -> forall (Sp : Space E F) bs oa ratio (elemts : list E) ops rs s t,
  sexec N Sp bs oa ratio (new_streaming N elemts) ops rs s ->
  (s_queue s = [] -> sstep N Sp bs oa ratio s (SIterate t) = Ok (s, RIterate None)) /\
  (forall x q, s_queue s = x :: q -> s_clust s <> [] ->
   exists s', sstep N Sp bs oa ratio s (SIterate t) = Ok (s', RIterate (Some (s_clust s'))) /\ s_queue s' = q /\
     ((s_clust s' = s_clust s ++ [x] /\ s_cards s' = s_cards s ++ [1%Z]) \/
      (exists l c n, nth_error (s_clust s) l = Some c /\ nth_error (s_cards s) l = Some n /\
         s_clust s' = upd (s_clust s) l (scombine Sp c n x 1) /\ s_cards s' = upd (s_cards s) l (n + 1)%Z))).
Proof. exact accounting_step. Qed.
Print Assumptions C32_step.

(** Init on [0], then [8] becomes a center (draw 0), then [2] is merged (draw 2), then [80] is an
    outlier (more than 2 elements processed, ratio 9.875). *)
Example C32_case :
  match srun B64Num (euclid_space B64Num) 10 2 (b64_of_Z 2) (new_streaming B64Num [v64 [0]; v64 [8]; v64 [2]]%Z)
          [SInit; SIterate (b64_of_Z 0); SPush (v64 [80]%Z); SIterate (b64_of_Z 2); SIterate (b64_of_Z 100); SIterate (b64_of_Z 0)] with
  | Ok (s, rs) => map (map show64) (s_clust s) = map (map show64) [v64 [1]; v64 [8]; v64 [80]]%Z /\
      s_cards s = [2; 1; 1]%Z /\ taken rs = 4 /\ s_queue s = [] /\ show64 (s_max s) = show64 (b64_of_Z 8)
  | Panic => False
  end.
Proof. vm_compute. auto 10. Qed.

Theorem C33_means : forall d bs oa (ratio : R) elemts ops rs s,
  sexec RNum (euclid_space RNum) bs oa ratio (new_streaming RNum elemts) ops rs s ->
  all_dim d (elemts ++ accepted ops rs) ->
  exists parts,
    Permutation (concat parts) (firstn (taken rs) (elemts ++ accepted ops rs)) /\
    Forall2 (fun c vs => vs <> [] /\ is_mean d c vs) (s_clust s) parts /\
    s_cards s = map (fun vs => Z.of_nat (length vs)) parts.
Proof. exact means_main. Qed.
Print Assumptions C33_means.

Example C33_case : exists rs s,
  sexec RNum (euclid_space RNum) 10 1 2%R (new_streaming RNum [[0%R]; [2%R]; [4%R]]) [SInit; SIterate 2%R; SIterate 0%R] rs s /\
  taken rs = 3 /\ all_dim 1 ([[0%R]; [2%R]; [4%R]] ++ accepted [SInit; SIterate 2%R; SIterate 0%R] rs).
Proof.
  set (Sp := euclid_space RNum). set (s0 := new_streaming RNum [[0%R]; [2%R]; [4%R]]).
  assert (H1 : exists s1, sexec RNum Sp 10 1 2%R s0 [SInit] [RInit (Some [[0%R]])] s1 /\ s_queue s1 = [[2%R]; [4%R]] /\ s_clust s1 <> []).
  { eexists. split; [econstructor; [reflexivity|constructor]|]. split; [reflexivity|discriminate]. }
  destruct H1 as (s1 & E1 & Q1 & C1).
  destruct (accounting_step _ _ _ _ RNumOrd Sp 10 1 2%R _ _ _ _ 2%R E1) as [_ S1]. destruct (S1 _ _ Q1 C1) as (s2 & T2 & Q2 & _).
  assert (E2 := sexec_app _ _ _ _ _ _ _ _ _ _ _ _ E1 (sx_cons _ _ _ _ _ _ _ _ _ _ _ _ T2 (sx_nil _ _ _ _ _ _))).
  assert (C2 := sstep_clust_ne _ _ _ _ _ _ _ _ _ C1 T2).
  destruct (accounting_step _ _ _ _ RNumOrd Sp 10 1 2%R _ _ _ _ 0%R E2) as [_ S2]. destruct (S2 _ _ Q2 C2) as (s3 & T3 & Q3 & _).
  assert (E3 := sexec_app _ _ _ _ _ _ _ _ _ _ _ _ E2 (sx_cons _ _ _ _ _ _ _ _ _ _ _ _ T3 (sx_nil _ _ _ _ _ _))).
  do 2 eexists. split; [exact E3|]. split; [reflexivity|]. repeat constructor.
Qed.

Theorem C34_queue : forall E F (N : Num F) (Sp : Space E F) bs oa ratio (elemts : list E) ops rs s,
  (Z.of_nat (length elemts) <= bs)%Z ->
  sexec N Sp bs oa ratio (new_streaming N elemts) ops rs s ->
  taken rs <= length (elemts ++ accepted ops rs) /\
  s_queue s = skipn (taken rs) (elemts ++ accepted ops rs) /\
  (Z.of_nat (length (s_queue s)) <= bs)%Z /\
  (forall x, exists s' full, sstep N Sp bs oa ratio s (SPush x) = Ok (s', RPush full) /\
     (full = true <-> Z.of_nat (length (s_queue s)) = bs) /\ (full = true -> s' = s)) /\
  (exists s' r, sstep N Sp bs oa ratio s SInit = Ok (s', RInit r) /\
     (r = None <-> s_queue s = []) /\ (r = None -> s' = s) /\
     forall x q, s_queue s = x :: q -> r = Some [x] /\ s_queue s' = q) /\
  (s_queue s = [] -> forall t, sstep N Sp bs oa ratio s (SIterate t) = Ok (s, RIterate None)).
Proof. exact queue_main. Qed.
Print Assumptions C34_queue.

(** A queue of 2: the third push is refused, then processing makes room. *)
Example C34_case :
  match srun B64Num (euclid_space B64Num) 2 5 (b64_of_Z 2) (new_streaming B64Num [v64 [1]%Z])
          [SPush (v64 [2]%Z); SPush (v64 [3]%Z); SInit; SPush (v64 [4]%Z); SIterate (b64_of_Z 0)] with
  | Ok (s, rs) => map (map show64) (s_queue s) = [map show64 (v64 [4]%Z)] /\ taken rs = 2 /\
      match rs with [RPush false; RPush true; RInit (Some _); RPush false; RIterate (Some _)] => True | _ => False end
  | Panic => False
  end.
Proof. vm_compute. auto. Qed.

(** For any numbers ordered by the comparisons (reals, binary64 without NaN). The controller initializes before it iterates. *)
Theorem C35_maximal_distance : forall E F (N : Num F) good, NumOrd N good ->
  (forall x, neqb N x (nof N 0) = true -> nleb N x (nof N 0) = true) ->
  forall (Sp : Space E F) bs oa ratio,
  (forall x y, good (sdist Sp x y) /\ nleb N (nof N 0) (sdist Sp x y) = true) ->
  (forall elemts ops1 rs1 s1 ops2 rs2 s2,
     sexec N Sp bs oa ratio (new_streaming N elemts) ops1 rs1 s1 ->
     sexec N Sp bs oa ratio s1 ops2 rs2 s2 -> init_first (rs1 ++ rs2) ->
     nleb N (s_max s1) (s_max s2) = true) /\
  (forall elemts ops1 rs1 s1 t s2 cl ops2 rs2 s3 x q a l d,
     sexec N Sp bs oa ratio (new_streaming N elemts) ops1 rs1 s1 ->
     sstep N Sp bs oa ratio s1 (SIterate t) = Ok (s2, RIterate (Some cl)) ->
     sexec N Sp bs oa ratio s2 ops2 rs2 s3 -> init_first (rs1 ++ RIterate (Some cl) :: rs2) ->
     s_queue s1 = x :: q -> assign N Sp (s_clust s1) x = Ok (a, l, d) ->
     let m := if neqb N (s_max s1) (nof N 0) then d else s_max s1 in
     ((s_count s1 < oa)%Z \/ nltb N ratio (ndiv N d m) = false -> nleb N d (s_max s3) = true) /\
     ((oa <= s_count s1)%Z -> nltb N ratio (ndiv N d m) = true -> s_max s2 = m)).
Proof. exact max_main. Qed.
Print Assumptions C35_maximal_distance.

(** The hypotheses hold for vectors over the reals. *)
Example C35_reals : (forall x, neqb RNum x (nof RNum 0) = true -> nleb RNum x (nof RNum 0) = true) /\
  (forall x y, True /\ nleb RNum (nof RNum 0) (sdist (euclid_space RNum) x y) = true).
Proof. split; [exact eq0_R|exact dist_pos_R]. Qed.

(** And for binary64 with a space whose distances are numbers. *)
Example C35_case :
  NumOrd B64Num not_nan64 /\ (forall x, neqb B64Num x (nof B64Num 0) = true -> nleb B64Num x (nof B64Num 0) = true) /\
  (forall x y, not_nan64 (sdist two_point_space x y) /\ nleb B64Num (nof B64Num 0) (sdist two_point_space x y) = true) /\
  match srun B64Num two_point_space 10 5 (b64_of_Z 2) (new_streaming B64Num [true; false; true]) [SInit; SIterate (b64_of_Z 0); SIterate (b64_of_Z 0)] with
  | Ok (s, rs) => s_cards s = [2; 1]%Z /\ show64 (s_max s) = show64 (b64_of_Z 3) /\ init_first rs
  | Panic => False
  end.
Proof.
  split; [exact B64NumOrd|]. split; [exact eq0_64|]. split.
  - intros [|] [|]; split; vm_compute; auto.
  - match goal with |- match ?r with _ => _ end => assert (H : match r with Ok (s, rs) => s_cards s = [2; 1]%Z /\ show64 (s_max s) = show64 (b64_of_Z 3) /\
      (exists c, hd_error rs = Some (RInit (Some c))) | Panic => False end) end.
    { vm_compute. eauto. }
    destruct (srun _ _ _ _ _ _ _) as [[s rs]|]; [|exact H]. destruct H as (H1 & H2 & c & H3). split; [exact H1|]. split; [exact H2|].
    destruct rs as [|r rs]; [discriminate|]. injection H3 as ->.
    intros [|p pre] c' post Heq; [discriminate|]. injection Heq as <- _. exists c. left. reflexivity.
Qed.

Theorem C36_outlier_rule : forall E F (N : Num F) (Sp : Space E F) oa ratio (s : streaming E F) x t cl l d s',
  assign N Sp (s_clust s) x = Ok (cl, l, d) ->
  process N Sp oa ratio s x t = Ok s' ->
  let m := if neqb N (s_max s) (nof N 0) then d else s_max s in
  let relative := ndiv N d m in
  ((oa <= s_count s)%Z -> nltb N ratio relative = true ->
     s_clust s' = s_clust s ++ [x] /\ s_cards s' = s_cards s ++ [1%Z] /\ s_max s' = m) /\
  ((s_count s < oa)%Z \/ nltb N ratio relative = false ->
     (nltb N t relative = true -> s_clust s' = s_clust s ++ [x] /\ s_cards s' = s_cards s ++ [1%Z] /\
        s_max s' = if nltb N m d then d else m) /\
     (nltb N t relative = false -> exists i c n, l = Z.of_nat i /\
        nth_error (s_clust s) i = Some c /\ nth_error (s_cards s) i = Some n /\
        s_clust s' = upd (s_clust s) i (scombine Sp c n x 1) /\ s_cards s' = upd (s_cards s) i (n + 1)%Z /\
        s_max s' = if nltb N m d then d else m)) /\
  s_queue s' = s_queue s /\ s_count s' = (s_count s + 1)%Z.
Proof. exact outlier_main. Qed.
Print Assumptions C36_outlier_rule.

(** In exact arithmetic, once a maximal distance is known, the test is distance > OutRatio * max. *)
Theorem C36_outlier_ratio : forall (max ratio d : R), (0 < max)%R ->
  (nltb RNum ratio (ndiv RNum d (if neqb RNum max (nof RNum 0) then d else max)) = true <-> (ratio * max < d)%R).
Proof. exact outlier_real. Qed.
Print Assumptions C36_outlier_ratio.

Example C36_case :
  let s := mkStreaming (b64_of_Z 4) [v64 [0]; v64 [4]]%Z [1; 1]%Z [] 7%Z in
  let show := fun r => match r with Ok s' => Some (map (map show64) (s_clust s'), s_cards s', show64 (s_max s')) | Panic => None end in
  (exists cl, assign B64Num (euclid_space B64Num) (s_clust s) (v64 [13]%Z) = Ok (cl, 1%Z, sdist (euclid_space B64Num) (v64 [13]%Z) (v64 [4]%Z))) /\
  show (process B64Num (euclid_space B64Num) 7 (b64_of_Z 2) s (v64 [13]%Z) (b64_of_Z 100)) =
    Some (map (map show64) [v64 [0]; v64 [4]; v64 [13]]%Z, [1; 1; 1]%Z, show64 (b64_of_Z 4)) /\
  show (process B64Num (euclid_space B64Num) 8 (b64_of_Z 2) s (v64 [14]%Z) (b64_of_Z 100)) =
    Some (map (map show64) [v64 [0]; v64 [9]]%Z, [1; 2]%Z, show64 (b64_of_Z 10)).
Proof.
  cbv zeta. split; [|vm_compute; auto]. eexists.
  unfold assign, nearest. cbn [nearest_loop s_clust].
  match goal with |- context [if ?b then _ else _] => replace b with true by (vm_compute; reflexivity) end.
  cbn. reflexivity.
Qed.

(** The doc comment says "if less than 1, otherwise 1"; the code does not cap. *)
Theorem C37_capped_refuted : exists max d : R, (0 < max)%R /\ (0 <= d)%R /\
  snd (relative_distance RNum max d) <> (if Rltb (d / max) 1 then (d / max)%R else 1%R) /\
  (1 < snd (relative_distance RNum max d))%R.
Proof. exact relative_refuted. Qed.
Print Assumptions C37_capped_refuted.

(** What holds: up to the maximal distance the ratio is in [0, 1] and the maximum is unchanged. *)
Theorem C37_ratio_partial : forall max d : R, (0 < max)%R -> (0 <= d <= max)%R ->
  relative_distance RNum max d = (max, (d / max)%R) /\ (0 <= d / max <= 1)%R.
Proof. exact relative_partial. Qed.
Print Assumptions C37_ratio_partial.

(** While the maximal distance is zero, the first positive distance becomes the maximum. *)
Theorem C37_first_partial : forall d : R, (0 < d)%R -> relative_distance RNum 0%R d = (d, 1%R).
Proof. exact relative_first. Qed.
Print Assumptions C37_first_partial.

Example C37_case : (relative_distance RNum 4 1 = (4, 1 / 4) /\ relative_distance RNum 0 3 = (3, 1))%R.
Proof. split; [apply relative_partial; lra|apply relative_first; lra]. Qed.

(** Centroids() gives the slice that the next merge writes to. *)
Theorem C38_snapshot_refuted : forall grow, exists elemts ops1 rs1 h1 ops2 rs2 h2 s,
  hexec B64Num (euclid_space B64Num) grow 100 5 (b64_of_Z 2) (new_hstreaming B64Num elemts) ops1 rs1 h1 /\
  In (HIterate (Some s)) rs1 /\
  hexec B64Num (euclid_space B64Num) grow 100 5 (b64_of_Z 2) h1 ops2 rs2 h2 /\
  read (h_mem h2) s <> read (h_mem h1) s.
Proof. exact snapshot_refuted. Qed.
Print Assumptions C38_snapshot_refuted.

(** What holds for streaming: the slice returned by Init never changes; a slice returned by Iterate keeps its length, and its content as long as every processed element becomes a center. *)
Theorem C38_streaming_partial : forall E F (N : Num F) (Sp : Space E F) grow bs oa ratio elemts ops1 rs1 h1 ops2 rs2 h2 s,
  hexec N Sp grow bs oa ratio (new_hstreaming N elemts) ops1 rs1 h1 ->
  hexec N Sp grow bs oa ratio h1 ops2 rs2 h2 ->
  (In (HInit (Some s)) rs1 -> read (h_mem h2) s = read (h_mem h1) s) /\
  (In (HIterate (Some s)) rs1 ->
     length (read (h_mem h2) s) = length (read (h_mem h1) s) /\
     sl_len (h_clust h2) <= sl_len (h_clust h1) + htaken rs2 /\
     (sl_len (h_clust h2) = sl_len (h_clust h1) + htaken rs2 -> read (h_mem h2) s = read (h_mem h1) s)).
Proof. exact snapshot_main. Qed.
Print Assumptions C38_streaming_partial.

(** The memory model computes the same values as the model of C32-C36. *)
Theorem C38_values_partial : forall E F (N : Num F) (Sp : Space E F) grow bs oa ratio elemts ops rs s,
  sexec N Sp bs oa ratio (new_streaming N elemts) ops rs s ->
  exists hrs h, hexec N Sp grow bs oa ratio (new_hstreaming N elemts) ops hrs h /\
    read (h_mem h) (h_clust h) = map Some (s_clust s) /\ h_cards h = s_cards s /\ h_max h = s_max s /\ h_queue h = s_queue s /\
    forall o, match sstep N Sp bs oa ratio s o with
              | Ok (s', r) => exists h' r', hstep N Sp grow bs oa ratio h o = Ok (h', r') /\
                  read (h_mem h') (h_clust h') = map Some (s_clust s') /\ same_result (h_mem h') r r'
              | Panic => hstep N Sp grow bs oa ratio h o = Panic
              end.
Proof. exact heap_refines. Qed.
Print Assumptions C38_values_partial.

(** Sequential k-means writes only to slices it allocates: any slice that exists before some iterations reads the same after them. *)
Theorem C38_kmeans_partial : forall E F (N : Num F) good, NumOrd N good ->
  forall (Sp : Space E F) m c datas m' c' (cs : list E), cs <> [] ->
  sl_arr c < length m -> sl_len c <= length (array m (sl_arr c)) -> read m c = map Some cs ->
  hiterations N Sp m c datas m' c' ->
  forall t, sl_arr t < length m -> sl_len t <= length (array m (sl_arr t)) -> read m' t = read m t.
Proof. exact kmeans_snapshots. Qed.
Print Assumptions C38_kmeans_partial.

(** The memory model of sequential k-means computes the values of the model of C17-C19. *)
Theorem C38_kmeans_values_partial : forall E F (N : Num F) (Sp : Space E F) m c (cs data : list E),
  sl_arr c < length m -> sl_len c <= length (array m (sl_arr c)) -> read m c = map Some cs ->
  match seq_iterate N Sp cs data with
  | Ok v => exists m' r, hseq_iterate N Sp m c data = Ok (m', r) /\ read m' r = v
  | Panic => hseq_iterate N Sp m c data = Panic
  end.
Proof. exact kmeans_heap_value. Qed.
Print Assumptions C38_kmeans_values_partial.

Example C38_case : let m := [[Some (v64 [0]%Z); Some (v64 [10]%Z)]] in
  match hseq_iterate B64Num (euclid_space B64Num) m (mkSlice 0 2) [v64 [1]; v64 [3]; v64 [9]]%Z with
  | Ok (m', r) => r = mkSlice 1 2 /\ map (option_map (map show64)) (read m' r) = [Some (map show64 (v64 [2]%Z)); Some (map show64 (v64 [9]%Z))] /\
      map (option_map (map show64)) (read m' (mkSlice 0 2)) = [Some (map show64 (v64 [0]%Z)); Some (map show64 (v64 [10]%Z))]
  | Panic => False
  end.
Proof. vm_compute. auto. Qed.
