(** C17-C20: the k-means iterations. *)
From Coq Require Import List ZArith Bool Reals Lra.
From Verif Require Import Base.Go Base.Num Model.Clustering Model.Par Model.Euclid Model.Buffer Model.Kmeans
  Spec.ClusterSpec Spec.RealSpec Spec.SpaceSpec Spec.NearestSpec Spec.BufferSpec Spec.KmeansSpec
  Proofs.NumLaws Proofs.KmeansProofs.
Import ListNotations.
Local Notation euclid := (euclid_space RNum).

Section Reals.
Local Open Scope R_scope.

Theorem C17_loss_decreases : forall (pow : R -> R -> R), (forall x, 0 <= x -> pow x 2 = x * x) ->
  forall par d (c data : list (list R)), valid_par par -> c <> [] -> all_dim d c -> all_dim d data ->
  forall n, exists cn ln l0,
    iterations RNum euclid par data n c cn /\ length cn = length c /\
    total_loss RNum euclid pow c data 2 = Ok l0 /\
    total_loss RNum euclid pow cn data 2 = Ok ln /\
    ln <= l0 /\
    exists cn' ln', iterations RNum euclid par data (S n) c cn' /\
      total_loss RNum euclid pow cn' data 2 = Ok ln' /\ ln' <= ln.
Proof. exact iteration_loss_main. Qed.
Print Assumptions C17_loss_decreases.

Example C17_case : let pow := (fun x y : R => x * x) in
  (forall x, 0 <= x -> pow x 2 = x * x) /\ valid_par (Some 3%Z) /\
  let c := [[0]; [10]] in let data := [[1]; [9]; [3]] in
  c <> [] /\ all_dim 1 c /\ all_dim 1 data.
Proof. repeat split; try discriminate; repeat constructor. Qed.

Theorem C18_means : forall par d (c data : list (list R)) (lab : list R -> Z),
  valid_par par -> c <> [] -> all_dim d data ->
  (forall x, exists cl di, assign RNum euclid c x = Ok (cl, lab x, di)) ->
  exists c', strategy_iterate RNum euclid par c data = Ok (map Some c') /\ length c' = length c /\
    forall i ci ci', nth_error c i = Some ci -> nth_error c' i = Some ci' ->
      (members lab i data = [] -> ci' = ci) /\
      (members lab i data <> [] -> is_mean d ci' (members lab i data)).
Proof. exact lloyd_mean_main. Qed.
Print Assumptions C18_means.

End Reals.

(** Every Space and number type, binary64 included. *)
Theorem C18_any_space : forall E F (N : Num F) good, NumOrd N good ->
  forall (Sp : Space E F) (c data : list E) (lab : E -> Z),
  (forall x, exists cl d, assign N Sp c x = Ok (cl, lab x, d)) -> c <> [] ->
  exists c', seq_iterate N Sp c data = Ok (map Some c') /\
    length c' = length c /\
    (forall i ci, nth_error c i = Some ci ->
       (members lab i data = [] -> nth_error c' i = Some ci) /\
       (members lab i data <> [] -> exists m, dba Sp (members lab i data) = Some m /\ nth_error c' i = Some m)) /\
    (forall P degree, mean_space Sp P -> Forall P data -> (0 < degree)%Z ->
       par_iterate N Sp degree c data = seq_iterate N Sp c data).
Proof. exact lloyd_main. Qed.
Print Assumptions C18_any_space.

(** One iteration in binary64, sequential and parallel; the third cluster is empty. *)
Example C18_case : let c := [v64 [0]%Z; v64 [10]%Z; v64 [100]%Z] in let data := [v64 [1]%Z; v64 [9]%Z; v64 [3]%Z] in
  let shown o := match o with Ok l => map (option_map (map show64)) l | Panic => [] end in
  shown (seq_iterate B64Num (euclid_space B64Num) c data)
    = map (fun z => Some (map show64 (v64 [z]))) [2; 9; 100]%Z /\
  shown (par_iterate B64Num (euclid_space B64Num) 2 c data)
    = map (fun z => Some (map show64 (v64 [z]))) [2; 9; 100]%Z.
Proof. vm_compute. auto. Qed.

Section Box.
Local Open Scope R_scope.

Theorem C19_box : forall par d (c data : list (list R)), valid_par par -> c <> [] -> all_dim d c -> all_dim d data ->
  forall n cn, iterations RNum euclid par data n c cn ->
  forall j lo hi, (j < d)%nat ->
  (forall v, In v (data ++ c) -> lo <= coord j v <= hi) ->
  forall v, In v cn -> lo <= coord j v <= hi.
Proof. exact box_main. Qed.
Print Assumptions C19_box.

Example C19_case : let c := [[0; 5]; [10; 6]] in let data := [[1; 2]; [9; 3]; [3; 9]] in
  c <> [] /\ all_dim 2 c /\ all_dim 2 data /\
  (forall v, In v (data ++ c) -> 0 <= coord 0 v <= 10).
Proof.
  split; [discriminate|]. split; [repeat constructor|]. split; [repeat constructor|].
  intros v H. cbn in H. repeat (destruct H as [<-|H]; [unfold coord; cbn; lra|]). destruct H.
Qed.

End Box.

(** What the iterations and initializations do use. *)
Theorem C20_data_used_partial : forall E C (initializer : list E -> C) (iterate : C -> list E -> C), forall (initial : list E) size (rounds : list (list (E * bool) * round_end C)) b0 us b,
  new_data_buffer initial size = Ok b0 -> calls initializer iterate b0 (rounds_calls rounds) us b ->
  forall before r after, rounds = before ++ r :: after ->
  exists u, nth_error us (length before) = Some u /\
    ((size <= 0)%Z -> used_data u = expected_data initial before r) /\
    ((0 < size)%Z -> rotation (used_data u) (last_n (Z.to_nat size) (expected_data initial before r))) /\
    used_result u = match snd r with EndInit => initializer (used_data u) | EndIterate c => iterate c (used_data u) end.
Proof. exact @data_used_main. Qed.
Print Assumptions C20_data_used_partial.

(** An element pushed between two iterations is not used by the next one. *)
Theorem C20_next_iteration_refuted : exists (b0 b : buffer Z) us u,
  new_data_buffer [1%Z] 0 = Ok b0 /\
  calls (fun d => d) (fun c d => c) b0 [CallInit; CallPush 2%Z true; CallIterate [1%Z]] us b /\
  nth_error us 1 = Some u /\ ~ In 2%Z (used_data u).
Proof. exact next_iteration_refuted. Qed.
Print Assumptions C20_next_iteration_refuted.

(** C68 is the exact version of C20. *)
Theorem C68_data_used : forall E C (initializer : list E -> C) (iterate : C -> list E -> C), forall (initial : list E) size (rounds : list (list (E * bool) * round_end C)) b0 us b,
  new_data_buffer initial size = Ok b0 -> calls initializer iterate b0 (rounds_calls rounds) us b ->
  forall before r after, rounds = before ++ r :: after ->
  exists u, nth_error us (length before) = Some u /\
    ((size <= 0)%Z -> used_data u = expected_data initial before r) /\
    ((0 < size)%Z -> rotation (used_data u) (last_n (Z.to_nat size) (expected_data initial before r))) /\
    used_result u = match snd r with EndInit => initializer (used_data u) | EndIterate c => iterate c (used_data u) end.
Proof. exact @data_used_main. Qed.
Print Assumptions C68_data_used.

(** A history with pushes in both modes and what each call used. *)
Example C68_case :
  let rounds := [([(2%Z, false)], EndInit); ([(3%Z, true); (4%Z, false)], EndIterate [7%Z]); ([(5%Z, true)], EndIterate [8%Z])] in
  exists b0 b, new_data_buffer [1%Z] 0 = Ok b0 /\
  calls (fun d => d) (fun c d => c ++ d) b0 (rounds_calls rounds)
    [mkUsed [1; 2]%Z [1; 2]%Z; mkUsed [1; 2; 4]%Z [7; 1; 2; 4]%Z; mkUsed [1; 2; 4; 3]%Z [8; 1; 2; 4; 3]%Z] b /\
  expected_data [1%Z] (firstn 2 rounds) ([(5%Z, true)], EndIterate [8%Z]) = [1; 2; 4; 3]%Z.
Proof.
  do 2 eexists. split; [reflexivity|]. split; [|reflexivity]. cbn.
  repeat (first [eapply c_push; [reflexivity|] | eapply c_init; [reflexivity|] | eapply c_iter; [reflexivity|]]). apply c_nil.
Qed.
