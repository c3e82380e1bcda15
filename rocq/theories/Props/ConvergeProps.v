(** C82, C83: k-means converges, and does not depend on the order of the data. *)
From Coq Require Import List ZArith Lia Bool Reals Lra Permutation.
From Verif Require Import Base.Go Base.Num Model.Clustering Model.Par Model.Euclid Model.Kmeans
  Spec.ClusterSpec Spec.RealSpec Spec.KmeansSpec Proofs.Converge.
Import ListNotations.
Local Open Scope R_scope.
Local Notation euclid := (euclid_space RNum).

Theorem C82_converges : forall par d (c data : list (list R)), valid_par par -> c <> [] -> all_dim d c -> all_dim d data ->
  exists n0 cs, (n0 <= (length c + 2 ^ length data) ^ length c)%nat /\ length cs = length c /\
    (forall n, (n0 <= n)%nat -> iterations RNum euclid par data n c cs /\
       forall cn, iterations RNum euclid par data n c cn -> cn = cs) /\
    forall (lab : list R -> Z), (forall x, exists cl di, assign RNum euclid cs x = Ok (cl, lab x, di)) ->
      forall i ci, nth_error cs i = Some ci -> members lab i data <> [] -> is_mean d ci (members lab i data).
Proof. exact converge_main. Qed.
Print Assumptions C82_converges.

Example C82_case : valid_par (Some 2%Z) /\
  let c := [[0; 5]; [10; 6]] in let data := [[1; 2]; [9; 3]; [3; 9]] in
  c <> [] /\ all_dim 2 c /\ all_dim 2 data.
Proof. repeat split; try discriminate; repeat constructor. Qed.

Theorem C82_strict : forall (pow : R -> R -> R), (forall x, 0 <= x -> pow x 2 = x * x) ->
  forall par d (c data c' : list (list R)), valid_par par -> c <> [] -> all_dim d c -> all_dim d data ->
  strategy_iterate RNum euclid par c data = Ok (map Some c') -> c' <> c ->
  exists l l', total_loss RNum euclid pow c data 2 = Ok l /\ total_loss RNum euclid pow c' data 2 = Ok l' /\ l' < l.
Proof. exact strict_main. Qed.
Print Assumptions C82_strict.

Example C82_strict_case : (forall x : R, 0 <= x -> (fun x y => x * x) x 2 = x * x) /\ valid_par None /\
  exists c', strategy_iterate RNum euclid None [[0]; [10]] [[1]; [9]; [3]] = Ok (map Some c') /\ c' <> [[0]; [10]].
Proof.
  split; [reflexivity|]. split; [exact I|]. apply moved_ex.
Qed.

Theorem C83_order : forall par par' d (c data data' : list (list R)), valid_par par -> valid_par par' -> c <> [] ->
  all_dim d data -> Permutation data data' ->
  strategy_iterate RNum euclid par c data = strategy_iterate RNum euclid par' c data' /\
  forall n cn, all_dim d c -> iterations RNum euclid par data n c cn -> iterations RNum euclid par' data' n c cn.
Proof. exact order_main. Qed.
Print Assumptions C83_order.

Example C83_case : valid_par (Some 2%Z) /\ valid_par None /\ [[0]; [10]] <> [] /\
  all_dim 1 [[1]; [9]; [3]] /\ Permutation [[1]; [9]; [3]] [[9]; [3]; [1]].
Proof.
  split; [reflexivity|]. split; [exact I|]. split; [discriminate|]. split; [repeat constructor|].
  apply (Permutation_cons_append [[9]; [3]] [1]).
Qed.
