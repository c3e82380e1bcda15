(** C119: does k-means in float64 come to rest? *)
From Coq Require Import List ZArith Lia Bool.
From Verif Require Import Base.Go Base.Num Model.Clustering Model.Par Model.Euclid Model.Kmeans
  Spec.ClusterSpec Spec.KmeansSpec Spec.NearestSpec Spec.RestSpec Proofs.NumLaws Proofs.FloatCycle Proofs.FloatRest.
Import ListNotations.
Local Open Scope nat_scope.

Theorem C119_cycle_refuted : exists c1 c2 data : list (list b64), c1 <> c2 /\
  forall n, iterations B64Num (euclid_space B64Num) None data (2 * n) c1 c1 /\
            iterations B64Num (euclid_space B64Num) None data (2 * n + 1) c1 c2.
Proof. exact cycle_main. Qed.
Print Assumptions C119_cycle_refuted.

Theorem C119_loss_refuted : exists c c' data, seq_iterate B64Num (euclid_space B64Num) c data = Ok (map Some c') /\
  forall pow : b64 -> b64 -> b64, (forall x, pow x (b64_of_Z 2) = nmul B64Num x x) ->
    shown_loss (total_loss B64Num (euclid_space B64Num) pow c data (b64_of_Z 2)) = Some (show64 (b64_of_Z 0)) /\
    shown_loss (total_loss B64Num (euclid_space B64Num) pow c' data (b64_of_Z 2)) = Some (show64 (b64_of_Z 3)).
Proof. exact cycle_loss_main. Qed.
Print Assumptions C119_loss_refuted.

Theorem C119_mean_refuted : exists (x y : list b64), x <> y /\
  seq_iterate B64Num (euclid_space B64Num) [x] [x; x; x] = Ok (map Some [y]) /\
  map show64 x = map show64 (v64 [6755399441055746]%Z) /\ map show64 y = map show64 (v64 [6755399441055747]%Z).
Proof. exact cycle_mean_main. Qed.
Print Assumptions C119_mean_refuted.

(** Whatever the space and the arithmetic, from some iteration on the centroids repeat with a fixed period. *)
Theorem C119_period_partial : forall (E F : Type) (N : Num F) good, NumOrd N good -> forall (Sp : Space E F) par (c data : list E),
  valid_par par -> c <> [] ->
  exists n0 p, 0 < p /\ forall n, n0 <= n ->
    exists cn, iterations N Sp par data n c cn /\ iterations N Sp par data (n + p) c cn /\
      forall c', iterations N Sp par data (n + p) c c' -> c' = cn.
Proof. exact period_main. Qed.
Print Assumptions C119_period_partial.

Theorem C119_bound_partial : forall (E F : Type) (N : Num F) good, NumOrd N good -> forall (Sp : Space E F) (c data : list E), c <> [] ->
  exists n0 p, 0 < p /\ n0 + p <= (length c + 2 ^ length data) ^ length c /\ forall n, n0 <= n ->
    exists cn, iterations N Sp None data n c cn /\ iterations N Sp None data (n + p) c cn /\
      forall c', iterations N Sp None data (n + p) c c' -> c' = cn.
Proof. exact period_seq_main. Qed.
Print Assumptions C119_bound_partial.

(** The hypotheses hold for float64, and the cycle has period 2 there, not 1. *)
Example C119_case : NumOrd B64Num not_nan64 /\ valid_par (Some 2%Z) /\ [lo64; hi64] <> [] /\
  iterations B64Num (euclid_space B64Num) None cycle_data 2 [lo64; hi64] [lo64; hi64] /\
  ~ iterations B64Num (euclid_space B64Num) None cycle_data 1 [lo64; hi64] [lo64; hi64].
Proof.
  split; [exact B64NumOrd|]. split; [reflexivity|]. split; [discriminate|]. split.
  - econstructor; [exact cycle_up|]. econstructor; [exact cycle_down|constructor].
  - intros H. assert (H1 : iterations B64Num (euclid_space B64Num) None cycle_data 1 [lo64; hi64] [hi64; hi64]) by (econstructor; [exact cycle_up|constructor]).
    pose proof (iterations_functional B64Num (euclid_space B64Num) None cycle_data 1 _ _ _ H H1) as E. exact (lo_hi (f_equal (hd lo64) E)).
Qed.

(** Values of few significant bits (integers below 2^53 divided by the number of elements, for
    example): equal elements have that element as their mean, and centroids placed on their elements
    stay there for ever, under both strategies. *)
Theorem C119_copies_partial : forall n (x : list b64), (0 < n)%nat -> (Z.of_nat n < 2 ^ 53)%Z -> Forall (few_bits (Z.of_nat n)) x ->
  dba (euclid_space B64Num) (repeat x n) = Some x.
Proof. exact copies_main. Qed.
Print Assumptions C119_copies_partial.

Theorem C119_rest_partial : forall par (c data : list (list b64)), valid_par par -> c <> [] -> (Z.of_nat (length data) < 2 ^ 53)%Z ->
  Forall (Forall (few_bits (Z.of_nat (length data)))) data ->
  (forall x, In x data -> exists i d, assign B64Num (euclid_space B64Num) c x = Ok (Some x, i, d)) ->
  forall n, iterations B64Num (euclid_space B64Num) par data n c c.
Proof. exact rest_main. Qed.
Print Assumptions C119_rest_partial.

(** Three copies of one element and one of another; the centroid without elements is left alone. The
    centroid of [C119_mean_refuted] has too many bits. *)
Example C119_rest_case : let c := [v64 [3; -7]; v64 [100; 100]; v64 [5; 0]]%Z in let data := [v64 [3; -7]; v64 [5; 0]; v64 [3; -7]; v64 [3; -7]]%Z in
  valid_par (Some 2%Z) /\ c <> [] /\ (Z.of_nat (length data) < 2 ^ 53)%Z /\ Forall (Forall (few_bits (Z.of_nat (length data)))) data /\
  (forall x, In x data -> exists i d, assign B64Num (euclid_space B64Num) c x = Ok (Some x, i, d)) /\
  (forall n, iterations B64Num (euclid_space B64Num) (Some 2%Z) data n c c).
Proof.
  intros c data.
  assert (H1 : valid_par (Some 2%Z)) by reflexivity.
  assert (H2 : c <> []) by discriminate.
  assert (H3 : (Z.of_nat (length data) < 2 ^ 53)%Z) by reflexivity.
  assert (H4 : Forall (Forall (few_bits (Z.of_nat (length data)))) data)
    by (repeat constructor; apply few_bits_int; reflexivity).
  assert (H5 : forall x, In x data -> exists i d, assign B64Num (euclid_space B64Num) c x = Ok (Some x, i, d)).
  { assert (Ha : exists i d, assign B64Num (euclid_space B64Num) c (v64 [3; -7]%Z) = Ok (Some (v64 [3; -7]%Z), i, d))
      by (apply (assign_at c _ 0 H2); [vm_compute; reflexivity|reflexivity]).
    assert (Hb : exists i d, assign B64Num (euclid_space B64Num) c (v64 [5; 0]%Z) = Ok (Some (v64 [5; 0]%Z), i, d))
      by (apply (assign_at c _ 2 H2); [vm_compute; reflexivity|reflexivity]).
    intros x [<-|[<-|[<-|[<-|[]]]]]; assumption. }
  repeat (split; [assumption|]). exact (rest_main _ c data H1 H2 H3 H4 H5).
Qed.
