(** Remaining statements of C10-C16 and their concrete cases. *)
From Coq Require Import List ZArith Lia Bool Reals Lra Permutation.
From Flocq Require Import IEEE754.BinarySingleNaN.
From Verif Require Import Base.Go Base.Num Model.Clustering Model.Euclid Model.Cosinus
  Spec.RealSpec Spec.SpaceSpec Spec.NearestSpec
  Proofs.GoLemmas Proofs.NumLaws Proofs.EuclidProofs Proofs.EuclidFloat Proofs.CosinusProofs Proofs.AssignMain.
Import ListNotations.
Local Open Scope R_scope.

Lemma predict_finite : forall (c : list (list b64)) (x : list b64),
  c <> [] -> finite_vec x -> Forall (fun y => finite_vec y /\ length y = length x) c ->
  exists l cl,
    assign B64Num (euclid_space B64Num) c x = Ok (Some cl, Z.of_nat l, sdist (euclid_space B64Num) x cl) /\
    first_nearest64 (euclid_space B64Num) c x l cl.
Proof.
  intros c x Hc Hx HF. apply assign_float64; [exact Hc|]. intros y Hy.
  rewrite Forall_forall in HF. destruct (HF y Hy) as [Hf Hl].
  destruct (euclid_float_main x y Hx Hf (eq_sym Hl)) as (d & H1 & _ & H3 & H4 & _).
  cbn [sdist euclid_space]. rewrite H1. auto.
Qed.

Lemma cosinus_predict_nonneg : forall (c : list (list b64)) (x : list b64),
  c <> [] ->
  (forall y, In y c -> not_nan64 (sdist (cosinus_space B64Num) x y) /\
                       b64_leb (b64_of_Z 0) (sdist (cosinus_space B64Num) x y) = true) ->
  exists l cl,
    assign B64Num (cosinus_space B64Num) c x = Ok (Some cl, Z.of_nat l, sdist (cosinus_space B64Num) x cl) /\
    first_nearest64 (cosinus_space B64Num) c x l cl.
Proof. intros c x. apply assign_float64. Qed.

Lemma vector_panics : forall F (N : Num F) (p1 p2 : list F) w1 w2,
  ((length p2 < length p1)%nat ->
     point_dist N p1 p2 = Panic /\ point_combine N p1 w1 p2 w2 = Panic /\ cos_dist N p1 p2 = Panic) /\
  ((length p1 <= length p2)%nat ->
     (exists d, point_dist N p1 p2 = Ok d /\ point_dist N p1 (firstn (length p1) p2) = Ok d) /\
     (exists r, point_combine N p1 w1 p2 w2 = Ok r /\ length r = length p1 /\
                point_combine N p1 w1 (firstn (length p1) p2) w2 = Ok r) /\
     (exists d, cos_dist N p1 p2 = Ok d)).
Proof.
  intros F N p1 p2 w1 w2. destruct (euclid_panics N p1 p2 w1 w2) as [H1 H2].
  destruct (cosinus_panics N p1 p2) as [H3 H4]. split; intros H.
  - destruct (H1 H). auto.
  - destruct (H2 H). auto.
Qed.

Lemma dba_case :
  let vs := [[1; 2]; [3; 4]; [8; 0]] in
  vs <> [] /\ all_dim 2 vs /\ Permutation vs [[8; 0]; [3; 4]; [1; 2]] /\
  is_mean 2 [4; 2] vs /\ Forall (fun w => (0 < w)%Z) [1; 2; 3]%Z.
Proof.
  cbn zeta. split; [discriminate|]. split; [repeat constructor|]. split.
  - apply (Permutation_rev [[1; 2]; [3; 4]; [8; 0]]).
  - split; [|repeat constructor].
    split; [reflexivity|]. intros [|[|j]] Hj; [| |lia]; unfold coord; cbn; lra.
Qed.

Lemma euclid_metric_case : let a := [0; 0] in let b := [3; 4] in let c := [3; 0] in
  length a = length b /\ length b = length c /\ sdist (euclid_space RNum) a b = 5.
Proof.
  cbn zeta. split; [reflexivity|]. split; [reflexivity|]. rewrite euclid_dist_R by (cbn; lia).
  replace (sqdist [0; 0] [3; 4]) with (5 * 5) by (cbn; lra). apply sqrt_square. lra.
Qed.

Lemma barycentre_case : length [0; 4] = length [8; 0] /\ (0 < 3)%Z /\ (0 < 1)%Z /\
  scombine (euclid_space RNum) [0; 4] 3%Z [8; 0] 1%Z = [2; 3].
Proof.
  split; [reflexivity|]. split; [lia|]. split; [lia|]. rewrite euclid_combine_R by (cbn; lia).
  cbn [combine map fst snd]. f_equal; [lra|f_equal; lra].
Qed.

Lemma cosinus_case : length [3; 4] = length [4; 3] /\
  Exists (fun x => x <> 0) [3; 4] /\ Exists (fun x => x <> 0) [4; 3] /\
  cos_dist RNum [3; 4] [4; 3] = Ok (1 / 25).
Proof.
  split; [reflexivity|]. split; [constructor; lra|]. split; [constructor; lra|].
  rewrite cos_dist_R by (cbn; lia).
  replace (dot [3; 4] [3; 4]) with (5 * 5) by (cbn; lra).
  replace (dot [4; 3] [4; 3]) with (5 * 5) by (cbn; lra).
  replace (dot [3; 4] [4; 3]) with 24 by (cbn; lra).
  rewrite sqrt_square by lra. f_equal. lra.
Qed.
