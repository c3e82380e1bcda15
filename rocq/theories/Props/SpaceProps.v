(** C10-C16: means and the vector spaces. *)
From Coq Require Import List ZArith Bool Reals Lra Permutation.
From Flocq Require Import IEEE754.BinarySingleNaN.
From Verif Require Import Base.Go Base.Num Model.Clustering Model.Euclid Model.Cosinus
  Spec.RealSpec Spec.SpaceSpec Spec.NearestSpec
  Proofs.NumLaws Proofs.EuclidProofs Proofs.EuclidFloat Proofs.CosinusProofs Proofs.SpaceMain.
Import ListNotations.
Local Open Scope R_scope.

Theorem C10_dba_mean : forall d (vs : list (list R)),
  (vs = [] <-> dba (euclid_space RNum) vs = None) /\
  (vs <> [] -> all_dim d vs -> exists m, dba (euclid_space RNum) vs = Some m /\ is_mean d m vs).
Proof. exact dba_main. Qed.
Print Assumptions C10_dba_mean.

Theorem C10_dba_order : forall d (vs vs' : list (list R)),
  Permutation.Permutation vs vs' -> all_dim d vs ->
  dba (euclid_space RNum) vs = dba (euclid_space RNum) vs'.
Proof. exact dba_order. Qed.
Print Assumptions C10_dba_order.

Theorem C10_weighted_dba : forall d (vs : list (list R)) (ws : list Z),
  (vs = [] -> weighted_dba (euclid_space RNum) vs ws = Ok None) /\
  (vs <> [] -> (length ws < length vs)%nat -> weighted_dba (euclid_space RNum) vs ws = Panic) /\
  (vs <> [] -> length ws = length vs -> all_dim d vs -> Forall (fun w => (0 < w)%Z) ws ->
   exists m, weighted_dba (euclid_space RNum) vs ws = Ok (Some m) /\ is_weighted_mean d m vs ws).
Proof. exact weighted_dba_main. Qed.
Print Assumptions C10_weighted_dba.

Example C10_case :
  let vs := [[1; 2]; [3; 4]; [8; 0]] in
  vs <> [] /\ all_dim 2 vs /\ Permutation vs [[8; 0]; [3; 4]; [1; 2]] /\
  is_mean 2 [4; 2] vs /\ Forall (fun w => (0 < w)%Z) [1; 2; 3]%Z.
Proof. exact dba_case. Qed.

Theorem C11_euclid_metric : forall a b c : list R, length a = length b -> length b = length c ->
  let d x y := sdist (euclid_space RNum) x y in
  0 <= d a b /\ (d a b = 0 <-> a = b) /\ d a b = d b a /\ d a c <= d a b + d b c.
Proof. exact euclid_metric. Qed.
Print Assumptions C11_euclid_metric.

Example C11_case : let a := [0; 0] in let b := [3; 4] in let c := [3; 0] in
  length a = length b /\ length b = length c /\ sdist (euclid_space RNum) a b = 5.
Proof. exact euclid_metric_case. Qed.

Theorem C12_euclid_float64 : forall p1 p2 : list b64,
  finite_vec p1 -> finite_vec p2 -> length p1 = length p2 ->
  exists d, point_dist B64Num p1 p2 = Ok d /\ point_dist B64Num p2 p1 = Ok d /\
    not_nan64 d /\ b64_leb (b64_of_Z 0) d = true /\
    point_dist B64Num p1 p1 = Ok (b64_of_Z 0).
Proof. exact euclid_float_main. Qed.
Print Assumptions C12_euclid_float64.

Theorem C12_predict_finite : forall (c : list (list b64)) (x : list b64),
  c <> [] -> finite_vec x -> Forall (fun y => finite_vec y /\ length y = length x) c ->
  exists l cl,
    assign B64Num (euclid_space B64Num) c x = Ok (Some cl, Z.of_nat l, sdist (euclid_space B64Num) x cl) /\
    first_nearest64 (euclid_space B64Num) c x l cl.
Proof. exact predict_finite. Qed.
Print Assumptions C12_predict_finite.

Example C12_case : finite_vec (v64 [3; -4]%Z) /\ finite_vec (v64 [0; 0]%Z) /\
  length (v64 [3; -4]%Z) = length (v64 [0; 0]%Z) /\
  match point_dist B64Num (v64 [3; -4]%Z) (v64 [0; 0]%Z) with Ok d => show64 d = show64 (b64_of_Z 5) | Panic => False end.
Proof. repeat split; try (repeat constructor); vm_compute; reflexivity. Qed.

Theorem C13_euclid_barycentre : forall (a b c : list R) wa wb wc,
  length a = length b -> length b = length c -> (0 < wa)%Z -> (0 < wb)%Z -> (0 < wc)%Z ->
  let cmb := scombine (euclid_space RNum) in
  length (cmb a wa b wb) = length a /\
  (forall j, (j < length a)%nat ->
     coord j (cmb a wa b wb) = (IZR wa * coord j a + IZR wb * coord j b) / (IZR wa + IZR wb) /\
     Rmin (coord j a) (coord j b) <= coord j (cmb a wa b wb) <= Rmax (coord j a) (coord j b)) /\
  cmb a wa b wb = cmb b wb a wa /\
  cmb (cmb a wa b wb) (wa + wb)%Z c wc = cmb a wa (cmb b wb c wc) (wb + wc)%Z.
Proof. exact euclid_barycentre. Qed.
Print Assumptions C13_euclid_barycentre.

Example C13_case : length [0; 4] = length [8; 0] /\ (0 < 3)%Z /\ (0 < 1)%Z /\
  scombine (euclid_space RNum) [0; 4] 3%Z [8; 0] 1%Z = [2; 3].
Proof. exact barycentre_case. Qed.

Theorem C14_cosinus : forall a b : list R, length a = length b ->
  Exists (fun x => x <> 0) a -> Exists (fun x => x <> 0) b ->
  exists d, cos_dist RNum a b = Ok d /\ 0 <= d <= 2 /\
    cos_dist RNum b a = Ok d /\
    (forall k, 0 < k -> cos_dist RNum (map (Rmult k) a) b = Ok d /\ cos_dist RNum a (map (Rmult k) b) = Ok d) /\
    (d = 0 <-> exists k, 0 < k /\ a = map (Rmult k) b).
Proof. exact cosinus_main. Qed.
Print Assumptions C14_cosinus.

Example C14_case : length [3; 4] = length [4; 3] /\
  Exists (fun x => x <> 0) [3; 4] /\ Exists (fun x => x <> 0) [4; 3] /\
  cos_dist RNum [3; 4] [4; 3] = Ok (1 / 25).
Proof. exact cosinus_case. Qed.

(** The full statement of C15 is false: rounding makes a distance negative and a farther centroid is returned. *)
Theorem C15_cosinus_predict_refuted : exists (c : list (list b64)) (x : list b64) l cl d,
    (forall y, In y c -> not_nan64 (sdist (cosinus_space B64Num) x y)) /\
    assign B64Num (cosinus_space B64Num) c x = Ok (Some cl, l, d) /\
    exists y, In y c /\ b64_ltb (sdist (cosinus_space B64Num) x y) d = true.
Proof. exact cosinus_refuted. Qed.
Print Assumptions C15_cosinus_predict_refuted.

(** What remains true: when no computed distance is NaN or negative, the returned centroid is a nearest one. *)
Theorem C15_cosinus_predict_partial : forall (c : list (list b64)) (x : list b64),
  c <> [] ->
  (forall y, In y c -> not_nan64 (sdist (cosinus_space B64Num) x y) /\
                       b64_leb (b64_of_Z 0) (sdist (cosinus_space B64Num) x y) = true) ->
  exists l cl,
    assign B64Num (cosinus_space B64Num) c x = Ok (Some cl, Z.of_nat l, sdist (cosinus_space B64Num) x cl) /\
    first_nearest64 (cosinus_space B64Num) c x l cl.
Proof. exact cosinus_predict_nonneg. Qed.
Print Assumptions C15_cosinus_predict_partial.

Example C15_case :
  let c := [v64 [0; 1; 0]%Z; v64 [1; 0; 0]%Z] in let x := v64 [1; 2; 0]%Z in
  c <> [] /\ forallb (fun y => negb (is_nan (sdist (cosinus_space B64Num) x y))
                     && b64_leb (b64_of_Z 0) (sdist (cosinus_space B64Num) x y)) c = true.
Proof. split; [discriminate|vm_compute; reflexivity]. Qed.

Theorem C16_vector_panics : forall F (N : Num F) (p1 p2 : list F) w1 w2,
  ((length p2 < length p1)%nat ->
     point_dist N p1 p2 = Panic /\ point_combine N p1 w1 p2 w2 = Panic /\ cos_dist N p1 p2 = Panic) /\
  ((length p1 <= length p2)%nat ->
     (exists d, point_dist N p1 p2 = Ok d /\ point_dist N p1 (firstn (length p1) p2) = Ok d) /\
     (exists r, point_combine N p1 w1 p2 w2 = Ok r /\ length r = length p1 /\
                point_combine N p1 w1 (firstn (length p1) p2) w2 = Ok r) /\
     (exists d, cos_dist N p1 p2 = Ok d)).
Proof. exact vector_panics. Qed.
Print Assumptions C16_vector_panics.

Example C16_case : point_dist RNum [1; 2] [3] = Panic /\ point_dist RNum [3] [1; 2] <> Panic.
Proof. split; [reflexivity|discriminate]. Qed.
