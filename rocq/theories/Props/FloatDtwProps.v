(** C113: the DTW distance in binary64. *)
From Coq Require Import List ZArith Lia Bool Reals.
From Flocq Require Import IEEE754.BinarySingleNaN.
From Verif Require Import Base.Go Base.Num Model.Clustering Model.Euclid Model.Dtw Model.DtwSpace
  Spec.DtwSpec Spec.FloatSpec Spec.FloatDtwSpec Spec.SystemSpec Spec.NearestSpec Proofs.FloatKmeans Proofs.FloatDtw.
Import ListNotations.
Local Open Scope R_scope.
Local Notation euclid64 := (euclid_space B64Num).

(** The distance computed is finite and near the exact one, which exists. *)
Theorem C113_distance : forall k d L window (a b : list (list b64)), (-500 <= k <= 480)%Z -> (Z.of_nat d <= 2 ^ 47)%Z -> (Z.of_nat L <= 2 ^ 45)%Z -> (0 < window)%Z ->
  series (box_vec k d) (Z.of_nat L) a -> series (box_vec k d) (Z.of_nat L) b ->
  exists v, dtw_dist B64Num b64_inf edist64 (scombine euclid64) window a b = Ok v /\ is_finite v = true /\ 0 <= B2R v /\ (exists D, exact_dtw window a b D) /\
    forall D, exact_dtw window a b D -> 0 <= D /\ Rabs (B2R v - D) <= dtw_rel d L * D + dtw_abs d L.
Proof. exact dtw_accurate. Qed.
Print Assumptions C113_distance.

(** The centroid chosen is nearest up to the rounding errors. *)
Theorem C113_nearest : forall k d L window (c : list (list (list b64))) (x : list (list b64)), (-500 <= k <= 480)%Z -> (Z.of_nat d <= 2 ^ 47)%Z -> (Z.of_nat L <= 2 ^ 45)%Z -> (0 < window)%Z ->
  c <> [] -> Forall (series (box_vec k d) (Z.of_nat L)) c -> series (box_vec k d) (Z.of_nat L) x ->
  let Sp := dtw_space B64Num b64_inf edist64 (scombine euclid64) window in
  exists l cl, assign B64Num Sp c x = Ok (Some cl, Z.of_nat l, sdist Sp x cl) /\ nth_error c l = Some cl /\
    forall y D D', In y c -> exact_dtw window x cl D -> exact_dtw window x y D' -> D <= (1 + 3 * dtw_rel d L) * D' + 3 * dtw_abs d L.
Proof. exact dtw_nearest. Qed.
Print Assumptions C113_nearest.

(** Series in the plane: the cells on the way have distances 2, sqrt 2 and sqrt 2, the sum is rounded. *)
Example C113_case : let a := [v64 [0; 0]; v64 [1; 1]; v64 [2; 2]]%Z in let b := [v64 [0; 2]; v64 [2; 0]; v64 [3; 3]]%Z in
  (-500 <= 4 <= 480)%Z /\ (Z.of_nat 2 <= 2 ^ 47)%Z /\ (Z.of_nat 3 <= 2 ^ 45)%Z /\ series (box_vec 4 2) (Z.of_nat 3) a /\ series (box_vec 4 2) (Z.of_nat 3) b /\
  show_o (dtw_dist B64Num b64_inf edist64 (scombine euclid64) 1 a b) = Some (show64 (b64_add (b64_add (b64_of_Z 2) (b64_sqrt (b64_of_Z 2))) (b64_sqrt (b64_of_Z 2)))) /\
  match assign B64Num (dtw_space B64Num b64_inf edist64 (scombine euclid64) 1) [a; b] [v64 [0; 1]; v64 [2; 1]; v64 [3; 3]; v64 [3; 2]; v64 [4; 3]]%Z with Ok (Some _, l, _) => l = 1%Z | _ => False end.
Proof.
  cbv zeta. split; [lia|]. split; [lia|]. split; [lia|].
  split; [split; [discriminate|]; split; [cbn; lia|]; repeat (apply Forall_cons; [apply (box_of_Zs 4); (lia || reflexivity)|]); apply Forall_nil|].
  split; [split; [discriminate|]; split; [cbn; lia|]; repeat (apply Forall_cons; [apply (box_of_Zs 4); (lia || reflexivity)|]); apply Forall_nil|].
  vm_compute. repeat split.
Qed.
