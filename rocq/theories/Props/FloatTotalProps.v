(** C114: total losses in float64 are accurate, whatever the order of the additions. *)
From Coq Require Import List ZArith Reals.
From Flocq Require Import IEEE754.BinarySingleNaN.
From Verif Require Import Base.Go Base.Num Model.Clustering Model.Par Model.Euclid Spec.FloatSpec Spec.FloatTotalSpec Spec.NearestSpec Proofs.FloatTotal.
Import ListNotations.
Local Open Scope R_scope.

(** Sequential and parallel losses of the clusters: every float64 sum of them, in any order, is close to the exact loss. *)
Theorem C114_any_order : forall pow k d (c data : list (list b64)) L,
  squares pow -> c <> [] -> (-500 <= k <= 450)%Z -> (Z.of_nat d <= 2 ^ 47)%Z -> (Z.of_nat (length data) <= 2 ^ 50)%Z ->
  Forall (box_vec k d) c -> Forall (box_vec k d) data -> exact_loss c data L ->
  (exists losses cards, reduce_loss B64Num (euclid_space B64Num) pow c data (b64_of_Z 2) = Ok (losses, cards) /\ close_total d (length data) L losses) /\
  forall degree, (0 < degree)%Z -> exists losses cards,
    par_reduce_loss B64Num (euclid_space B64Num) pow c data (b64_of_Z 2) degree = Ok (losses, cards) /\ close_total d (length data) L losses.
Proof. exact loss_total. Qed.
Print Assumptions C114_any_order.

(** The totals added from left to right, sequential and parallel. *)
Theorem C114_totals : forall pow k d (c data : list (list b64)) L degree,
  squares pow -> c <> [] -> (-500 <= k <= 450)%Z -> (Z.of_nat d <= 2 ^ 47)%Z -> (Z.of_nat (length data) <= 2 ^ 50)%Z ->
  Forall (box_vec k d) c -> Forall (box_vec k d) data -> exact_loss c data L -> (0 < degree)%Z ->
  exists s p, total_loss B64Num (euclid_space B64Num) pow c data (b64_of_Z 2) = Ok s /\
    par_total_loss B64Num (euclid_space B64Num) pow c data (b64_of_Z 2) degree = Ok p /\
    is_finite s = true /\ is_finite p = true /\
    Rabs (B2R s - L) <= loss_rel d (length data) * L + loss_abs d (length data) /\
    Rabs (B2R p - L) <= loss_rel d (length data) * L + loss_abs d (length data).
Proof. exact total_values. Qed.
Print Assumptions C114_totals.

(** Multiplication satisfies the hypothesis on the power function, and the others can be met together. *)
Example C114_case : let c := [v64 [0]; v64 [9]]%Z in let data := [v64 [0]; v64 [0]; v64 [1]]%Z in
  squares (fun x _ => b64_mul x x) /\ c <> [] /\ (-500 <= 4 <= 450)%Z /\ (Z.of_nat 1 <= 2 ^ 47)%Z /\ (Z.of_nat (length data) <= 2 ^ 50)%Z /\
  Forall (box_vec 4 1) c /\ Forall (box_vec 4 1) data /\ exact_loss c data 1 /\ (0 < 2)%Z.
Proof. exact total_case. Qed.
