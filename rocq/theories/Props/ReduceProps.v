(** C05-C09: reductions per cluster, sequential and parallel. *)
From Coq Require Import List ZArith Bool Reals.
From Verif Require Import Base.Go Base.Num Model.Clustering Model.Par Model.Euclid
  Spec.ClusterSpec Spec.RealSpec Spec.SpaceSpec Spec.NearestSpec
  Proofs.NumLaws Proofs.EuclidProofs Proofs.ReduceMain.
Import ListNotations.

Theorem C05_reduce_dba : forall E F (N : Num F) good, NumOrd N good ->
  forall (Sp : Space E F) (c xs : list E) (lab : E -> Z),
  (forall x, exists cl d, assign N Sp c x = Ok (cl, lab x, d)) ->
  (c <> [] -> exists means cards,
    reduce_dba N Sp c xs = Ok (means, cards) /\
    length means = length c /\ length cards = length c /\
    (forall i, i < length c ->
      nth_error means i = Some (dba Sp (members lab i xs)) /\
      nth_error cards i = Some (Z.of_nat (length (members lab i xs))) /\
      (members lab i xs = [] <-> nth_error means i = Some None)) /\
    zsum cards = Z.of_nat (length xs)) /\
  (c = [] -> reduce_dba N Sp c xs = match xs with [] => Ok ([], []) | _ => Panic end).
Proof. exact reduce_dba_main. Qed.
Print Assumptions C05_reduce_dba.

(** Two clusters, three elements, one cluster left empty. *)
Example C05_case :
  match reduce_dba B64Num (euclid_space B64Num) [v64 [0]%Z; v64 [10]%Z; v64 [100]%Z] [v64 [1]%Z; v64 [9]%Z; v64 [3]%Z] with
  | Ok (means, cards) =>
      map (option_map (map show64)) means
        = [Some (map show64 (v64 [2]%Z)); Some (map show64 (v64 [9]%Z)); None] /\ cards = [2; 1; 0]%Z
  | Panic => False
  end.
Proof. vm_compute. auto. Qed.

Theorem C06_for_map_labels : forall E F (N : Num F) good, NumOrd N good ->
  forall (Sp : Space E F) pow (c xs : list E) norm,
  reduce_dba_for_labels Sp c xs (fst (map_label N Sp c xs)) = reduce_dba N Sp c xs /\
  reduce_loss_for_labels N Sp pow c xs (fst (map_label N Sp c xs)) norm = reduce_loss N Sp pow c xs norm.
Proof. exact for_labels_main. Qed.
Print Assumptions C06_for_map_labels.

Theorem C06_for_any_labels : forall E F (N : Num F) (Sp : Space E F) pow (c xs : list E) labels norm,
  length xs <= length labels ->
  (forall i l, nth_error labels i = Some l -> i < length xs -> (0 <= l < Z.of_nat (length c))%Z) ->
  (exists means cards,
    reduce_dba_for_labels Sp c xs labels = Ok (means, cards) /\
    length means = length c /\ length cards = length c /\
    forall i, i < length c ->
      nth_error means i = Some (dba Sp (labelled i labels xs)) /\
      nth_error cards i = Some (Z.of_nat (length (labelled i labels xs)))) /\
  (exists losses cards,
    reduce_loss_for_labels N Sp pow c xs labels norm = Ok (losses, cards) /\
    length losses = length c /\ length cards = length c /\
    forall i ci, nth_error c i = Some ci ->
      nth_error losses i = Some (fold_left (fun acc x => nadd N acc (pow (sdist Sp x ci) norm))
                                   (labelled i labels xs) (nof N 0)) /\
      nth_error cards i = Some (Z.of_nat (length (labelled i labels xs)))).
Proof. exact for_any_labels_main. Qed.
Print Assumptions C06_for_any_labels.

(** Labels that are not the nearest ones. *)
Example C06_case :
  let labels := [1; 0; 1]%Z in let c := [v64 [0]%Z; v64 [10]%Z] in
  let xs := [v64 [1]%Z; v64 [9]%Z; v64 [3]%Z] in
  length xs <= length labels /\
  forallb (fun l => (0 <=? l) && (l <? Z.of_nat (length c)))%Z labels = true /\
  match reduce_dba_for_labels (euclid_space B64Num) c xs labels with
  | Ok (means, cards) => map (option_map (map show64)) means
        = [Some (map show64 (v64 [9]%Z)); Some (map show64 (v64 [2]%Z))] /\ cards = [1; 2]%Z
  | Panic => False
  end.
Proof. split; [repeat constructor|vm_compute; auto]. Qed.

Theorem C07_reduce_loss : forall E F (N : Num F) good, NumOrd N good ->
  forall (Sp : Space E F) pow (c xs : list E) norm (lab : E -> Z) (dis : E -> F),
  (forall x, exists cl, assign N Sp c x = Ok (cl, lab x, dis x)) -> c <> [] ->
  exists losses cards,
    reduce_loss N Sp pow c xs norm = Ok (losses, cards) /\
    length losses = length c /\ length cards = length c /\
    forall i, i < length c ->
      nth_error losses i = Some (fold_left (fun acc x => nadd N acc (pow (dis x) norm)) (members lab i xs) (nof N 0)) /\
      nth_error cards i = Some (Z.of_nat (length (members lab i xs))).
Proof. exact reduce_loss_main. Qed.
Print Assumptions C07_reduce_loss.

Theorem C07_total_loss : forall E (Sp : Space E R) (pow : R -> R -> R) (c xs : list E) (norm : R) (lab : E -> Z) (dis : E -> R),
  (forall x, exists cl, assign RNum Sp c x = Ok (cl, lab x, dis x)) -> c <> [] ->
  total_loss RNum Sp pow c xs norm = Ok (rsum (map (fun x => pow (dis x) norm) xs)).
Proof. exact total_loss_main. Qed.
Print Assumptions C07_total_loss.

(** Squared norm on two clusters: losses 1+9 and 1. *)
Example C07_case :
  match reduce_loss B64Num (euclid_space B64Num) (fun d _ => b64_mul d d)
          [v64 [0]%Z; v64 [10]%Z] [v64 [1]%Z; v64 [9]%Z; v64 [3]%Z] (b64_of_Z 2) with
  | Ok (losses, cards) => map show64 losses = map show64 (v64 [10; 1]%Z) /\ cards = [2; 1]%Z
  | Panic => False
  end.
Proof. vm_compute. auto. Qed.

Theorem C08_par_loss : forall E F (N : Num F) good, NumOrd N good ->
  forall (Sp : Space E F) pow (c data : list E) norm degree,
  c <> [] -> (0 < degree)%Z ->
  exists chunks seq_losses losses cards,
    concat chunks = data /\ Z.of_nat (length chunks) = degree /\
    reduce_loss N Sp pow c data norm = Ok (seq_losses, cards) /\
    par_reduce_loss N Sp pow c data norm degree = Ok (losses, cards) /\
    length losses = length c /\
    exists parts, omap (fun chunk => reduce_loss N Sp pow c chunk norm) chunks = Ok parts /\
      forall i, i < length c ->
        exists first rest,
          map (fun p => nth_error (fst p) i) parts = map Some (first :: rest) /\
          nth_error losses i = Some (fold_left (nadd N) rest first).
Proof. exact par_loss_cards_main. Qed.
Print Assumptions C08_par_loss.

Theorem C08_par_loss_exact : forall E (Sp : Space E R) pow (c data : list E) norm degree,
  c <> [] -> (0 < degree)%Z ->
  par_reduce_loss RNum Sp pow c data norm degree = reduce_loss RNum Sp pow c data norm /\
  par_total_loss RNum Sp pow c data norm degree = total_loss RNum Sp pow c data norm /\
  (forall labels, length labels = length data ->
     (forall l, In l labels -> (0 <= l < Z.of_nat (length c))%Z) ->
     par_reduce_loss_for_labels RNum Sp pow c data labels norm degree
     = reduce_loss_for_labels RNum Sp pow c data labels norm).
Proof. exact par_loss_exact_main. Qed.
Print Assumptions C08_par_loss_exact.

Example C08_case :
  match par_reduce_loss B64Num (euclid_space B64Num) (fun d _ => b64_mul d d)
          [v64 [0]%Z; v64 [10]%Z] [v64 [1]%Z; v64 [9]%Z; v64 [3]%Z] (b64_of_Z 2) 2 with
  | Ok (losses, cards) => map show64 losses = map show64 (v64 [10; 1]%Z) /\ cards = [2; 1]%Z
  | Panic => False
  end.
Proof. vm_compute. auto. Qed.

Theorem C09_par_dba : forall E F (N : Num F) good, NumOrd N good ->
  forall (Sp : Space E F) (P : E -> Prop), mean_space Sp P ->
  forall (c data : list E) degree, (0 < degree)%Z -> Forall P data ->
  (c <> [] -> exists means cards res,
     reduce_dba N Sp c data = Ok (means, cards) /\
     par_reduce_dba N Sp c data degree = Ok (res, cards) /\
     length res = length c /\
     forall i ci n, nth_error c i = Some ci -> nth_error cards i = Some n ->
       nth_error res i = if (0 <? n)%Z then nth_error means i else Some (Some ci)) /\
  (forall labels, length labels = length data ->
     (forall l, In l labels -> (0 <= l < Z.of_nat (length c))%Z) ->
     par_dba_for_labels Sp c data labels degree = reduce_dba_for_labels Sp c data labels).
Proof. exact par_dba_main. Qed.
Print Assumptions C09_par_dba.

(** Vectors of a fixed dimension satisfy the weighted-average law required by C09. *)
Theorem C09_euclid_applies : forall d, mean_space (euclid_space RNum) (fun v => length v = d).
Proof. exact euclid_mean_space. Qed.
Print Assumptions C09_euclid_applies.

(** Two chunks; the empty third cluster keeps its previous centroid. *)
Example C09_case :
  match par_reduce_dba B64Num (euclid_space B64Num) [v64 [0]%Z; v64 [10]%Z; v64 [100]%Z]
          [v64 [1]%Z; v64 [9]%Z; v64 [3]%Z] 2 with
  | Ok (res, cards) => map (option_map (map show64)) res
        = [Some (map show64 (v64 [2]%Z)); Some (map show64 (v64 [9]%Z)); Some (map show64 (v64 [100]%Z))]
        /\ cards = [2; 1; 0]%Z
  | Panic => False
  end.
Proof. vm_compute. auto. Qed.
