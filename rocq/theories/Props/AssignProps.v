(** C01-C04: Assign / Predict, MapLabel, Par. *)
From Coq Require Import List ZArith Bool Reals.
From Verif Require Import Base.Go Base.Num Model.Clustering Model.Par Model.Euclid
  Spec.NearestSpec Spec.ParSpec Proofs.NumLaws Proofs.AssignMain.
Import ListNotations.

Theorem C01_assign_nearest_float64 : forall E (Sp : Space E b64) (c : list E) (x : E),
  c <> [] ->
  (forall y, In y c -> not_nan64 (sdist Sp x y) /\ b64_leb (b64_of_Z 0) (sdist Sp x y) = true) ->
  exists l cl,
    assign B64Num Sp c x = Ok (Some cl, Z.of_nat l, sdist Sp x cl) /\ first_nearest64 Sp c x l cl.
Proof. exact assign_float64. Qed.
Print Assumptions C01_assign_nearest_float64.

(** Three centroids, the last two at the same distance (5) of the element. *)
Example C01_case :
  let c := [v64 [9; 9]%Z; v64 [3; 4]%Z; v64 [4; 3]%Z] in
  (c <> [] /\
   forallb (fun y => negb (BinarySingleNaN.is_nan (sdist (euclid_space B64Num) (v64 [0; 0]%Z) y))
                     && b64_leb (b64_of_Z 0) (sdist (euclid_space B64Num) (v64 [0; 0]%Z) y)) c = true) /\
  match assign B64Num (euclid_space B64Num) c (v64 [0; 0]%Z) with
  | Ok (Some cl, l, d) => map show64 cl = map show64 (v64 [3; 4]%Z) /\ l = 1%Z /\ show64 d = show64 (b64_of_Z 5)
  | _ => False
  end.
Proof. split; [split; [discriminate|vm_compute; reflexivity]|vm_compute; auto]. Qed.

Theorem C01_assign_nearest_exact : forall E (Sp : Space E R) (c : list E) (x : E),
  c <> [] -> (forall y, In y c -> (0 <= sdist Sp x y)%R) ->
  exists l cl,
    assign RNum Sp c x = Ok (Some cl, Z.of_nat l, sdist Sp x cl) /\ first_nearest Sp c x l cl.
Proof. exact assign_exact. Qed.
Print Assumptions C01_assign_nearest_exact.

Theorem C02_assign_total : forall E (Sp : Space E b64) (c : list E) (x : E),
  (c = [] -> assign B64Num Sp c x = Ok (None, (-1)%Z, b64_of_Z (-1))) /\
  (c <> [] -> exists l cl,
     nth_error c l = Some cl /\ assign B64Num Sp c x = Ok (Some cl, Z.of_nat l, sdist Sp x cl)).
Proof. exact assign_total. Qed.
Print Assumptions C02_assign_total.

(** Distances NaN then 1: the NaN one is kept, with a valid label. *)
Example C02_case :
  assign B64Num (mkSpace (fun (_ y : bool) => if y then b64_div (b64_of_Z 0) (b64_of_Z 0) else b64_of_Z 1)
                   (fun a _ _ _ => a) (fun a => a) (fun _ => 0%Z)) [true; false] true
  = Ok (Some true, 0%Z, BinarySingleNaN.B754_nan).
Proof. vm_compute. reflexivity. Qed.

Theorem C03_map_label_assign : forall E F (N : Num F) good, NumOrd N good -> forall (Sp : Space E F) (c xs : list E),
  length (fst (map_label N Sp c xs)) = length xs /\
  length (snd (map_label N Sp c xs)) = length xs /\
  forall i x, nth_error xs i = Some x ->
    exists cl l d, assign N Sp c x = Ok (cl, l, d) /\
      nth_error (fst (map_label N Sp c xs)) i = Some l /\
      nth_error (snd (map_label N Sp c xs)) i = Some d.
Proof. exact map_label_assign. Qed.
Print Assumptions C03_map_label_assign.

Theorem C03_par_map_label : forall E F (N : Num F) (Sp : Space E F) (c data : list E) (degree : Z),
  (0 < degree)%Z ->
  (exists res, par_map_label_run N Sp c data degree res) /\
  (forall res, par_map_label_run N Sp c data degree res -> res = map_label N Sp c data).
Proof. exact par_map_label_main. Qed.
Print Assumptions C03_par_map_label.

Theorem C03_par_map_label_no_race :
  forall E F (N : Num F) (Sp : Space E F) (c data : list E) degree ranges gs,
  par_ranges (slen data) degree = Ok ranges ->
  omap (map_label_process N Sp c data) ranges = Ok gs ->
  forall i j gi gj wi wj, i <> j ->
    nth_error gs i = Some gi -> nth_error gs j = Some gj -> In wi gi -> In wj gj ->
    writes_cell wi <> writes_cell wj.
Proof. exact par_map_label_no_race. Qed.
Print Assumptions C03_par_map_label_no_race.

(** 3 elements on 2 goroutines: one and two elements; both comparison laws apply. *)
Example C03_case :
  NumOrd B64Num not_nan64 /\ NumOrd RNum (fun _ => True) /\
  match par_map_label B64Num (euclid_space B64Num) [v64 [0]%Z; v64 [10]%Z] [v64 [1]%Z; v64 [8]%Z; v64 [4]%Z] 2 with
  | Ok (labels, dists) => labels = [0; 1; 0]%Z /\ map show64 dists = map show64 (v64 [1; 2; 4]%Z)
  | Panic => False
  end.
Proof. split; [exact B64NumOrd|split; [exact RNumOrd|vm_compute; auto]]. Qed.

Theorem C04_par_partition : forall size degree, (0 <= size)%Z ->
  ((0 < degree)%Z -> exists ranges, par_ranges size degree = Ok ranges /\ even_partition size degree ranges) /\
  ((degree <= 0)%Z -> par_ranges size degree = Panic).
Proof. exact par_partition. Qed.
Print Assumptions C04_par_partition.

Example C04_case : par_ranges 10 4 = Ok [(0, 2, 0); (2, 4, 1); (4, 7, 2); (7, 10, 3)]%Z.
Proof. reflexivity. Qed.
