(** C46-C53, C69: dynamic time warping. *)
From Coq Require Import List ZArith Bool Lia Reals Lra.
From Verif Require Import Base.Go Base.Num Model.Clustering Model.Euclid Model.Dtw Spec.NearestSpec Spec.DtwSpec Proofs.DtwMain.
Import ListNotations.
Local Open Scope Z_scope.

Theorem C46_in_bounds : forall (P F : Type) (N : Num F) (inf : F) (pdist : P -> P -> F) (s1 s2 : list P) (window : Z),
  s1 <> [] -> s2 <> [] -> 0 < window -> Z.abs (slen s1 - slen s2) <= window ->
  (exists d, new_dtw_window N inf pdist s1 s2 window = Ok d) /\
  (let stride := eff_stride window (slen s2) in
   let cell i j := 0 <= i < slen s1 /\ 0 <= j < slen s2 /\ within window (i, j) in
   (forall i j, cell i j -> 0 <= ravel window stride i j < slen s1 * stride) /\
   (forall i j i' j', cell i j -> cell i' j' -> ravel window stride i j = ravel window stride i' j' -> (i, j) = (i', j'))).
Proof. exact matrix_in_bounds. Qed.
Print Assumptions C46_in_bounds.

(** Series of 5 and 4 points, window 1: two rows out of five are shifted by ravel. *)
Example C46_case : series64 [0; 4; 5; 6; 9] <> [] /\ series64 [1; 4; 7; 9] <> [] /\
  Z.abs (slen (series64 [0; 4; 5; 6; 9]) - slen (series64 [1; 4; 7; 9])) <= 1 /\
  match new_dtw_window B64Num b64_inf edist64 (series64 [0; 4; 5; 6; 9]) (series64 [1; 4; 7; 9]) 1 with
  | Ok d => d_path d = [(4, 3); (3, 2); (2, 1); (1, 1); (0, 0)] /\ show64 (d_dist d) = show64 (b64_of_Z 3)
  | Panic => False
  end /\ eff_stride 1 4 = 3 /\ ravel 1 3 1 2 = 5 /\ ravel 1 3 2 1 = 6.
Proof. split; [discriminate|]. split; [discriminate|]. split; [vm_compute; discriminate|]. vm_compute. repeat split. Qed.

Theorem C47_least : forall (P : Type) (pdist : P -> P -> b64) (s1 s2 : list P) (window : Z),
  (forall p q, In p s1 -> In q s2 -> nneg64 (pdist p q)) ->
  s1 <> [] -> s2 <> [] -> 0 < window -> Z.abs (slen s1 - slen s2) <= window ->
  exists d, new_dtw_window B64Num b64_inf pdist s1 s2 window = Ok d /\
    least_warping B64Num pdist s1 s2 (within window) (d_dist d).
Proof. exact dist_is_least. Qed.
Print Assumptions C47_least.

(** The same in exact arithmetic. *)
Theorem C47_least_exact : forall (P : Type) (rdist : P -> P -> R) (s1 s2 : list P) (window : Z),
  (forall p q, In p s1 -> In q s2 -> 0 <= rdist p q)%R ->
  s1 <> [] -> s2 <> [] -> 0 < window -> Z.abs (slen s1 - slen s2) <= window ->
  exists d r, new_dtw_window ENum None (fun p q => Some (rdist p q)) s1 s2 window = Ok d /\
    d_dist d = Some r /\ least_warping RNum rdist s1 s2 (within window) r.
Proof. exact dist_is_least_exact. Qed.
Print Assumptions C47_least_exact.

(** With the Euclidean distance between finite points of the same dimension the hypothesis on distances is met. *)
Theorem C47_euclid : forall (pcombine : list b64 -> Z -> list b64 -> Z -> list b64) (d : nat) (a b : list (list b64)) (window : Z),
  finite_series d a -> finite_series d b -> a <> [] -> b <> [] -> 0 < window -> Z.abs (slen a - slen b) <= window ->
  exists v, dtw_dist B64Num b64_inf edist64 pcombine window a b = Ok v /\
            dtw_dist B64Num b64_inf edist64 pcombine window b a = Ok v /\
            least_warping B64Num edist64 a b (within window) v /\
            dtw_dist B64Num b64_inf edist64 pcombine window a a = Ok (b64_of_Z 0).
Proof. exact euclid_dtw. Qed.
Print Assumptions C47_euclid.

Example C47_case : finite_series 1 (series64 [0; 4; 5; 6; 9]) /\ finite_series 1 (series64 [1; 4; 7; 9]) /\
  nneg64 (edist64 [b64_of_Z 5] [b64_of_Z 7]) /\
  show64 (sum_along B64Num (at_cell edist64 [] (series64 [0; 4; 5; 6; 9]) (series64 [1; 4; 7; 9]))
            [(0, 0); (1, 1); (2, 1); (3, 2); (4, 3)]) = show64 (b64_of_Z 3) /\
  show64 (sum_along B64Num (at_cell edist64 [] (series64 [0; 4; 5; 6; 9]) (series64 [1; 4; 7; 9]))
            [(0, 0); (1, 1); (2, 2); (3, 3); (4, 3)]) = show64 (b64_of_Z 6).
Proof. split; [|split; [|split; [|vm_compute; split; reflexivity]]]; try (split; vm_compute; reflexivity);
  repeat (constructor; [split; [reflexivity|repeat constructor]|]); constructor. Qed.

Theorem C48_path : forall (P : Type) (pdist : P -> P -> b64) (s1 s2 : list P) (window : Z),
  (forall p q, In p s1 -> In q s2 -> nneg64 (pdist p q)) ->
  s1 <> [] -> s2 <> [] -> 0 < window -> Z.abs (slen s1 - slen s2) <= window ->
  exists d, new_dtw_window B64Num b64_inf pdist s1 s2 window = Ok d /\
    wpath (within window) (last_cell s1 s2) (rev (d_path d)) /\
    forall p0, sum_along B64Num (at_cell pdist p0 s1 s2) (rev (d_path d)) = d_dist d.
Proof. exact path_is_warping. Qed.
Print Assumptions C48_path.

(** Whatever the distances, NaN included, Path() is a warping path (it may then leave the window). *)
Theorem C48_any_distance : forall (P F : Type) (N : Num F) (inf : F) (pdist : P -> P -> F) (s1 s2 : list P) (window : Z),
  s1 <> [] -> s2 <> [] -> 0 < window -> Z.abs (slen s1 - slen s2) <= window ->
  exists d, new_dtw_window N inf pdist s1 s2 window = Ok d /\
    wpath anywhere (last_cell s1 s2) (rev (d_path d)).
Proof. exact path_any_distance. Qed.
Print Assumptions C48_any_distance.

Example C48_case :
  match new_dtw_window B64Num b64_inf edist64 (series64 [0; 0; 9]) (series64 [0; 9; 9; 9]) 2 with
  | Ok d => rev (d_path d) = [(0, 0); (1, 0); (2, 1); (2, 2); (2, 3)] /\ show64 (d_dist d) = show64 (b64_of_Z 0)
  | Panic => False
  end.
Proof. vm_compute. auto. Qed.

(** Without window the distance can panic. *)
Theorem C49_total_refuted : exists a b, a <> [] /\ b <> [] /\ dtw_dist B64Num b64_inf edist64 keep 0 a b = Panic.
Proof. exact dist_total_counterexample. Qed.
Print Assumptions C49_total_refuted.

(** Without window the distance can depend on the order of the series. *)
Theorem C49_symmetric_refuted : exists a b v v', a <> [] /\ b <> [] /\
    dtw_dist B64Num b64_inf edist64 keep 0 a b = Ok v /\ dtw_dist B64Num b64_inf edist64 keep 0 b a = Ok v' /\
    show64 v = show64 (b64_of_Z 10) /\ show64 v' = show64 (b64_of_Z 0).
Proof. exact dist_symmetry_counterexample. Qed.
Print Assumptions C49_symmetric_refuted.

(** With a positive window Dist is total and symmetric. [t1], [t2] are the series after the longest one was resized. *)
Theorem C49_window_partial : forall (P : Type) (pdist : P -> P -> b64) (pcombine : P -> Z -> P -> Z -> P) (a b t1 t2 : list P) (window : Z),
  a <> [] -> b <> [] -> 0 < window -> shrink_longest pcombine a b window = Ok (t1, t2) ->
  (forall p q, In p t1 -> In q t2 -> nneg64 (pdist p q) /\ pdist p q = pdist q p) ->
  exists v, dtw_dist B64Num b64_inf pdist pcombine window a b = Ok v /\
            dtw_dist B64Num b64_inf pdist pcombine window b a = Ok v /\ nneg64 v.
Proof. exact dist_window. Qed.
Print Assumptions C49_window_partial.

Theorem C49_window_total_partial : forall (P F : Type) (N : Num F) (inf : F) (pdist : P -> P -> F) (pcombine : P -> Z -> P -> Z -> P)
    (a b : list P) (window : Z),
  a <> [] -> b <> [] -> 0 < window -> exists v, dtw_dist N inf pdist pcombine window a b = Ok v.
Proof. exact dist_window_total. Qed.
Print Assumptions C49_window_total_partial.

Theorem C49_self_partial : forall (P : Type) (pdist : P -> P -> b64) (pcombine : P -> Z -> P -> Z -> P) (a : list P) (window : Z),
  (forall p q, In p a -> In q a -> nneg64 (pdist p q)) -> (forall p, In p a -> pdist p p = b64_of_Z 0) -> a <> [] -> 0 <= window ->
  dtw_dist B64Num b64_inf pdist pcombine window a a = Ok (b64_of_Z 0).
Proof. exact dist_self. Qed.
Print Assumptions C49_self_partial.

Theorem C49_nowindow_symmetric_partial : forall (P : Type) (pdist : P -> P -> b64) (pcombine : P -> Z -> P -> Z -> P) (a b : list P),
  (forall p q, In p a -> In q b -> nneg64 (pdist p q) /\ pdist p q = pdist q p) ->
  a <> [] -> b <> [] -> Z.abs (slen a - slen b) <= 1 ->
  exists v, dtw_dist B64Num b64_inf pdist pcombine 0 a b = Ok v /\
            dtw_dist B64Num b64_inf pdist pcombine 0 b a = Ok v /\ nneg64 v.
Proof. exact dist_nowindow_close. Qed.
Print Assumptions C49_nowindow_symmetric_partial.

(** Without window Dist panics exactly when the first series has more than twice the points of the second. *)
Theorem C49_nowindow_panics : forall (P F : Type) (N : Num F) (inf : F) (pdist : P -> P -> F) (pcombine : P -> Z -> P -> Z -> P) (a b : list P),
  2 * slen b < slen a -> dtw_dist N inf pdist pcombine 0 a b = Panic.
Proof. exact dist_nowindow_panics. Qed.
Print Assumptions C49_nowindow_panics.

Theorem C49_nowindow_total_partial : forall (P F : Type) (N : Num F) (inf : F) (pdist : P -> P -> F) (pcombine : P -> Z -> P -> Z -> P) (a b : list P),
  a <> [] -> b <> [] -> slen a <= 2 * slen b -> exists v, dtw_dist N inf pdist pcombine 0 a b = Ok v.
Proof. exact dist_nowindow_total. Qed.
Print Assumptions C49_nowindow_total_partial.

Example C49_case :
  show_o (dtw_dist B64Num b64_inf edist64 keep 1 (series64 [0; 4; 5; 6; 9]) (series64 [1; 9])) = Some (show64 (b64_of_Z 5)) /\
  show_o (dtw_dist B64Num b64_inf edist64 keep 1 (series64 [1; 9]) (series64 [0; 4; 5; 6; 9])) = Some (show64 (b64_of_Z 5)) /\
  show_o (dtw_dist B64Num b64_inf edist64 keep 0 (series64 [1; 4; 9]) (series64 [1; 9])) = Some (show64 (b64_of_Z 3)) /\
  show_o (dtw_dist B64Num b64_inf edist64 keep 0 (series64 [1; 4; 9]) (series64 [1; 4; 9])) = Some (show64 (b64_of_Z 0)) /\
  show_o (dtw_dist B64Num b64_inf edist64 keep 0 (series64 [1; 4; 9]) (series64 [1])) = None.
Proof. vm_compute. repeat split; reflexivity. Qed.

Theorem C50_unconstrained_refuted : exists a b v p, a <> [] /\ b <> [] /\ dtw_dist B64Num b64_inf edist64 keep 0 a b = Ok v /\
    wpath anywhere (last_cell a b) p /\
    b64_ltb (sum_along B64Num (at_cell edist64 [] a b) p) v = true.
Proof. exact dist_nowindow_counterexample. Qed.
Print Assumptions C50_unconstrained_refuted.

Theorem C50_unconstrained_partial : forall (P : Type) (pdist : P -> P -> b64) (pcombine : P -> Z -> P -> Z -> P) (a b : list P),
  (forall p q, In p a -> In q b -> nneg64 (pdist p q)) -> a <> [] -> b <> [] -> slen a <= slen b + 1 ->
  exists v, dtw_dist B64Num b64_inf pdist pcombine 0 a b = Ok v /\ least_warping B64Num pdist a b anywhere v.
Proof. exact dist_nowindow_least. Qed.
Print Assumptions C50_unconstrained_partial.

(** What is computed without window: the least cost within a window of the length of the second series. *)
Theorem C50_constrained_partial : forall (P : Type) (pdist : P -> P -> b64) (pcombine : P -> Z -> P -> Z -> P) (a b : list P),
  (forall p q, In p a -> In q b -> nneg64 (pdist p q)) -> a <> [] -> b <> [] -> slen a <= 2 * slen b ->
  exists v, dtw_dist B64Num b64_inf pdist pcombine 0 a b = Ok v /\ least_warping B64Num pdist a b (within (slen b)) v.
Proof. exact dist_nowindow_constrained. Qed.
Print Assumptions C50_constrained_partial.

Example C50_case :
  show_o (dtw_dist B64Num b64_inf edist64 keep 0 (series64 [0; 9; 9]) (series64 [0; 0; 0; 9])) = Some (show64 (b64_of_Z 0)) /\
  slen (series64 [0; 9; 9]) <= slen (series64 [0; 0; 0; 9]) + 1.
Proof. vm_compute. split; [reflexivity|discriminate]. Qed.

Theorem C51_resize : forall (P : Type) (pcombine : P -> Z -> P -> Z -> P) (s : list P) (size : Z),
  2 <= slen s -> 1 <= size ->
  exists r, resize pcombine s size = Ok (map Some r) /\ slen r = size /\
    nth_error r 0 = nth_error s 0 /\
    (2 <= size -> nth_error r (length r - 1) = nth_error s (length s - 1)) /\
    (forall i p, nth_error r i = Some p ->
       (exists j, Z.of_nat j * (size - 1) = Z.of_nat i * (slen s - 1) /\ nth_error s j = Some p) \/
       (exists j a b, nth_error s j = Some a /\ nth_error s (S j) = Some b /\
          Z.of_nat j * (size - 1) < Z.of_nat i * (slen s - 1) < Z.of_nat (S j) * (size - 1) /\
          p = pcombine a (Z.of_nat (S j) * (size - 1) - Z.of_nat i * (slen s - 1))
                       b (Z.of_nat i * (slen s - 1) - Z.of_nat j * (size - 1)))) /\
    (size = slen s -> r = s).
Proof. exact resize_main. Qed.
Print Assumptions C51_resize.

(** A series of a single point cannot be resized (division by zero). *)
Theorem C51_single_point : forall (P : Type) (pcombine : P -> Z -> P -> Z -> P) (p : P) (size : Z),
  resize pcombine [p] size = Panic.
Proof. exact resize_single_panics. Qed.
Print Assumptions C51_single_point.

Example C51_case : let mean a wa b wb := (a * wa + b * wb) / (wa + wb) in
  resize mean [0; 40; 80; 120; 160] 3 = Ok [Some 0; Some 80; Some 160] /\
  resize mean [0; 40; 80] 5 = Ok [Some 0; Some 20; Some 40; Some 60; Some 80] /\
  resize mean [0; 40; 80; 120] 3 = Ok [Some 0; Some 60; Some 120] /\
  resize mean [0; 40; 80] 1 = Ok [Some 0].
Proof. vm_compute. auto. Qed.

Theorem C52_shrink : forall (P : Type) (pcombine : P -> Z -> P -> Z -> P) (s1 s2 : list P) (window : Z),
  s1 <> [] -> s2 <> [] ->
  exists t1 t2, shrink_longest pcombine s1 s2 window = Ok (t1, t2) /\
    (0 < window -> Z.abs (slen t1 - slen t2) <= window) /\
    (slen s1 <= slen s2 -> t1 = s1) /\ (slen s2 <= slen s1 -> t2 = s2) /\
    (Z.abs (slen s1 - slen s2) <= window -> t1 = s1 /\ t2 = s2) /\
    (window = 0 -> t1 = s1 /\ t2 = s2).
Proof. exact shrink_main. Qed.
Print Assumptions C52_shrink.

Example C52_case : let mean a wa b wb := (a * wa + b * wb) / (wa + wb) in
  shrink_longest mean [0; 40; 80; 120; 160] [1; 2] 1 = Ok ([0; 80; 160], [1; 2]) /\
  shrink_longest mean [1; 2] [0; 40; 80; 120; 160] 1 = Ok ([1; 2], [0; 80; 160]) /\
  shrink_longest mean [0; 40; 80; 120; 160] [1; 2] 3 = Ok ([0; 40; 80; 120; 160], [1; 2]).
Proof. vm_compute. auto. Qed.

Theorem C53_average : forall (P F : Type) (N : Num F) (inf : F) (pdist : P -> P -> F) (pcombine : P -> Z -> P -> Z -> P)
    (s1 s2 : list P) (window w1 w2 : Z) (p0 : P),
  s1 <> [] -> s2 <> [] -> 0 < window -> Z.abs (slen s1 - slen s2) <= window -> 0 < w1 -> 0 < w2 ->
  exists d r, new_dtw_window N inf pdist s1 s2 window = Ok d /\ dtw_dba pcombine s1 s2 d w1 w2 = Ok (map Some r) /\
    slen r = ((slen s1 - 1) * w1 + (slen s2 - 1) * w2) / (w1 + w2) + 1 /\
    Z.min (slen s1) (slen s2) <= slen r <= Z.max (slen s1) (slen s2) /\
    nth_error r 0 = Some (pcombine (nth 0 s1 p0) w1 (nth 0 s2 p0) w2) /\
    (forall i p, nth_error r i = Some p ->
       interpolated pcombine
         (map (fun e => pcombine (nth (Z.to_nat (fst e)) s1 p0) w1 (nth (Z.to_nat (snd e)) s2 p0) w2) (rev (d_path d)))
         (map (fun e => fst e * w1 + snd e * w2) (rev (d_path d))) (Z.of_nat i * (w1 + w2)) p).
Proof. exact average_main. Qed.
Print Assumptions C53_average.

(** dtw.Space.Combine, for all lengths. *)
Theorem C53_combine : forall (P F : Type) (N : Num F) (inf : F) (pdist : P -> P -> F) (pcombine : P -> Z -> P -> Z -> P)
    (s1 s2 : list P) (window w1 w2 : Z),
  s1 <> [] -> s2 <> [] -> 0 < window -> 0 < w1 -> 0 < w2 ->
  exists r, dtw_combine N inf pdist pcombine window s1 w1 s2 w2 = Ok r /\
    Z.min (slen s1) (slen s2) <= slen r <= Z.max (slen s1) (slen s2) /\
    (forall a b, nth_error s1 0 = Some a -> nth_error s2 0 = Some b -> nth_error r 0 = Some (pcombine a w1 b w2)).
Proof. exact combine_main. Qed.
Print Assumptions C53_combine.

Example C53_case : let mean a wa b wb := (a * wa + b * wb) / (wa + wb) in
  let dist (a b : Z) := b64_of_Z (Z.abs (a - b)) in
  match new_dtw_window B64Num b64_inf dist [0; 30; 60; 90] [0; 60] 2 with
  | Ok d => d_path d = [(3, 1); (2, 1); (1, 0); (0, 0)] /\
            dtw_dba mean [0; 30; 60; 90] [0; 60] d 1 2 = Ok [Some 0; Some 43]
  | Panic => False
  end /\ ((slen [0; 30; 60; 90] - 1) * 1 + (slen [0; 60] - 1) * 2) / (1 + 2) + 1 = 2.
Proof. vm_compute. auto. Qed.

Theorem C69_closed : forall (P F : Type) (N : Num F) (inf : F) (pdist : P -> P -> F) (pcombine : P -> Z -> P -> Z -> P)
    (Q : P -> Prop) (s1 s2 : list P) (window w1 w2 : Z),
  (forall a wa b wb, Q a -> Q b -> 0 < wa -> 0 < wb -> Q (pcombine a wa b wb)) ->
  s1 <> [] -> s2 <> [] -> 0 < window -> 0 < w1 -> 0 < w2 -> Forall Q s1 -> Forall Q s2 ->
  exists r, dtw_combine N inf pdist pcombine window s1 w1 s2 w2 = Ok r /\ r <> [] /\ Forall Q r.
Proof. exact combine_closed. Qed.
Print Assumptions C69_closed.

(** Euclidean points in exact arithmetic: the average stays in every box containing both series. *)
Theorem C69_box : forall (pdist : list R -> list R -> option R) (lo hi : list R) (s1 s2 : list (list R)) (window w1 w2 : Z),
  s1 <> [] -> s2 <> [] -> 0 < window -> 0 < w1 -> 0 < w2 ->
  Forall (in_box lo hi) s1 -> Forall (in_box lo hi) s2 ->
  exists r, dtw_combine ENum None pdist rcombine window s1 w1 s2 w2 = Ok r /\ r <> [] /\ Forall (in_box lo hi) r.
Proof. exact average_in_box. Qed.
Print Assumptions C69_box.

Example C69_case : Forall (in_box [0%R] [9%R]) [[0%R]; [4%R]; [9%R]] /\ Forall (in_box [0%R] [9%R]) [[1%R]].
Proof. split; repeat (constructor; [split; [reflexivity|split; [reflexivity|]]; intros [|j] Hj; cbn in *; [lra|lia]|]); constructor. Qed.
