(** C111: parallel k-means in memory. *)
From Coq Require Import List ZArith Bool.
From Verif Require Import Base.Go Base.Num Model.Clustering Model.Euclid Model.Kmeans Model.Heap Model.HeapPar Spec.NearestSpec Proofs.NumLaws Proofs.HeapParProofs.
Import ListNotations.

(** One iteration on the slice [c] of centroids. Whatever the interleaving of the goroutines: nobody panics; every slice
    that existed before reads the same in every state reached; the goroutines can go on until each element has been
    processed once; then the aggregation gives the value of the sequential description of the parallel strategy (Model/Kmeans.v)
    in a slice on a new array. *)
Theorem C111_interleavings : forall E F (N : Num F) (Sp : Space E F) good, NumOrd N good -> forall (m0 : mem E) c (cs data : list E) degree,
  sl_arr c < length m0 -> sl_len c <= length (array m0 (sl_arr c)) -> read m0 c = map Some cs -> cs <> [] -> (0 < degree)%Z ->
  exists v parts, par_iterate N Sp degree cs data = Ok (map Some v) /\ hpar_chunks data degree = Ok parts /\ concat parts = data /\ forall schedule,
    par_steps N Sp c (hstart m0 c parts) schedule <> Some Panic /\
    forall m ws, par_steps N Sp c (hstart m0 c parts) schedule = Some (Ok (m, ws)) ->
      length schedule <= length data /\
      (forall t, sl_arr t < length m0 -> sl_len t <= length (array m0 (sl_arr t)) -> read m t = read m0 t) /\
      (length schedule < length data -> exists i m' ws', par_step N Sp c (m, ws) i = Some (Ok (m', ws'))) /\
      (length schedule = length data -> exists m' r, hpar_join Sp m c ws = Ok (m', r) /\ read m' r = map Some v /\ length m0 <= sl_arr r /\
         forall t, sl_arr t < length m0 -> sl_len t <= length (array m0 (sl_arr t)) -> read m' t = read m0 t).
Proof. intros E F. exact (@par_heap_main E F). Qed.
Print Assumptions C111_interleavings.

(** Iterations one after the other, each with its interleaving: centroids published before any of them read the same after
    all of them, and the last centroids are those of the strategy applied to values. *)
Theorem C111_snapshots : forall E F (N : Num F) (Sp : Space E F) good, NumOrd N good -> forall degree (m : mem E) c datas m' c' cs, (0 < degree)%Z -> cs <> [] ->
  sl_arr c < length m -> sl_len c <= length (array m (sl_arr c)) -> read m c = map Some cs -> hpar_iterations N Sp degree m c datas m' c' ->
  (forall t, sl_arr t < length m -> sl_len t <= length (array m (sl_arr t)) -> read m' t = read m t) /\
  exists cs', ofold (fun cs data => let* v := par_iterate N Sp degree cs data in elements v) datas cs = Ok cs' /\ read m' c' = map Some cs'.
Proof. intros E F. exact (@par_snapshots E F). Qed.
Print Assumptions C111_snapshots.

(** Three goroutines on four elements, interleaved; an older slice of centroids exists. *)
Example C111_case : let m0 := [[Some (v64 [5]%Z)]; [Some (v64 [0]%Z); Some (v64 [10]%Z); Some (v64 [100]%Z)]] in
  let data := [v64 [1]; v64 [3]; v64 [9]; v64 [11]]%Z in
  let show := map (option_map (map show64)) in
  match par_iterate B64Num (euclid_space B64Num) 3 [v64 [0]; v64 [10]; v64 [100]]%Z data, hpar_chunks data 3 with
  | Ok v, Ok parts =>
      map (@length _) parts = [1; 1; 2] /\ show v = map (fun z => Some (map show64 (v64 [z]))) [2; 10; 100]%Z /\
      forallb (fun schedule =>
        match par_steps B64Num (euclid_space B64Num) (mkSlice 1 3) (hstart m0 (mkSlice 1 3) parts) schedule with
        | Some (Ok (m, ws)) =>
            match hpar_join (euclid_space B64Num) m (mkSlice 1 3) ws with
            | Ok (m', r) => Nat.eqb (sl_arr r) 5 && Nat.eqb (sl_len r) 3
            | Panic => false
            end
        | _ => false
        end) [[0; 1; 2; 2]; [2; 1; 0; 2]; [2; 0; 2; 1]] = true /\
      match par_steps B64Num (euclid_space B64Num) (mkSlice 1 3) (hstart m0 (mkSlice 1 3) parts) [2; 0; 2; 1] with
      | Some (Ok (m, ws)) =>
          match hpar_join (euclid_space B64Num) m (mkSlice 1 3) ws with
          | Ok (m', r) => show (read m' r) = show v /\ show (read m' (mkSlice 1 3)) = show (read m0 (mkSlice 1 3)) /\ show (read m' (mkSlice 0 1)) = show (read m0 (mkSlice 0 1))
          | Panic => False
          end
      | _ => False
      end
  | _, _ => False
  end.
Proof. vm_compute. auto 10. Qed.

(** Two iterations with different interleavings and a push in between. *)
Example C111_case2 : let m := [[Some (v64 [0]%Z); Some (v64 [10]%Z)]] in let c := mkSlice 0 2 in
  exists m' c', hpar_iterations B64Num (euclid_space B64Num) 2 m c [[v64 [1]; v64 [9]]; [v64 [1]; v64 [9]; v64 [3]]]%Z m' c' /\
    map (option_map (map show64)) (read m' c') = map (fun z => Some (map show64 (v64 [z]))) [2; 9]%Z /\
    map (option_map (map show64)) (read m' c) = map (fun z => Some (map show64 (v64 [z]))) [0; 10]%Z.
Proof.
  cbv zeta. set (m := [[Some (v64 [0]%Z); Some (v64 [10]%Z)]]). set (l := [([v64 [1]; v64 [9]]%Z, [1; 0]); ([v64 [1]; v64 [9]; v64 [3]]%Z, [1; 0; 1])]).
  assert (V : match par_run B64Num (euclid_space B64Num) 2 m (mkSlice 0 2) l with
    | Some (m', c') => map (option_map (map show64)) (read m' c') = map (fun z => Some (map show64 (v64 [z]))) [2; 9]%Z /\
        map (option_map (map show64)) (read m' (mkSlice 0 2)) = map (fun z => Some (map show64 (v64 [z]))) [0; 10]%Z
    | None => False end) by (vm_compute; auto).
  destruct (par_run B64Num (euclid_space B64Num) 2 m (mkSlice 0 2) l) as [[m' c']|] eqn:H; [|contradiction].
  exists m', c'. split; [|exact V]. apply par_run_ok in H. exact H.
Qed.
