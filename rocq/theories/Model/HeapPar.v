(** The parallel strategy of k-means in memory (core/par_dba.go, kmeans/par.go): the goroutines of core.Par interleave. *)
From Coq Require Import List ZArith Bool Arith.
From Verif Require Import Base.Go Base.Num Model.Clustering Model.Par Model.Heap.
Import ListNotations.

Section HeapPar.
Context {E F : Type} (N : Num F) (Sp : Space E F).
Notation mem := (mem E).

(** A goroutine of core/par_dba.go:11-13: the slices of its ReduceDBA (core/clustering.go:45-62), which become
    parts[rank], and the elements it has still to process. *)
Record worker : Type := mkWorker { w_dbas : slice; w_cards : list Z; w_todo : list E }.

(** core/clustering.go:46-47 in each goroutine, before any element is processed: where the arrays are in memory does not
    matter, only that they are new. *)
Definition hstart (m : mem) (c : slice) (parts : list (list E)) : mem * list worker :=
  fold_left (fun '(m, ws) part =>
      (m ++ [repeat None (sl_len c)], ws ++ [mkWorker (mkSlice (length m) (sl_len c)) (repeat 0%Z (sl_len c)) part]))
    parts (m, []).

(** core/clustering.go:48-59: one element; None when the goroutine is done. *)
Definition worker_step (c : slice) (m : mem) (w : worker) : option (outcome (mem * worker)) :=
  match w_todo w with
  | [] => None
  | x :: todo =>
      Some (let* clust := elements (read m c) in
            let* a := assign N Sp clust x in
            let '(_, ix, _) := a in
            let* st := hdba_add Sp (w_dbas w) ix x (m, w_cards w) in
            Ok (fst st, mkWorker (w_dbas w) (snd st) todo))
  end.

(** The i-th goroutine does its next step. *)
Definition par_step (c : slice) (p : mem * list worker) (i : nat) : option (outcome (mem * list worker)) :=
  match nth_error (snd p) i with
  | None => None
  | Some w =>
      match worker_step c (fst p) w with
      | None => None
      | Some r => Some (let* mw := r in Ok (fst mw, upd (snd p) i (snd mw)))
      end
  end.
Fixpoint par_steps (c : slice) (p : mem * list worker) (schedule : list nat) : option (outcome (mem * list worker)) :=
  match schedule with
  | [] => Some (Ok p)
  | i :: schedule => match par_step c p i with Some (Ok p) => par_steps c p schedule | r => r end
  end.

(** core/par_dba.go:57-74; the aggregate is written in place. *)
Definition hdba_combine (agg : slice) (st : mem * list Z) (other : worker) : outcome (mem * list Z) :=
  ofold (fun st i =>
    let '(m, cards) := st in
    let* ci := sget cards i in
    if (ci =? 0)%Z then
      let* od := sget (read m (w_dbas other)) i in
      let* m := store m agg i od in
      let* oc := sget (w_cards other) i in
      let* cards := sset cards i oc in
      Ok (m, cards)
    else
      let* oc := sget (w_cards other) i in
      if (0 <? oc)%Z then
        let* ad := sget (read m agg) i in
        let* od := sget (read m (w_dbas other)) i in
        match ad, od with
        | Some ad, Some od =>
            let* m := store m agg i (Some (scombine Sp ad ci od oc)) in
            let* cards := sset cards i (ci + oc)%Z in
            Ok (m, cards)
        | _, _ => Panic
        end
      else Ok (m, cards))
    (map Z.of_nat (seq 0 (sl_len agg))) st.

(** core/par_dba.go:76-86: a new slice. *)
Definition hbuild_result (m : mem) (c agg : slice) (cards : list Z) : outcome (mem * slice) :=
  let r := mkSlice (length m) (sl_len agg) in
  let* m := ofold (fun m i =>
      let* ci := sget cards i in
      if (0 <? ci)%Z then let* d := sget (read m agg) i in store m r i d
      else let* d := sget (read m c) i in store m r i d)
    (map Z.of_nat (seq 0 (sl_len c))) (m ++ [repeat None (sl_len agg)]) in
  Ok (m, r).

(** core/par_dba.go:17-18 and 43-55 after the goroutines are done: the slice of the first one is the aggregate. There is
    at least one, as Par panics for degree 0. *)
Definition hpar_join (m : mem) (c : slice) (ws : list worker) : outcome (mem * slice) :=
  match ws with
  | [] => Panic
  | w :: ws =>
      let* st := ofold (hdba_combine (w_dbas w)) ws (m, w_cards w) in
      hbuild_result (fst st) c (w_dbas w) (snd st)
  end.

(** The elements of each goroutine (core/util.go:9-31, core/par_dba.go:12). *)
Definition hpar_chunks (data : list E) (degree : Z) : outcome (list (list E)) :=
  let* ranges := par_ranges (slen data) degree in
  omap (fun '(start, e, _) => sslice data start e) ranges.

(** Iterations of kmeans/impl.go:30-34 with the strategy of kmeans/par.go:23-26, each with its own interleaving and its own
    data; the centroids published by one are those of the next. *)
Inductive hpar_iterations (degree : Z) : mem -> slice -> list (list E) -> mem -> slice -> Prop :=
| hpi_nil : forall m c, hpar_iterations degree m c [] m c
| hpi_cons : forall m c data datas parts schedule m1 ws m2 r m3 c3,
    hpar_chunks data degree = Ok parts ->
    par_steps c (hstart m c parts) schedule = Some (Ok (m1, ws)) -> Forall (fun w => w_todo w = []) ws ->
    hpar_join m1 c ws = Ok (m2, r) ->
    hpar_iterations degree m2 r datas m3 c3 ->
    hpar_iterations degree m c (data :: datas) m3 c3.
End HeapPar.
Arguments worker : clear implicits.
