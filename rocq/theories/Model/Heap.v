(** Slices of elements in memory: what the values held by a caller look like after later writes.
    Used for streaming/impl.go (appends and stores to impl.clust) and for kmeans/seq.go with
    core/clustering.go:45-62 (stores to a new slice). *)
From Coq Require Import List ZArith Bool Arith.
From Verif Require Import Base.Go Base.Num Model.Clustering Model.Streaming.
Import ListNotations.

Section Heap.
Context {E F : Type} (N : Num F) (Sp : Space E F).

(** Go memory restricted to backing arrays of core.Clust; an array is a list as long as its
    capacity, a nil entry is None. *)
Definition mem : Type := list (list (option E)).

(** A slice: its array and length. All the slices here start at the beginning of their array. *)
Record slice : Type := mkSlice { sl_arr : nat; sl_len : nat }.

Definition array (m : mem) (a : nat) : list (option E) := nth a m [].
(** What a reader of the slice sees. *)
Definition read (m : mem) (s : slice) : list (option E) := firstn (sl_len s) (array m (sl_arr s)).

(** s[i] = x *)
Definition store (m : mem) (s : slice) (i : Z) (x : option E) : outcome mem :=
  if (i <? 0)%Z then Panic
  else if (Z.to_nat i <? sl_len s)%nat then Ok (upd m (sl_arr s) (upd (array m (sl_arr s)) (Z.to_nat i) x))
  else Panic.

(** append(s, x): in place when the capacity allows it, otherwise in a new array of capacity
    len + 1 + grow len, [grow] being the policy of the Go runtime. *)
Variable grow : nat -> nat.
Definition append (m : mem) (s : slice) (x : option E) : mem * slice :=
  let a := array m (sl_arr s) in
  if (sl_len s <? length a)%nat
  then (upd m (sl_arr s) (upd a (sl_len s) x), mkSlice (sl_arr s) (S (sl_len s)))
  else (m ++ [firstn (sl_len s) a ++ x :: repeat None (grow (sl_len s))], mkSlice (length m) (S (sl_len s))).

(** A nil element given to a space is a panic (failed type assertion). *)
Fixpoint elements (l : list (option E)) : outcome (list E) :=
  match l with
  | [] => Ok []
  | None :: _ => Panic
  | Some x :: l' => let* r := elements l' in Ok (x :: r)
  end.

(** ** streaming/impl.go *)
Variables (buffer_size out_after : Z) (out_ratio : F).

(** streaming/impl.go:12-20 with impl.clust a slice; the cardinalities are not visible outside. *)
Record hstreaming : Type := mkHStreaming {
  h_mem : mem; h_max : F; h_clust : slice; h_cards : list Z; h_queue : list E; h_count : Z
}.

(** streaming/impl.go:30-44 for len(elemts) <= BufferSize; impl.clust is the nil slice (array 0,
    of capacity 0). *)
Definition new_hstreaming (elemts : list E) : hstreaming :=
  mkHStreaming [[]] (nof N 0) (mkSlice 0 0) [] elemts 0.

(** streaming/impl.go:110-114, 117-120 *)
Definition hadd_center (h : hstreaming) (x : E) (distance : F) : hstreaming :=
  let '(m, c) := append (h_mem h) (h_clust h) (Some x) in
  mkHStreaming m (update_max N (h_max h) distance) c (h_cards h ++ [1%Z]) (h_queue h) (h_count h).
Definition hadd_outlier (h : hstreaming) (x : E) : hstreaming :=
  let '(m, c) := append (h_mem h) (h_clust h) (Some x) in
  mkHStreaming m (h_max h) c (h_cards h ++ [1%Z]) (h_queue h) (h_count h).

(** streaming/impl.go:123-128 *)
Definition hupdate_center (h : hstreaming) (label : Z) (x : E) (distance : F) : outcome hstreaming :=
  let* c := sget (read (h_mem h) (h_clust h)) label in
  match c with
  | None => Panic
  | Some c =>
      let* n := sget (h_cards h) label in
      let* m := store (h_mem h) (h_clust h) label (Some (scombine Sp c n x 1%Z)) in
      let* cards := sset (h_cards h) label (n + 1)%Z in
      Ok (mkHStreaming m (update_max N (h_max h) distance) (h_clust h) cards (h_queue h) (h_count h))
  end.

(** streaming/impl.go:136-151 *)
Definition hprocess (h : hstreaming) (x : E) (threshold : F) : outcome hstreaming :=
  let* clust := elements (read (h_mem h) (h_clust h)) in
  let* a := assign N Sp clust x in
  let '(_, label, distance) := a in
  let '(max, relative) := relative_distance N (h_max h) distance in
  let h := mkHStreaming (h_mem h) max (h_clust h) (h_cards h) (h_queue h) (h_count h) in
  let* h :=
    (if (out_after <=? h_count h)%Z && nltb N out_ratio relative then Ok (hadd_outlier h x)
     else if nltb N threshold relative then Ok (hadd_center h x distance)
     else hupdate_center h label x distance) in
  Ok (mkHStreaming (h_mem h) (h_max h) (h_clust h) (h_cards h) (h_queue h) (h_count h + 1)).

(** What a call returns: the slice of centroids is the value Centroids() will give. *)
Inductive hres : Type :=
| HPush (full : bool)
| HInit (clust : option slice)
| HIterate (clust : option slice).

(** streaming/impl.go:47-58, 61-70 and 77-84. core.Clust{centroids} is a new array of one element. *)
Definition hstep (h : hstreaming) (o : sop E F) : outcome (hstreaming * hres) :=
  match o with
  | SPush x =>
      if (slen (h_queue h) <? buffer_size)%Z
      then Ok (mkHStreaming (h_mem h) (h_max h) (h_clust h) (h_cards h) (h_queue h ++ [x]) (h_count h), HPush false)
      else Ok (h, HPush true)
  | SInit =>
      match h_queue h with
      | [] => Ok (h, HInit None)
      | x :: q =>
          let r := mkSlice (length (h_mem h)) 1 in
          Ok (hadd_center (mkHStreaming (h_mem h ++ [[Some x]]) (h_max h) (h_clust h) (h_cards h) q (h_count h)) x (nof N 0),
              HInit (Some r))
      end
  | SIterate t =>
      match h_queue h with
      | [] => Ok (h, HIterate None)
      | x :: q =>
          let* h := hprocess (mkHStreaming (h_mem h) (h_max h) (h_clust h) (h_cards h) q (h_count h)) x t in
          Ok (h, HIterate (Some (h_clust h)))
      end
  end.

Inductive hexec : hstreaming -> list (sop E F) -> list hres -> hstreaming -> Prop :=
| hx_nil : forall h, hexec h [] [] h
| hx_cons : forall h o r h1 ops rs h2,
    hstep h o = Ok (h1, r) -> hexec h1 ops rs h2 -> hexec h (o :: ops) (r :: rs) h2.

(** ** Sequential k-means: core/clustering.go:45-62 on a new slice, kmeans/seq.go:21-33. *)
Definition hdba_add (s : slice) (label : Z) (elemt : E) (st : mem * list Z) : outcome (mem * list Z) :=
  let '(m, cards) := st in
  let* n := sget cards label in
  if (n =? 0)%Z then
    let* m := store m s label (Some (scopy Sp elemt)) in
    let* cards := sset cards label 1%Z in Ok (m, cards)
  else
    let* c := sget (read m s) label in
    match c with
    | None => Panic
    | Some c =>
        let* m := store m s label (Some (scombine Sp c n elemt 1%Z)) in
        let* cards := sset cards label (n + 1)%Z in Ok (m, cards)
    end.

Definition hreduce_dba (m : mem) (c : slice) (elemts : list E) : outcome (mem * slice) :=
  let r := mkSlice (length m) (sl_len c) in
  let m0 : mem := m ++ [repeat None (sl_len c)] in
  let* st := ofold (fun st elemt =>
      let* clust := elements (read (fst st) c) in
      let* a := assign N Sp clust elemt in
      let '(_, ix, _) := a in hdba_add r ix elemt st)
    elemts (m0, repeat 0%Z (sl_len c)) in
  Ok (fst st, r).

Definition hseq_iterate (m : mem) (c : slice) (data : list E) : outcome (mem * slice) :=
  let* mr := hreduce_dba m c data in
  let '(m, r) := mr in
  let* m := ofold (fun m i =>
      let* x := sget (read m r) i in
      match x with
      | None => let* y := sget (read m c) i in store m r i y
      | Some _ => Ok m
      end)
    (map Z.of_nat (List.seq 0 (sl_len r))) m in
  Ok (m, r).
End Heap.
Arguments mem : clear implicits.
Arguments hstreaming : clear implicits.

(** Successive iterations of the sequential strategy, on data that may change in between; the
    centroids of one iteration are given to the next. *)
Inductive hiterations {E F} (N : Num F) (Sp : Space E F) : mem E -> slice -> list (list E) -> mem E -> slice -> Prop :=
| hi_nil : forall m c, hiterations N Sp m c [] m c
| hi_cons : forall m c data m1 c1 datas m2 c2,
    hseq_iterate N Sp m c data = Ok (m1, c1) -> hiterations N Sp m1 c1 datas m2 c2 ->
    hiterations N Sp m c (data :: datas) m2 c2.
