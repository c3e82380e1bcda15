(** Model of core/util.go, core/par_assign.go, core/par_loss.go and core/par_dba.go. *)
From Coq Require Import List ZArith Bool.
From Verif Require Import Base.Go Base.Num Model.Clustering.
Import ListNotations.
Local Open Scope Z_scope.

(** core/util.go:18-29: ranges (start, end, rank) given to the goroutines, in launch order;
    [n] is the number of iterations left and [i] the loop index. *)
Fixpoint par_loop (n : nat) (i start offset size degree remainder : Z) : list (Z * Z * Z) :=
  match n with
  | O => []
  | S n' =>
      let offset := if i =? degree - remainder then offset + 1 else offset in
      let e := start + offset in
      let e := if size <? e then size else e in
      (start, e, i) :: par_loop n' (i + 1) e offset size degree remainder
  end.

(** core/util.go:9-31: integer division by zero panics for degree 0 and [wg.Add(degree)] panics
    for a negative degree. *)
Definition par_ranges (size degree : Z) : outcome (list (Z * Z * Z)) :=
  let* offset := idiv size degree in
  let* remainder := imod size degree in
  if degree <? 0 then Panic
  else Ok (par_loop (Z.to_nat degree) 0 0 offset size degree remainder).

(** Goroutine schedules: [interleaving gs tr] holds when [tr] is a merge of the action sequences
    [gs], i.e. an execution order of the goroutines at the granularity of single actions. *)
Inductive interleaving {A : Type} : list (list A) -> list A -> Prop :=
| il_done : forall gs, (forall g, In g gs -> g = []) -> interleaving gs []
| il_step : forall gs1 a g gs2 tr,
    interleaving (gs1 ++ g :: gs2) tr ->
    interleaving (gs1 ++ (a :: g) :: gs2) (a :: tr).

Section Par.
Context {E F : Type} (N : Num F) (Sp : Space E F).

(** Memory actions of the goroutines of [parMapLabel]: a single-cell write in one of the two
    result slices. *)
Inductive label_write : Type :=
| WLabel (i : nat) (v : Z)
| WDist (i : nat) (v : F).

Definition apply_label_write (m : list Z * list F) (w : label_write) : list Z * list F :=
  match w with
  | WLabel i v => (upd (fst m) i v, snd m)
  | WDist i v => (fst m, upd (snd m) i v)
  end.

Fixpoint indexed {A B : Type} (f : nat -> A -> B) (i : nat) (l : list A) : list B :=
  match l with [] => [] | x :: l' => f i x :: indexed f (S i) l' end.

(** core/par_assign.go:7-11: what one goroutine writes ([copy(labels[start:end], ...)] then
    [copy(dists[start:end], ...)], cell by cell). It only reads immutable data. *)
Definition map_label_process (c : list E) (data : list E) (rg : Z * Z * Z)
  : outcome (list label_write) :=
  let '(start, e, _) := rg in
  let* part := sslice data start e in
  let '(labels, dists) := map_label N Sp c part in
  Ok (indexed WLabel (Z.to_nat start) labels ++ indexed WDist (Z.to_nat start) dists).

(** core/par_assign.go:3-15: a possible result of ParMapLabel (core/clustering.go:40-42) under
    some schedule of the goroutines. *)
Definition par_map_label_run (c : list E) (data : list E) (degree : Z) (res : list Z * list F)
  : Prop :=
  exists ranges gs tr,
    par_ranges (slen data) degree = Ok ranges /\
    omap (map_label_process c data) ranges = Ok gs /\
    interleaving gs tr /\
    res = fold_left apply_label_write tr
            (repeat 0 (length data), repeat (nof N 0) (length data)).

(** The same with the goroutines run one after the other; used as the value of ParMapLabel in the
    rest of the model (justified by C03). *)
Definition par_map_label (c : list E) (data : list E) (degree : Z) : outcome (list Z * list F) :=
  let* ranges := par_ranges (slen data) degree in
  let* gs := omap (map_label_process c data) ranges in
  Ok (fold_left apply_label_write (concat gs)
        (repeat 0 (length data), repeat (nof N 0) (length data))).

(** Each goroutine of parLoss/parReduceDBA writes only its own entry [parts[rank]], once; the
    entries are read after [wg.Wait()]. So the parts are those of the ranges whatever the schedule
    (see [par_parts_any_schedule] in Proofs/ParProofs.v). *)

Section Loss.
Variable pow : F -> F -> F.

(** core/par_loss.go:44-60. The zero value of [aggregate.losses] is nil (None). *)
Definition loss_aggregate_step (agg : option (list F * list Z)) (p : list F * list Z)
  : outcome (option (list F * list Z)) :=
  match agg with
  | None => Ok (Some p)
  | Some a =>
      let* r := ofold (fun st i =>
                  let '(losses, cards) := st in
                  let* li := sget losses i in
                  let* pi := sget (fst p) i in
                  let* losses := sset losses i (nadd N li pi) in
                  let* ci := sget cards i in
                  let* qi := sget (snd p) i in
                  let* cards := sset cards i (ci + qi) in
                  Ok (losses, cards))
                (map Z.of_nat (seq 0 (length (fst p)))) a in
      Ok (Some r)
  end.

Definition loss_aggregate (parts : list (list F * list Z)) : outcome (list F * list Z) :=
  let* r := ofold loss_aggregate_step parts None in
  match r with
  | Some a => Ok a
  | None => Ok ([], [])
  end.

(** core/par_loss.go:21-32 *)
Definition par_reduce_loss (c : list E) (data : list E) (norm : F) (degree : Z)
  : outcome (list F * list Z) :=
  let* ranges := par_ranges (slen data) degree in
  let* parts := omap (fun '(start, e, _) =>
                  let* part := sslice data start e in
                  reduce_loss N Sp pow c part norm) ranges in
  loss_aggregate parts.

(** core/par_loss.go:8-19 *)
Definition par_reduce_loss_for_labels (c : list E) (data : list E) (labels : list Z) (norm : F)
  (degree : Z) : outcome (list F * list Z) :=
  let* ranges := par_ranges (slen data) degree in
  let* parts := omap (fun '(start, e, _) =>
                  let* part := sslice data start e in
                  let* plabels := sslice labels start e in
                  reduce_loss_for_labels N Sp pow c part plabels norm) ranges in
  loss_aggregate parts.

(** core/clustering.go:100-103 *)
Definition par_total_loss (c : list E) (data : list E) (norm : F) (degree : Z) : outcome F :=
  let* r := par_reduce_loss c data norm degree in Ok (fsum N (fst r)).

End Loss.

(** core/par_dba.go:57-74. [other.dbas[i]] etc. panic when [other] is shorter. *)
Definition dba_combine (agg other : list (option E) * list Z)
  : outcome (list (option E) * list Z) :=
  ofold (fun st i =>
    let '(dbas, cards) := st in
    let* ci := sget cards i in
    if ci =? 0 then
      let* od := sget (fst other) i in
      let* dbas := sset dbas i od in
      let* oc := sget (snd other) i in
      let* cards := sset cards i oc in
      Ok (dbas, cards)
    else
      let* oc := sget (snd other) i in
      if 0 <? oc then
        let* ad := sget dbas i in
        let* od := sget (fst other) i in
        match ad, od with
        | Some ad, Some od =>
            let* dbas := sset dbas i (Some (scombine Sp ad ci od oc)) in
            let* cards := sset cards i (ci + oc) in
            Ok (dbas, cards)
        | _, _ => Panic
        end
      else Ok (dbas, cards))
    (map Z.of_nat (seq 0 (length (fst agg)))) agg.

(** core/par_dba.go:43-55 *)
Definition dba_aggregate_step (agg : option (list (option E) * list Z))
  (other : list (option E) * list Z) : outcome (option (list (option E) * list Z)) :=
  match agg with
  | None => Ok (Some other)
  | Some a => let* r := dba_combine a other in Ok (Some r)
  end.

Definition dba_aggregate (parts : list (list (option E) * list Z))
  : outcome (list (option E) * list Z) :=
  let* r := ofold dba_aggregate_step parts None in
  match r with
  | Some a => Ok a
  | None => Ok ([], [])
  end.

(** core/par_dba.go:76-86: [result] has length len(aggr.dbas), the loop runs over [data]
    (the previous centroids). *)
Definition build_result (data : list E) (aggr : list (option E) * list Z)
  : outcome (list (option E) * list Z) :=
  let* result :=
    ofold (fun result i =>
      let* ci := sget (snd aggr) i in
      if 0 <? ci then
        let* d := sget (fst aggr) i in sset result i d
      else
        let* d := sget data i in sset result i (Some d))
      (map Z.of_nat (seq 0 (length data))) (repeat None (length (fst aggr))) in
  Ok (result, snd aggr).

(** core/par_dba.go:8-19 *)
Definition par_reduce_dba (c : list E) (data : list E) (degree : Z)
  : outcome (list (option E) * list Z) :=
  let* ranges := par_ranges (slen data) degree in
  let* parts := omap (fun '(start, e, _) =>
                  let* part := sslice data start e in
                  reduce_dba N Sp c part) ranges in
  let* aggr := dba_aggregate parts in
  build_result c aggr.

(** core/par_dba.go:21-33 *)
Definition par_dba_for_labels (c : list E) (data : list E) (labels : list Z) (degree : Z)
  : outcome (list (option E) * list Z) :=
  let* ranges := par_ranges (slen data) degree in
  let* parts := omap (fun '(start, e, _) =>
                  let* part := sslice data start e in
                  let* plabels := sslice labels start e in
                  reduce_dba_for_labels Sp c part plabels) ranges in
  dba_aggregate parts.

End Par.
