(** k-means and streaming with a space whose operations may panic: elements of different dimensions
    (core/clustering.go, core/par_dba.go, core/util.go, kmeans/seq.go, kmeans/par.go, kmeans/impl.go, streaming/impl.go). *)
From Coq Require Import String List ZArith Bool.
From Verif Require Import Base.Go Base.Num Model.Clustering Model.Par Model.Euclid Model.Cosinus Model.Buffer Model.Kmeans
  Model.Streaming Model.CtrlLang Model.System.
Import ListNotations.
Local Open Scope Z_scope.

(** core/space.go:7-12 with the panics of Dist and Combine. *)
Record checked (E F : Type) : Type := mkChecked {
  kdist : E -> E -> outcome F;
  kcombine : E -> Z -> E -> Z -> outcome E;
  kcopy : E -> E
}.
Arguments mkChecked {E F}. Arguments kdist {E F}. Arguments kcombine {E F}. Arguments kcopy {E F}.

(** euclid/vectors.go:19-67 *)
Definition euclid_checked {F} (N : Num F) : checked (list F) F := mkChecked (point_dist N) (point_combine N) point_copy.
(** cosinus/cosinus.go:24-58: its own Dist; Combine and Copy are those of euclid. *)
Definition cosinus_checked {F} (N : Num F) : checked (list F) F := mkChecked (cos_dist N) (point_combine N) point_copy.

Section Checked.
Context {E F : Type} (N : Num F) (K : checked E F).

(** core/clustering.go:145-150; [elemt] is the first argument of Dist. *)
Fixpoint knearest_loop (cs : list E) (elemt : E) (i label : Z) (min : F) : outcome (Z * F) :=
  match cs with
  | [] => Ok (label, min)
  | c :: cs' =>
      let* d := kdist K elemt c in
      if nltb N min (nof N 0) || nltb N d min
      then knearest_loop cs' elemt (i + 1) i d
      else knearest_loop cs' elemt (i + 1) label min
  end.
(** core/clustering.go:141-153 *)
Definition knearest (c : list E) (elemt : E) : outcome (Z * F) := knearest_loop c elemt 0 (-1) (nof N (-1)).
(** core/clustering.go:19-25 *)
Definition kassign (c : list E) (elemt : E) : outcome (option E * Z * F) :=
  let* r := knearest c elemt in
  let '(label, dist) := r in
  if 0 <=? label
  then let* centroid := sget c label in Ok (Some centroid, label, dist)
  else Ok (None, label, dist).

(** core/clustering.go:52-58 *)
Definition kdba_add (label : Z) (elemt : E) (st : list (option E) * list Z) : outcome (list (option E) * list Z) :=
  let '(means, cards) := st in
  let* n := sget cards label in
  if n =? 0 then
    let* means := sset means label (Some (kcopy K elemt)) in
    let* cards := sset cards label 1 in
    Ok (means, cards)
  else
    let* m := sget means label in
    match m with
    | None => Panic
    | Some m =>
        let* r := kcombine K m n elemt 1 in
        let* means := sset means label (Some r) in
        let* cards := sset cards label (n + 1) in
        Ok (means, cards)
    end.
(** core/clustering.go:45-62 *)
Definition kreduce_dba (c : list E) (elemts : list E) : outcome (list (option E) * list Z) :=
  ofold (fun st elemt =>
           let* r := kassign c elemt in
           let '(_, ix, _) := r in
           kdba_add ix elemt st)
        elemts (repeat None (length c), repeat 0 (length c)).
(** kmeans/seq.go:21-24 *)
Definition kseq_iterate (centroids data : list E) : outcome (list (option E)) :=
  let* r := kreduce_dba centroids data in
  seq_build_result centroids (fst r).

(** core/par_dba.go:57-74. A part is nil, the zero value of dbaPartition, when its goroutine did not write it; its
    elements are then out of range. *)
Definition kdba_combine (agg : list (option E) * list Z) (part : option (list (option E) * list Z)) : outcome (list (option E) * list Z) :=
  let other := match part with Some p => p | None => ([], []) end in
  ofold (fun st i =>
    let '(dbas, cards) := st in
    let* ci := sget cards i in
    if ci =? 0 then
      let* od := sget (fst other) i in
      let* dbas := sset dbas i od in
      let* oc := sget (snd other) i in
      let* cards := sset cards i oc in
      Ok (dbas, cards)
    else
      let* oc := sget (snd other) i in
      if 0 <? oc then
        let* ad := sget dbas i in
        let* od := sget (fst other) i in
        match ad, od with
        | Some ad, Some od =>
            let* r := kcombine K ad ci od oc in
            let* dbas := sset dbas i (Some r) in
            let* cards := sset cards i (ci + oc) in
            Ok (dbas, cards)
        | _, _ => Panic
        end
      else Ok (dbas, cards))
    (map Z.of_nat (seq 0 (length (fst agg)))) agg.
(** core/par_dba.go:43-55; nil parts before the first other one are skipped. *)
Definition kdba_aggregate (parts : list (option (list (option E) * list Z))) : outcome (option (list (option E) * list Z)) :=
  ofold (fun agg part => match agg with
                         | None => Ok part
                         | Some a => let* r := kdba_combine a part in Ok (Some r)
                         end) parts None.
(** core/par_dba.go:17-18, kmeans/par.go:22-25. *)
Definition kpar_join (c : list E) (parts : list (option (list (option E) * list Z))) : outcome (list (option E)) :=
  let* a := kdba_aggregate parts in
  let* r := build_result c (match a with Some p => p | None => ([], []) end) in
  Ok (fst r).

(** A goroutine of core.Par (core/util.go:14-17): at work, done after having written its part, or panicking. The deferred
    wg.Done() is called in both cases; then the run-time system ends the process for a goroutine that panicked, as nothing
    in it recovers. [PMain]: the caller of Par, in wg.Wait() or after the end of ParReduceDBA. What a goroutine computes is
    one step here (Model/HeapPar.v has the single elements). *)
Inductive gor : Type := GWork (r : outcome (list (option E) * list Z)) | GDone (p : list (option E) * list Z) | GPanic.
Record procs : Type := mkProcess { p_gors : list gor; p_main : option (outcome (list (option E))); p_dead : bool }.
Definition part_of (g : gor) : option (list (option E) * list Z) := match g with GDone p => Some p | _ => None end.

Inductive pstep (c : list E) : procs -> procs -> Prop :=
| ps_done : forall gs i p m, nth_error gs i = Some (GWork (Ok p)) ->
    pstep c (mkProcess gs m false) (mkProcess (upd gs i (GDone p)) m false)
| ps_panic : forall gs i m, nth_error gs i = Some (GWork Panic) ->
    pstep c (mkProcess gs m false) (mkProcess (upd gs i GPanic) m false)
| ps_join : forall gs, (forall r, ~ In (GWork r) gs) ->
    pstep c (mkProcess gs None false) (mkProcess gs (Some (kpar_join c (map part_of gs))) false)
| ps_exit : forall gs m, In GPanic gs -> pstep c (mkProcess gs m false) (mkProcess gs m true).
Inductive psteps (c : list E) : procs -> procs -> Prop :=
| pss_nil : forall p, psteps c p p
| pss_cons : forall p1 p2 p3, pstep c p1 p2 -> psteps c p2 p3 -> psteps c p1 p3.

(** core/par_dba.go:8-15: the goroutines of an iteration. *)
Definition kpar_start (degree : Z) (c data : list E) : outcome procs :=
  let* ranges := par_ranges (slen data) degree in
  let* parts := omap (fun '(start, e, _) => sslice data start e) ranges in
  Ok (mkProcess (map (fun part => GWork (kreduce_dba c part)) parts) None false).

(** kmeans/impl.go:20-43 with the sequential strategy; a panic of Iterate is before Apply. *)
Definition kchecked_implem {D} (initializer : D -> list E -> option (option (list E) * option nat)) : implem E (list E) (buffer E) D :=
  mkImplem
    (fun d b =>
       match buffer_apply b with
       | Panic => None
       | Ok b => match initializer d (bdata b) with None => None | Some r => Some (b, r) end
       end)
    (fun _ b c =>
       match kseq_iterate (match c with Some c => c | None => [] end) (bdata b), buffer_apply b with
       | Ok l, Ok b' => match all_some l with Some c' => (b', IterRes (Some c') None None) | None => (b', IterPanic 0) end
       | _, _ => (b, IterPanic 0)
       end)
    (fun b x alive => match buffer_push b x alive with
                      | None => None
                      | Some Panic => None
                      | Some (Ok b') => Some (b', None)
                      end).

Variables (out_after : Z) (out_ratio : F).

(** streaming/impl.go:123-128: a panic of Combine comes before any store. *)
Definition kupdate_center (s : streaming E F) (label : Z) (x : E) (distance : F) : outcome (streaming E F) :=
  let* c := sget (s_clust s) label in
  let* n := sget (s_cards s) label in
  let* r := kcombine K c n x 1 in
  let* clust := sset (s_clust s) label r in
  let* cards := sset (s_cards s) label (n + 1) in
  Ok (mkStreaming (update_max N (s_max s) distance) clust cards (s_queue s) (s_count s)).

(** streaming/impl.go:136-151, :61-70: the state after the iteration, also when it panics, and whether it does. The element
    has then left the channel and, when Dist did not panic, GetRelativeDistance may have set the maximal distance. *)
Definition kprocess (s : streaming E F) (x : E) (threshold : F) : streaming E F * outcome unit :=
  match kassign (s_clust s) x with
  | Panic => (s, Panic)
  | Ok (_, label, distance) =>
      let '(max, relative) := relative_distance N (s_max s) distance in
      let s := mkStreaming max (s_clust s) (s_cards s) (s_queue s) (s_count s) in
      let r := if (out_after <=? s_count s) && nltb N out_ratio relative then Ok (add_outlier s x)
               else if nltb N threshold relative then Ok (add_center N s x distance)
               else kupdate_center s label x distance in
      match r with
      | Panic => (s, Panic)
      | Ok s => (mkStreaming (s_max s) (s_clust s) (s_cards s) (s_queue s) (s_count s + 1), Ok tt)
      end
  end.
Definition kstreaming_iterate (s : streaming E F) (threshold : F) : streaming E F * outcome (option (list E)) :=
  match s_queue s with
  | [] => (s, Ok None)
  | x :: q =>
      let (s, r) := kprocess (mkStreaming (s_max s) (s_clust s) (s_cards s) q (s_count s)) x threshold in
      (s, let* _ := r in Ok (Some (s_clust s)))
  end.

(** Calls on the implementation, as [sstep] of Model/Streaming.v; the state is also given after a panic. *)
Variable buffer_size : Z.
Definition kstream_step (s : streaming E F) (o : sop E F) : streaming E F * outcome (sres E) :=
  match o with
  | SPush x => let (s, full) := streaming_push buffer_size s x in (s, Ok (RPush full))
  | SInit => let (s, c) := streaming_init N s in (s, Ok (RInit c))
  | SIterate t => let (s, r) := kstreaming_iterate s t in (s, let* c := r in Ok (RIterate c))
  end.
Fixpoint kstream_run (s : streaming E F) (ops : list (sop E F)) : streaming E F * list (outcome (sres E)) :=
  match ops with
  | [] => (s, [])
  | o :: ops => let (s, r) := kstream_step s o in let (s', rs) := kstream_run s ops in (s', r :: rs)
  end.
End Checked.
Arguments procs : clear implicits.
Arguments gor : clear implicits.
