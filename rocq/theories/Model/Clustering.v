(** Model of core/space.go and core/clustering.go. *)
From Coq Require Import List ZArith Bool.
From Verif Require Import Base.Go Base.Num.
Import ListNotations.
Local Open Scope Z_scope.

(** core/space.go:7-12, interface Space. Simplification: the methods of a space are total
    functions on values; panics inside a space (dimension mismatch) are modelled in the space's own
    file (Model/Euclid.v, Model/Cosinus.v, Model/Dtw.v). Dim is only used by mcmc. *)
Record Space (E F : Type) : Type := mkSpace {
  sdist : E -> E -> F;
  scombine : E -> Z -> E -> Z -> E;
  scopy : E -> E;
  sdim : list E -> Z
}.
Arguments mkSpace {E F}. Arguments sdist {E F}. Arguments scombine {E F}.
Arguments scopy {E F}. Arguments sdim {E F}.

Section Clustering.
Context {E F : Type} (N : Num F) (Sp : Space E F).

(** core/clustering.go:145-150, the loop of [nearest]; [i] is the loop index. *)
Fixpoint nearest_loop (cs : list E) (elemt : E) (i label : Z) (min : F) : Z * F :=
  match cs with
  | [] => (label, min)
  | c :: cs' =>
      let d := sdist Sp elemt c in
      if nltb N min (nof N 0) || nltb N d min
      then nearest_loop cs' elemt (i + 1) i d
      else nearest_loop cs' elemt (i + 1) label min
  end.

(** core/clustering.go:141-153 *)
Definition nearest (c : list E) (elemt : E) : Z * F :=
  nearest_loop c elemt 0 (-1) (nof N (-1)).

(** core/clustering.go:19-25. The returned centroid is nil (None) for a negative label. *)
Definition assign (c : list E) (elemt : E) : outcome (option E * Z * F) :=
  let '(label, dist) := nearest c elemt in
  if 0 <=? label
  then let* centroid := sget c label in Ok (Some centroid, label, dist)
  else Ok (None, label, dist).

(** core/clustering.go:28-37 *)
Definition map_label (c : list E) (elemts : list E) : list Z * list F :=
  (map (fun x => fst (nearest c x)) elemts, map (fun x => snd (nearest c x)) elemts).

(** Body shared by core/clustering.go:52-58 and 72-78: one element enters the running average of
    its label. Combining with a nil average would panic in the space (type assertion on nil). *)
Definition dba_add (label : Z) (elemt : E) (st : list (option E) * list Z)
  : outcome (list (option E) * list Z) :=
  let '(means, cards) := st in
  let* n := sget cards label in
  if n =? 0 then
    let* means := sset means label (Some (scopy Sp elemt)) in
    let* cards := sset cards label 1 in
    Ok (means, cards)
  else
    let* m := sget means label in
    match m with
    | None => Panic
    | Some m =>
        let* means := sset means label (Some (scombine Sp m n elemt 1)) in
        let* cards := sset cards label (n + 1) in
        Ok (means, cards)
    end.

(** core/clustering.go:45-62 *)
Definition reduce_dba (c : list E) (elemts : list E) : outcome (list (option E) * list Z) :=
  ofold (fun st elemt =>
           let* r := assign c elemt in
           let '(_, ix, _) := r in
           dba_add ix elemt st)
        elemts (repeat None (length c), repeat 0 (length c)).

(** core/clustering.go:65-81. [labels[i]] panics when the label list is too short. *)
Definition reduce_dba_for_labels (c : list E) (elemts : list E) (labels : list Z)
  : outcome (list (option E) * list Z) :=
  let* r :=
    ofold (fun st elemt =>
             let '(i, means, cards) := st in
             let* label := sget labels i in
             let* r := dba_add label elemt (means, cards) in
             let '(means, cards) := r in
             Ok (i + 1, means, cards))
          elemts (0, repeat None (length c), repeat 0 (length c)) in
  let '(_, means, cards) := r in Ok (means, cards).

(** core/clustering.go:156-172; the error result is None. *)
Definition dba (elemts : list E) : option E :=
  match elemts with
  | [] => None
  | x :: xs =>
      Some (fst (fold_left (fun '(m, w) y => (scombine Sp m w y 1, w + 1)) xs (scopy Sp x, 1)))
  end.

(** core/clustering.go:175-191: [weights[0]], [weights[i]] panic when there are too few weights. *)
Definition weighted_dba (elemts : list E) (weights : list Z) : outcome (option E) :=
  match elemts with
  | [] => Ok None
  | x :: xs =>
      let* w0 := sget weights 0 in
      let* r :=
        ofold (fun st y =>
                 let '(i, m, w) := st in
                 let* wi := sget weights i in
                 Ok (i + 1, scombine Sp m w y wi, w + wi))
              xs (1, scopy Sp x, w0) in
      let '(_, m, _) := r in Ok (Some m)
  end.

Section Loss.
(** [math.Pow] *)
Variable pow : F -> F -> F.

(** Body shared by core/clustering.go:110-112 and 127-130. *)
Definition loss_add (norm : F) (label : Z) (dist : F) (st : list F * list Z)
  : outcome (list F * list Z) :=
  let '(losses, cards) := st in
  let* n := sget cards label in
  let* cards := sset cards label (n + 1) in
  let* l := sget losses label in
  let* losses := sset losses label (nadd N l (pow dist norm)) in
  Ok (losses, cards).

(** core/clustering.go:106-115 *)
Definition reduce_loss (c : list E) (elemts : list E) (norm : F) : outcome (list F * list Z) :=
  ofold (fun st elemt =>
           let '(label, min) := nearest c elemt in
           loss_add norm label min st)
        elemts (repeat (nof N 0) (length c), repeat 0 (length c)).

(** core/clustering.go:123-133. The label and the centroid are read before the update. *)
Definition reduce_loss_for_labels (c : list E) (elemts : list E) (labels : list Z) (norm : F)
  : outcome (list F * list Z) :=
  let* r :=
    ofold (fun st elemt =>
             let '(i, losses, cards) := st in
             let* label := sget labels i in
             let* centroid := sget c label in
             let* r := loss_add norm label (sdist Sp elemt centroid) (losses, cards) in
             let '(losses, cards) := r in
             Ok (i + 1, losses, cards))
          elemts (0, repeat (nof N 0) (length c), repeat 0 (length c)) in
  let '(_, losses, cards) := r in Ok (losses, cards).

(** gonum floats.Sum: left-to-right sum. Simplification: gonum's unrolled assembly order is not
    modelled; claims about the total are made in exact arithmetic. *)
Definition fsum (l : list F) : F := fold_left (nadd N) l (nof N 0).

(** core/clustering.go:94-97 *)
Definition total_loss (c : list E) (elemts : list E) (norm : F) : outcome F :=
  let* r := reduce_loss c elemts norm in Ok (fsum (fst r)).

End Loss.

(** core/clustering.go:194-196: [Clust.Initializer] always returns the centroids. *)
Definition clust_initializer (c : list E) : list E := c.

End Clustering.
