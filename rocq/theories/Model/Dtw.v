(** Model of dtw/cost.go, dtw/dtw.go, dtw/interpolate.go and dtw/series.go. A series is a list of
    points; the point space is a distance and a combination (dtw/point_space.go), both total here:
    points of different dimensions are covered by C16. *)
From Coq Require Import List ZArith Bool.
From Verif Require Import Base.Go Base.Num Model.Clustering.
Import ListNotations.
Local Open Scope Z_scope.

(** The integers lo, lo+1, ..., hi. *)
Definition zrange (lo hi : Z) : list Z := map (fun n => lo + Z.of_nat n) (List.seq 0 (Z.to_nat (hi - lo + 1))).

Section Dtw.
Context {P F : Type} (N : Num F).
(** math.Inf(1) and the inner PointSpace. *)
Variables (inf : F) (pdist : P -> P -> F) (pcombine : P -> Z -> P -> Z -> P).

(** dtw/cost.go:51-62: window and stride1; stride0 is the length of the first series. *)
Definition eff_window (window l2 : Z) : Z := if window =? 0 then l2 else window.
Definition eff_stride (window l2 : Z) : Z := if 2 * window + 1 <? l2 then 2 * window + 1 else l2.

Section Cost.
Variables (s1 s2 : list P) (window stride : Z).

(** dtw/cost.go:132-134 *)
Definition in_window (i j : Z) : bool := (i - j <=? window) && (j - i <=? window).

(** dtw/cost.go:121-130 *)
Definition ravel (i j : Z) : Z := if window <? i then i * stride + (j - i + window) else i * stride + j.

(** dtw/cost.go:38-44 *)
Definition cget (values : list F) (i1 i2 : Z) : outcome F :=
  if in_window i1 i2 then sget values (ravel i1 i2) else Ok inf.

(** dtw/cost.go:136-145 *)
Definition min3 (v1 v2 v3 : F) : F :=
  if nleb N v1 v2 && nleb N v1 v3 then v1 else if nleb N v2 v3 then v2 else v3.

(** dtw/cost.go:114-119: l, u, ul *)
Definition neighbor_costs (values : list F) (i1 i2 : Z) : outcome (F * F * F) :=
  let* l := cget values (i1 - 1) i2 in
  let* u := cget values i1 (i2 - 1) in
  let* ul := cget values (i1 - 1) (i2 - 1) in
  Ok (l, u, ul).

(** dtw/cost.go:77-91, one cell. *)
Definition cell (values : list F) (i1 i2 : Z) : outcome (list F) :=
  let* p1 := sget s1 i1 in
  let* p2 := sget s2 i2 in
  let dist := pdist p1 p2 in
  let* cost :=
    (if (i1 =? 0) && (i2 =? 0) then Ok dist
     else if i1 =? 0 then let* c := cget values i1 (i2 - 1) in Ok (nadd N c dist)
     else if i2 =? 0 then let* c := cget values (i1 - 1) i2 in Ok (nadd N c dist)
     else let* n := neighbor_costs values i1 i2 in
          let '(l, u, ul) := n in Ok (nadd N (min3 ul u l) dist)) in
  sset values (ravel i1 i2) cost.

(** dtw/cost.go:68-76: bounds of the inner loop. *)
Definition row_left (i1 : Z) : Z := if in_window i1 0 then 0 else i1 - window.
Definition row_right (i1 : Z) : Z := if in_window i1 (slen s2 - 1) then slen s2 - 1 else i1 + window.

(** dtw/cost.go:64-94 *)
Definition compute_cum_cost : outcome (list F) :=
  ofold (fun values i1 => ofold (fun values i2 => cell values i1 i2) (zrange (row_left i1) (row_right i1)) values)
        (zrange 0 (slen s1 - 1)) (repeat (nof N 0) (Z.to_nat (slen s1 * stride))).

(** dtw/cost.go:147-156 *)
Definition decr_path (ul u l : F) (i1 i2 : Z) : Z * Z :=
  if nleb N ul u && nleb N ul l then (i1 - 1, i2 - 1)
  else if nleb N l u then (i1 - 1, i2) else (i1, i2 - 1).

(** dtw/cost.go:96-112. Every turn decreases i1+i2, so that i1+i2 turns are enough for non-empty
    series; running out of fuel is Panic. *)
Fixpoint path_loop (fuel : nat) (values : list F) (i1 i2 : Z) : outcome (list (Z * Z)) :=
  if (0 <? i1) || (0 <? i2) then
    match fuel with
    | O => Panic
    | S fuel' =>
        let* next :=
          (if i1 =? 0 then Ok (i1, i2 - 1)
           else if i2 =? 0 then Ok (i1 - 1, i2)
           else let* n := neighbor_costs values i1 i2 in
                let '(l, u, ul) := n in Ok (decr_path ul u l i1 i2)) in
        let* rest := path_loop fuel' values (fst next) (snd next) in
        Ok ((i1, i2) :: rest)
    end
  else Ok [(0, 0)].

Definition compute_path (values : list F) : outcome (list (Z * Z)) :=
  let i1 := slen s1 - 1 in
  let i2 := slen s2 - 1 in
  if i1 + i2 <? 0 then Panic   (* make with a negative capacity *)
  else path_loop (Z.to_nat (i1 + i2)) values i1 i2.
End Cost.

(** dtw/dtw.go:3-29 and 32-39; dtw/cost.go:22-35. *)
Record dtw : Type := mkDtw { d_path : list (Z * Z); d_dist : F }.

Definition new_dtw_window (s1 s2 : list P) (window : Z) : outcome dtw :=
  let w := eff_window window (slen s2) in
  let stride := eff_stride w (slen s2) in
  let* values := compute_cum_cost s1 s2 w stride in
  let* path := compute_path s1 s2 w stride values in
  let* dist := cget w stride values (slen s1 - 1) (slen s2 - 1) in
  Ok (mkDtw path dist).

(** dtw/interpolate.go:11-12 *)
Fixpoint advance (fuel : nat) (idx : list Z) (x j : Z) : outcome Z :=
  let* v := sget idx j in
  if v <? x then match fuel with O => Panic | S fuel' => advance fuel' idx x (j + 1) end
  else Ok j.

(** dtw/interpolate.go:10-17, one turn of the loop. *)
Definition interp_step (s : list P) (idx : list Z) (shrink : Z) (st : Z * list (option P)) (i : Z)
    : outcome (Z * list (option P)) :=
  let '(j, result) := st in
  let x := i * shrink in
  let* j := advance (length idx) idx x j in
  let* v := sget idx j in
  let* p := (if v =? x then sget s j
             else let* a := sget s (j - 1) in
                  let* b := sget s j in
                  let* va := sget idx (j - 1) in
                  Ok (pcombine a (v - x) b (x - va))) in
  let* result := sset result i (Some p) in
  Ok (j, result).

(** dtw/interpolate.go:5-20. The inner loop ends by a panic at the latest after len(idx) turns. *)
Definition interpolate (s : list P) (idx : list Z) (shrink : Z) : outcome (list (option P)) :=
  let* e := sget idx (slen s - 1) in
  if shrink =? 0 then Panic else
  let last := Z.quot e shrink + 1 in
  if last <? 0 then Panic else
  let* s0 := sget s 0 in
  let* result := sset (repeat None (Z.to_nat last)) 0 (Some s0) in
  let* r := ofold (interp_step s idx shrink)
    (zrange 1 (last - 1)) (1, result) in
  Ok (snd r).

(** dtw/interpolate.go:23-30 *)
Definition resize (s : list P) (size : Z) : outcome (list (option P)) :=
  interpolate s (map (fun i => i * (size - 1)) (zrange 0 (slen s - 1))) (slen s - 1).

(** Used as a series, a nil point would be an empty slice: this does not happen (C51, C53). *)
Fixpoint points (l : list (option P)) : outcome (list P) :=
  match l with
  | [] => Ok []
  | None :: _ => Panic
  | Some p :: l' => let* r := points l' in Ok (p :: r)
  end.

(** dtw/interpolate.go:33-47 *)
Definition shrink_longest (s1 s2 : list P) (window : Z) : outcome (list P * list P) :=
  if (0 <? window) && (slen s2 + window <? slen s1) then
    let* r := resize s1 (slen s2 + window) in let* r := points r in Ok (r, s2)
  else if (0 <? window) && (slen s1 + window <? slen s2) then
    let* r := resize s2 (slen s1 + window) in let* r := points r in Ok (s1, r)
  else Ok (s1, s2).

(** dtw/dtw.go:42-55 *)
Definition dtw_dba (s1 s2 : list P) (d : dtw) (w1 w2 : Z) : outcome (list (option P)) :=
  let path := rev (d_path d) in
  let* dba := omap (fun ends => let* a := sget s1 (fst ends) in let* b := sget s2 (snd ends) in
                                Ok (pcombine a w1 b w2)) path in
  interpolate dba (map (fun ends => fst ends * w1 + snd ends * w2) path) (w1 + w2).

(** dtw/series.go:22-39 *)
Definition dtw_dist (window : Z) (a b : list P) : outcome F :=
  let* s := shrink_longest a b window in
  let* d := new_dtw_window (fst s) (snd s) window in
  Ok (d_dist d).
Definition dtw_combine (window : Z) (a : list P) (w1 : Z) (b : list P) (w2 : Z) : outcome (list P) :=
  let* s := shrink_longest a b window in
  let* d := new_dtw_window (fst s) (snd s) window in
  let* r := dtw_dba (fst s) (snd s) d w1 w2 in
  points r.

(** dtw/series.go:42-50: a fresh series with the same points. *)
Definition dtw_copy (s : list P) : list P := s.
End Dtw.
