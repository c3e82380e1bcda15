(** dtw.Space as a core.Space. *)
From Coq Require Import List ZArith.
From Verif Require Import Base.Go Base.Num Model.Clustering Model.Dtw.
Import ListNotations.
Local Open Scope Z_scope.

Section DtwSpace.
Context {F : Type} (N : Num F) (inf : F).
(** dtw/point_space.go: the inner space. *)
Variables (pdist : list F -> list F -> F) (pcombine : list F -> Z -> list F -> Z -> list F).

(** dtw/series.go:53-61 *)
Definition series_dim (data : list (list (list F))) : Z :=
  match data with (p :: _) :: _ => slen p | _ => 0 end.

(** dtw/series.go:7-61 as a core.Space. A panic cannot be expressed in a Space; it is replaced by an
    arbitrary value here. It does not happen for non-empty series and a positive window (C49, C69). *)
Definition dtw_space (window : Z) : Space (list (list F)) F :=
  mkSpace
    (fun a b => match dtw_dist N inf pdist pcombine window a b with Ok d => d | Panic => inf end)
    (fun a wa b wb => match dtw_combine N inf pdist pcombine window a wa b wb with Ok r => r | Panic => [] end)
    (@dtw_copy (list F))
    series_dim.
End DtwSpace.
