(** Model of streaming/impl.go. *)
From Coq Require Import List ZArith Bool.
From Verif Require Import Base.Go Base.Num Model.Clustering.
Import ListNotations.
Local Open Scope Z_scope.

Section Streaming.
Context {E F : Type} (N : Num F) (Sp : Space E F).
(** conf.BufferSize, conf.OutAfter, conf.OutRatio after the default values. *)
Variables (buffer_size out_after : Z) (out_ratio : F).

(** streaming/impl.go:12-20; [s_queue] is the content of the channel, first received first. The
    slices are values here; their sharing with the caller is in Model/Heap.v. *)
Record streaming : Type := mkStreaming {
  s_max : F; s_clust : list E; s_cards : list Z; s_queue : list E; s_count : Z
}.

(** streaming/impl.go:30-44 for len(elemts) <= BufferSize (otherwise the send would wait). *)
Definition new_streaming (elemts : list E) : streaming := mkStreaming (nof N 0) [] [] elemts 0.

(** streaming/impl.go:90-94 *)
Definition update_max (max distance : F) : F := if nltb N max distance then distance else max.

(** streaming/impl.go:102-107: the new maximal distance and the ratio. *)
Definition relative_distance (max distance : F) : F * F :=
  let max := if neqb N max (nof N 0) then distance else max in
  (max, ndiv N distance max).

(** streaming/impl.go:110-114 *)
Definition add_center (s : streaming) (x : E) (distance : F) : streaming :=
  mkStreaming (update_max (s_max s) distance) (s_clust s ++ [x]) (s_cards s ++ [1]) (s_queue s) (s_count s).

(** streaming/impl.go:117-120 *)
Definition add_outlier (s : streaming) (x : E) : streaming :=
  mkStreaming (s_max s) (s_clust s ++ [x]) (s_cards s ++ [1]) (s_queue s) (s_count s).

(** streaming/impl.go:123-128 *)
Definition update_center (s : streaming) (label : Z) (x : E) (distance : F) : outcome streaming :=
  let* c := sget (s_clust s) label in
  let* n := sget (s_cards s) label in
  let* clust := sset (s_clust s) label (scombine Sp c n x 1) in
  let* cards := sset (s_cards s) label (n + 1) in
  Ok (mkStreaming (update_max (s_max s) distance) clust cards (s_queue s) (s_count s)).

(** streaming/impl.go:136-151. [threshold] is the value of impl.norm.Rand(), when it is drawn. *)
Definition process (s : streaming) (x : E) (threshold : F) : outcome streaming :=
  let* a := assign N Sp (s_clust s) x in
  let '(_, label, distance) := a in
  let '(max, relative) := relative_distance (s_max s) distance in
  let s := mkStreaming max (s_clust s) (s_cards s) (s_queue s) (s_count s) in
  let* s :=
    (if (out_after <=? s_count s) && nltb N out_ratio relative then Ok (add_outlier s x)
     else if nltb N threshold relative then Ok (add_center s x distance)
     else update_center s label x distance) in
  Ok (mkStreaming (s_max s) (s_clust s) (s_cards s) (s_queue s) (s_count s + 1)).

(** streaming/impl.go:47-58: None is the error "at least one element is needed". *)
Definition streaming_init (s : streaming) : streaming * option (list E) :=
  match s_queue s with
  | [] => (s, None)
  | x :: q => (add_center (mkStreaming (s_max s) (s_clust s) (s_cards s) q (s_count s)) x (nof N 0), Some [x])
  end.

(** streaming/impl.go:61-70: None is a nil Clust. *)
Definition streaming_iterate (s : streaming) (threshold : F) : outcome (streaming * option (list E)) :=
  match s_queue s with
  | [] => Ok (s, None)
  | x :: q =>
      let* s := process (mkStreaming (s_max s) (s_clust s) (s_cards s) q (s_count s)) x threshold in
      Ok (s, Some (s_clust s))
  end.

(** streaming/impl.go:77-84: true when the error "buffer is full" is returned. The channel holds at
    most BufferSize elements. *)
Definition streaming_push (s : streaming) (x : E) : streaming * bool :=
  if slen (s_queue s) <? buffer_size
  then (mkStreaming (s_max s) (s_clust s) (s_cards s) (s_queue s ++ [x]) (s_count s), false)
  else (s, true).

(** Calls on the implementation, and what they return. *)
Inductive sop : Type := SPush (x : E) | SInit | SIterate (threshold : F).
Inductive sres : Type :=
| RPush (full : bool)
| RInit (clust : option (list E))
| RIterate (clust : option (list E)).

Definition sstep (s : streaming) (o : sop) : outcome (streaming * sres) :=
  match o with
  | SPush x => let '(s, full) := streaming_push s x in Ok (s, RPush full)
  | SInit => let '(s, c) := streaming_init s in Ok (s, RInit c)
  | SIterate t => let* r := streaming_iterate s t in Ok (fst r, RIterate (snd r))
  end.

Inductive sexec : streaming -> list sop -> list sres -> streaming -> Prop :=
| sx_nil : forall s, sexec s [] [] s
| sx_cons : forall s o r s1 ops rs s2,
    sstep s o = Ok (s1, r) -> sexec s1 ops rs s2 -> sexec s (o :: ops) (r :: rs) s2.

End Streaming.
Arguments streaming : clear implicits.
Arguments sop : clear implicits.
Arguments sres : clear implicits.
