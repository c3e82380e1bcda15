(** Streaming with generators in memory (Model/Generators.v). *)
From Coq Require Import List ZArith Bool.
From Verif Require Import Base.Go Base.Num Model.Clustering Model.KmeansInit Model.Generators Model.Streaming.
Import ListNotations.
Local Open Scope Z_scope.

Section GenStreaming.
Context {E F S : Type} (N : Num F) (Sp : Space E F) (gen : generator F F S).
Variables (buffer_size out_after : Z) (out_ratio : F).

(** streaming/impl.go:137-145: is a threshold drawn? *)
Definition draws_threshold (s : streaming E F) (x : E) : outcome bool :=
  let* a := assign N Sp (s_clust s) x in
  let '(_, _, distance) := a in
  let '(_, relative) := relative_distance N (s_max s) distance in
  Ok (negb ((out_after <=? s_count s) && nltb N out_ratio relative)).

(** streaming/impl.go:61-70, 134-148: the threshold is taken from the normal law of the implementation, whose
    source is the generator of the configuration it was made with (streaming/impl.go:38-42). *)
Definition gstreaming_iterate (pt : pointers) (s : streaming E F) (c : list E) : gcomp S (streaming E F * list E) :=
  let+ b := glift (match s_queue s with [] => Ok false | x :: _ => draws_threshold s x end) in
  let+ t := (if b then glaw gen (pt_impl pt) else gret (nof N 0)) in
  let+ r := glift (streaming_iterate N Sp out_after out_ratio s t) in
  gret (fst r, match snd r with Some c' => c' | None => c end).

(** streaming/impl.go:23-84. The error of Init is not told apart from those of k-means. The copy is made with
    the configuration of the algorithm copied and its centers as data: with more centers than BufferSize it
    would not return, [Panic] here. Published slices are values (their sharing is the subject of C38). *)
Definition gstreaming : gimplem E (streaming E F) S := mkGimplem
  (fun _ s => let (s', c) := streaming_init N s in
              gret (s', match c with Some c => map Some c | None => [] end, match c with Some _ => None | None => Some ErrFewElemts end))
  gstreaming_iterate
  (fun s x => Ok (fst (streaming_push buffer_size s x)))
  (fun s => if slen (s_clust s) <=? buffer_size then Ok (new_streaming N (s_clust s)) else Panic).
End GenStreaming.
