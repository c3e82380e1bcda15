(** C123 for streaming algorithms. *)
From Coq Require Import List ZArith Lia Bool.
From Verif Require Import Base.Go Base.Num Model.Clustering Model.Euclid Model.Streaming Model.Generators Model.GenStreaming
  Spec.GeneratorsSpec Spec.NearestSpec Proofs.GeneratorsProofs Proofs.GeneratorsWitness Proofs.GenStreamingProofs.
Import ListNotations.

(** A copy of a streaming algorithm, given a generator of its own (number 1), still takes its thresholds from
    that of the algorithm copied. *)
Theorem C123_stream_refuted : exists (gen : generator b64 b64 (list Z)) m,
  let im := gstreaming B64Num (euclid_space B64Num) gen 100 10 (b64_of_Z 2) in
  let l := [mkGalgo (mkPointers 0 0 0) (new_streaming B64Num [v64 [0]; v64 [10]]%Z) [] false] in
  centroids_after im (l, m) [GInit 0; GIterate 0] 0 = Some [Some (v64 [0]%Z); Some (v64 [10]%Z)] /\
  centroids_after im (l, m) [GInit 0; GCopy 0 1; GInit 1; GPush 1 (v64 [4]%Z); GIterate 1; GIterate 0] 0 = Some [Some (v64 [5]%Z)] /\
  centroids_after im (l, m) [GInit 0; GCopy 0 1; GInit 1; GPush 1 (v64 [4]%Z); GIterate 1; GIterate 0] 1 = Some [Some (v64 [0]%Z); Some (v64 [4]%Z)].
Proof. exact shared_streaming_main. Qed.
Print Assumptions C123_stream_refuted.

(** Streaming algorithms that hold no generator in common do not disturb each other. *)
Theorem C123_stream_apart_partial : forall (E F S : Type) (N : Num F) (Sp : Space E F) (gen : generator F F S) buffer_size out_after out_ratio,
  let im := gstreaming N Sp gen buffer_size out_after out_ratio in forall i a l m os l1 m1,
  nth_error l i = Some a -> apart i (ga_pt a) l os -> gsteps im (l, m) os = Some (l1, m1) ->
  exists l2 m2, gsteps im (l, m) (own_calls i os) = Some (l2, m2) /\ nth_error l1 i = nth_error l2 i /\
    forall p, In p (held (ga_pt a)) -> m1 p = m2 p.
Proof. exact streaming_apart_main. Qed.
Print Assumptions C123_stream_apart_partial.

(** An iteration is one of the other theorems: its threshold is the next of the generator of the
    implementation, or the result depends on no threshold and nothing is drawn. Nothing is
    drawn for an outlier. *)
Theorem C123_stream_draws_partial : forall (E F S : Type) (N : Num F) (Sp : Space E F) (gen : generator F F S) buffer_size out_after out_ratio pt s c
    (mem mem' : gmem S) s' c',
  gi_iterate (gstreaming N Sp gen buffer_size out_after out_ratio) pt s c mem = Ok (s', c', mem') ->
  exists r, c' = match r with Some x => x | None => c end /\
    ((forall t, streaming_iterate N Sp out_after out_ratio s t = Ok (s', r)) /\ mem' = mem \/
     streaming_iterate N Sp out_after out_ratio s (fst (g_law gen (mem (pt_impl pt)))) = Ok (s', r) /\
     mem' = gset mem (pt_impl pt) (snd (g_law gen (mem (pt_impl pt)))) /\
     exists x q y label d, s_queue s = x :: q /\ assign N Sp (s_clust s) x = Ok (y, label, d) /\
       (s_count s < out_after \/ nltb N out_ratio (ndiv N d (if neqb N (s_max s) (nof N 0) then d else s_max s)) = false)%Z).
Proof. exact gstreaming_draws_main. Qed.
Print Assumptions C123_stream_draws_partial.

(** Two streaming algorithms with generators of their own; the second is copied and the copy used. *)
Example C123_stream_apart_case : let l := [mkGalgo (mkPointers 0 0 0) (new_streaming B64Num [v64 [0]; v64 [10]]%Z) [] false;
    mkGalgo (mkPointers 1 1 1) (new_streaming B64Num [v64 [0]; v64 [7]]%Z) [] false] in
  let os := [GInit 1; GInit 0; GCopy 1 2; GInit 2; GPush 2 (v64 [3]%Z); GIterate 2; GIterate 1; GIterate 0] in
  let im := gstreaming B64Num (euclid_space B64Num) law_gen 100 10 (b64_of_Z 2) in
  apart 0 (mkPointers 0 0 0) l os /\ own_calls 0 os = [GInit 0; GIterate 0] /\ works (gsteps im (l, fun _ => [5; 15]%Z) os) = true.
Proof.
  intros l os im. split; [|split; [reflexivity|vm_compute; reflexivity]]. split.
  - intros [|[|[|j]]] a Hj H p Hp Hq; try contradiction; try discriminate. injection H as <-. cbn in *. lia.
  - intros j p [H|[H|[H|[H|[H|[H|[H|[H|[]]]]]]]]]; try discriminate. injection H as <- <-. split; [lia|]. cbn. lia.
Qed.

(** An iteration that draws, and one of an outlier: the centers, and what is left in the generator. *)
Example C123_stream_draws_case : let s := mkStreaming (b64_of_Z 10) [v64 [0]; v64 [10]]%Z [1; 1]%Z [v64 [4]]%Z 7 in
  let run after := match gi_iterate (gstreaming B64Num (euclid_space B64Num) law_gen 100 after (tenths 3)) (mkPointers 1 0 1) s [] (fun _ => [5; 15]%Z) with
                   | Ok (_, c, m) => Some (map (map show64) c, m 0, m 1) | Panic => None end in
  run 10%Z = Some (map (map show64) [v64 [2]; v64 [10]]%Z, [15]%Z, [5; 15]%Z) /\
  run 5%Z = Some (map (map show64) [v64 [0]; v64 [10]; v64 [4]]%Z, [5; 15]%Z, [5; 15]%Z).
Proof. vm_compute. split; reflexivity. Qed.
