(** Copy of an algorithm (core/ctrl.go:374-380 with kmeans/impl.go:39-43, mcmc/impl.go:30-34 and
    streaming/impl.go:23-27) and Predict (core/ctrl.go:201-205). *)
From Coq Require Import List ZArith Bool.
From Verif Require Import Base.Go Base.Num Model.Clustering Model.Buffer Model.Streaming Model.Status Model.Finish Model.Conf
  Model.CtrlLang Model.CtrlCode Model.CtrlSeq.
Import ListNotations.
Local Open Scope Z_scope.

Section Copy.
Context {G : Type} (rgen0 : G) (cpus : Z) {E : Type}.

(** A k-means algorithm: the configuration Conf() returns, the degree of the parallel strategy of the
    implementation (None: the sequential one), its buffer, and the fields of core.Algo. *)
Record kmeans_algo : Type := mkKmeansAlgo {
  ka_conf : kmeans_conf G; ka_par : option Z; ka_buffer : buffer E; ka_ctrl : seq_st (list E)
}.

(** kmeans/algo.go:17-25, kmeans/par.go:8-14 *)
Definition kmeans_strategy (c : kmeans_conf G) : option Z := if km_par c then Some (km_num_cpu c) else None.

(** kmeans/algo.go:7-15 *)
Definition kmeans_create (c : kmeans_conf G) (data : list E) : outcome kmeans_algo :=
  let* cb := kmeans_new_algo rgen0 cpus c data in
  let '(c, b) := cb in Ok (mkKmeansAlgo c (kmeans_strategy c) b seq0).

(** core/ctrl.go:374-380 with kmeans/impl.go:39-43: the implementation is made by NewAlgo with the
    configuration of the algorithm copied, the new algorithm by core.NewAlgo with [c]. *)
Definition kmeans_copy (a : kmeans_algo) (c : kmeans_conf G) : outcome kmeans_algo :=
  let* made := kmeans_create (ka_conf a) (bdata (ka_buffer a)) in
  let* c := core_new_algo (kmeans_ops rgen0 cpus) c in
  Ok (mkKmeansAlgo c (ka_par made) (ka_buffer made) seq0).

(** A streaming algorithm: the configuration Conf() returns, the one of the implementation
    (streaming/impl.go:16), and the states. *)
Record streaming_algo : Type := mkStreamingAlgo {
  sa_conf : streaming_conf G; sa_impl_conf : streaming_conf G; sa_impl : streaming E b64; sa_ctrl : seq_st (list E)
}.

(** streaming/algo.go:6-13 *)
Definition streaming_create (c : streaming_conf G) (data : list E) : outcome streaming_algo :=
  let* cq := streaming_new_algo rgen0 c data in
  let '(c, q) := cq in Ok (mkStreamingAlgo c c (new_streaming B64Num q) seq0).

(** core/ctrl.go:374-380 with streaming/impl.go:23-27: the centers are given as data. *)
Definition streaming_copy (a : streaming_algo) (c : streaming_conf G) : outcome streaming_algo :=
  let* made := streaming_create (sa_conf a) (s_clust (sa_impl a)) in
  let* c := core_new_algo (streaming_ops rgen0) c in
  Ok (mkStreamingAlgo c (sa_impl_conf made) (sa_impl made) seq0).
End Copy.
Arguments kmeans_algo : clear implicits.
Arguments streaming_algo : clear implicits.

(** core/conf.go:16-24 as read by the controller; without StatusNotifier. *)
Definition ctrl_of (c : ctrl_conf) : cconf :=
  mkCConf (cc_iter c) (cc_iter_per_data c) (cc_data_per_iter c) (0 <? cc_timeout c) (cc_finishing c) None.

Section Predict.
Context {E F : Type} (N : Num F) (Sp : Space E F).

(** The elements of a Clust that holds no nil. *)
Fixpoint no_nil (c : list (option E)) : outcome (list E) :=
  match c with
  | [] => Ok []
  | None :: _ => Panic
  | Some x :: c' => let* r := no_nil c' in Ok (x :: r)
  end.

(** core/ctrl.go:201-205. The Clust may hold nil elements: the distance to a nil element panics in the
    spaces of the library (failed type assertion, euclid/vectors.go:19-21, cosinus/cosinus.go:24-26,
    dtw/series.go:36-38), and the distances to all the elements are computed (core/clustering.go:141-153).
    None: a nil Clust. *)
Definition predict_opt (centroids : option (list (option E))) (x : E) : outcome (option E * Z * F) :=
  let* c := no_nil (match centroids with None => [] | Some c => c end) in assign N Sp c x.
Definition predict (centroids : option (list E)) (x : E) : outcome (option E * Z * F) :=
  assign N Sp (match centroids with None => [] | Some c => c end) x.
End Predict.
