(** C123: using an algorithm does not change the results of another. *)
From Coq Require Import List ZArith Lia Bool.
From Verif Require Import Base.Go Base.Num Model.Clustering Model.Par Model.Buffer Model.Euclid Model.Kmeans Model.KmeansInit Model.Mcmc
  Model.Generators Spec.GeneratorsSpec Spec.NearestSpec Proofs.GeneratorsProofs Proofs.GeneratorsWitness.
Import ListNotations.

(** A copy made with the configuration of the algorithm takes numbers from its generator: the algorithm is
    initialized with [x], or with [y] if the copy is initialized before. *)
Theorem C123_init_refuted : forall (E F : Type) (N : Num F) (Sp : Space E F) par cpus of_tenths (x y : E), x <> y ->
  exists b m, new_data_buffer [x; y] 0 = Ok b /\
    let im := gkmeans N Sp (gpp_initializer N Sp (list_gen of_tenths) cpus) 1 0 par in
    let l := [mkGalgo (mkPointers 0 0 0) b [] false] in
    centroids_after im (l, m) [GCopy 0 0; GInit 0] 0 = Some [Some x] /\
    centroids_after im (l, m) [GCopy 0 0; GInit 1; GInit 0] 0 = Some [Some y].
Proof. exact shared_init_main. Qed.
Print Assumptions C123_init_refuted.

(** A copy of an MCMC algorithm does so even when it is given a generator of its own (number 1). *)
Theorem C123_own_refuted : forall pow log exp : _,
  (forall x, pow x (b64_of_Z 2) = b64_mul x x) -> log (b64_of_Z 1) = b64_of_Z 0 ->
  (forall x, nltb B64Num (b64_of_Z 0) x = true -> nltb B64Num (b64_of_Z 1) (exp x) = true) ->
  exists conf m0 m, new_mcmc B64Num [v64 [0]; v64 [10]; v64 [20]]%Z 0 = Ok m0 /\
    let im := gmcmc B64Num (euclid_space B64Num) (list_gen (fun z => b64_div (b64_of_Z z) (b64_of_Z 10))) (ggiven_initializer (euclid_space B64Num)) 0
                pow log exp 2 (dirac B64Num) conf tt in
    let l := [mkGalgo (mkPointers 0 0 0) m0 [] false] in
    centroids_after im (l, m) [GInit 0; GIterate 0] 0 = Some [Some (v64 [0]%Z); Some (v64 [15]%Z)] /\
    centroids_after im (l, m) [GInit 0; GCopy 0 1; GInit 1; GIterate 1; GIterate 0] 0 = Some [Some (v64 [5]%Z); Some (v64 [20]%Z)].
Proof. exact shared_own_main. Qed.
Print Assumptions C123_own_refuted.

(** Algorithms that hold no generator in common do not disturb each other: whatever calls are made on the
    others, algorithm [i] is as after the calls made on it alone, and so are its generators. *)
Theorem C123_apart_partial : forall (E F G S : Type) (N : Num F) (Sp : Space E F) (gen : generator F G S) initializer frame pow log exp cpus D conf g0,
  (forall p k elemts, only_uses [p] (initializer p k elemts)) ->
  let im := gmcmc N Sp gen initializer frame pow log exp cpus D conf g0 in forall i a l m os l1 m1,
  nth_error l i = Some a -> apart i (ga_pt a) l os -> gsteps im (l, m) os = Some (l1, m1) ->
  exists l2 m2, gsteps im (l, m) (own_calls i os) = Some (l2, m2) /\ nth_error l1 i = nth_error l2 i /\
    forall p, In p (held (ga_pt a)) -> m1 p = m2 p.
Proof. exact mcmc_apart_main. Qed.
Print Assumptions C123_apart_partial.

(** The same for k-means, initializations included. *)
Theorem C123_kmeans_apart_partial : forall (E F S : Type) (N : Num F) (Sp : Space E F) initializer k frame par,
  (forall p k elemts, only_uses [p] (initializer p k elemts)) ->
  let im := gkmeans (S := S) N Sp initializer k frame par in forall i a l m os l1 m1,
  nth_error l i = Some a -> apart i (ga_pt a) l os -> gsteps im (l, m) os = Some (l1, m1) ->
  exists l2 m2, gsteps im (l, m) (own_calls i os) = Some (l2, m2) /\ nth_error l1 i = nth_error l2 i /\
    forall p, In p (held (ga_pt a)) -> m1 p = m2 p.
Proof. exact kmeans_all_apart_main. Qed.
Print Assumptions C123_kmeans_apart_partial.

Theorem C123_initializers_partial : forall (E F G S : Type) (N : Num F) (Sp : Space E F) (gen : generator F G S) cpus p k elemts,
  only_uses [p] (gpp_initializer N Sp gen cpus p k elemts) /\ only_uses [p] (ggiven_initializer (S := S) Sp p k elemts).
Proof. exact initializers_main. Qed.
Print Assumptions C123_initializers_partial.

(** Once it is initialized, k-means draws nothing: it is not disturbed by other algorithms, copies of it
    included, even if they all hold the same generator, and does not disturb them. *)
Theorem C123_kmeans_partial : forall (E F S : Type) (N : Num F) (Sp : Space E F) initializer k frame par,
  let im := gkmeans (S := S) N Sp initializer k frame par in forall i a l m os l1 m1,
  nth_error l i = Some a -> (forall o, In o os -> target o = i -> is_init o = false) -> gsteps im (l, m) os = Some (l1, m1) ->
  exists l2, gsteps im (l, m) (own_calls i os) = Some (l2, m) /\ nth_error l1 i = nth_error l2 i.
Proof. exact kmeans_apart_main. Qed.
Print Assumptions C123_kmeans_partial.

(** The iterations of MCMC are those of the other theorems, for the numbers drawn: that of the next number of
    centers comes from the generator of the configuration; that of the acceptance is the last one taken from
    the generator of the implementation. *)
Theorem C123_draws_partial : forall (E F G S : Type) (N : Num F) (Sp : Space E F) (gen : generator F G S) initializer frame pow log exp cpus D conf g0 pt m c
    (mem mem' : gmem S) m' c',
  gi_iterate (gmcmc N Sp gen initializer frame pow log exp cpus D conf g0) pt m c mem = Ok (m', c', mem') ->
  exists dr f st, mcmc_iterate N Sp pow log exp cpus D conf m c dr = Ok (m', c', f) /\
    g_float gen st = (d_u dr, mem' (pt_impl pt)) /\
    (neqb N (weights_sum N (mp_proba_k conf)) (nof N 0) = false -> d_k dr = fst (g_float gen (mem (pt_conf pt)))).
Proof. exact gmcmc_draws_main. Qed.
Print Assumptions C123_draws_partial.

(** Two MCMC algorithms with generators of their own; the second is copied and the copy used. *)
Example C123_apart_case : let l := [mkGalgo (mkPointers 0 0 0) w_m0 [] false; mkGalgo (mkPointers 1 1 1) w_m0 [] false] in
  let os := [GInit 1; GCopy 1 2; GInit 2; GInit 0; GInit 1] in
  apart 0 (mkPointers 0 0 0) l os /\ own_calls 0 os = [GInit 0] /\
  forall exp, works (gsteps (w_im exp) (l, w_mem) os) = true /\ only_uses [7] (ggiven_initializer (S := list Z) (euclid_space B64Num) 7 1%Z w_data).
Proof.
  intros l os. split; [|split; [reflexivity|]].
  - split.
    + intros [|[|[|j]]] a Hj H p Hp Hq; try contradiction; try discriminate. injection H as <-. cbn in *. lia.
    + intros j p [H|[H|[H|[H|[H|[]]]]]]; try discriminate. injection H as <- <-. split; [lia|]. cbn. lia.
  - intros exp. split; [|apply uses_given]. unfold os, l. cbn [gsteps gstep nth_error ga_pt ga_impl]. rewrite w_init_ok.
    cbn [gsteps gstep nth_error gupdate ga_pt ga_impl].
    assert (Hc : gi_copy (w_im exp) w_m1 = Ok w_m0) by reflexivity. rewrite Hc. cbn [gsteps gstep nth_error gupdate app ga_pt ga_impl].
    rewrite w_init_ok. cbn [gsteps gstep nth_error gupdate app ga_pt ga_impl]. rewrite w_init_ok. cbn [gsteps gstep nth_error gupdate app ga_pt ga_impl].
    assert (Hr : gi_init (w_im exp) (mkPointers 1 1 1) w_m1 w_mem = gi_init (w_im exp) (mkPointers 1 1 1) w_m0 w_mem)
      by (cbn [w_im gmcmc gi_init]; unfold gbind, ggiven_initializer, glift, mcmc_init; reflexivity).
    rewrite Hr, w_init_ok. reflexivity.
Qed.

(** A k-means algorithm and its copy, of the same generator: the copy is initialized and run in between. *)
Example C123_kmeans_case : let b := mkBuffer [] (map (fun z => v64 [z]%Z) [1; 2; 8]%Z) InfiniteSize in
  let l := [mkGalgo (mkPointers 0 0 0) b (map (fun z => Some (v64 [z]%Z)) [1; 2]%Z) true] in
  let im := gkmeans B64Num (euclid_space B64Num) (gpp_initializer B64Num (euclid_space B64Num) (list_gen b64_of_Z) 2) 2 0 None in
  let os := [GIterate 0; GCopy 0 0; GInit 1; GPush 0 (v64 [9]%Z); GIterate 1; GIterate 0] in
  (forall o, In o os -> target o = 0 -> is_init o = false) /\ works (gsteps im (l, fun _ => [1; 1]%Z) os) = true /\
  own_calls 0 os = [GIterate 0; GPush 0 (v64 [9]%Z); GIterate 0].
Proof.
  intros b l im os. split; [|split; [vm_compute; reflexivity|reflexivity]].
  intros o [<-|[<-|[<-|[<-|[<-|[<-|[]]]]]]] H; try reflexivity. discriminate H.
Qed.

(** Two k-means algorithms with generators of their own; the second is copied and the copy initialized. *)
Example C123_kmeans_apart_case : let b := mkBuffer [] (map (fun z => v64 [z]%Z) [1; 2; 8]%Z) InfiniteSize in
  let l := [mkGalgo (mkPointers 0 0 0) b [] false; mkGalgo (mkPointers 1 1 1) b [] false] in
  let im := gkmeans B64Num (euclid_space B64Num) (gpp_initializer B64Num (euclid_space B64Num) (list_gen tenths) 2) 2 0 None in
  let os := [GInit 1; GCopy 1 2; GInit 2; GInit 0; GIterate 1; GIterate 0] in
  apart 0 (mkPointers 0 0 0) l os /\ own_calls 0 os = [GInit 0; GIterate 0] /\ works (gsteps im (l, fun p => [Z.of_nat p; 3]%Z) os) = true /\
  forall p k elemts, only_uses [p] (gpp_initializer B64Num (euclid_space B64Num) (list_gen tenths) 2 p k elemts).
Proof.
  intros b l im os. split; [|split; [reflexivity|split; [vm_compute; reflexivity|intros; apply uses_pp]]]. split.
  - intros [|[|[|j]]] a Hj H p Hp Hq; try contradiction; try discriminate. injection H as <-. cbn in *. lia.
  - intros j p [H|[H|[H|[H|[H|[H|[]]]]]]]; try discriminate. injection H as <- <-. split; [lia|]. cbn. lia.
Qed.
