(** The slices of mcmc/impl.go and mcmc/store.go in memory: the centers of the store, of the current proposal and those
    published are slices that may be the same one. *)
From Coq Require Import List ZArith Bool Arith.
From Verif Require Import Base.Go Base.Num Model.Clustering Model.Par Model.Buffer Model.KmeansInit Model.Mcmc Model.Heap Model.HeapPar.
Import ListNotations.
Local Open Scope Z_scope.

(** mcmc/impl.go:83-88 *)
Record hproposal (F : Type) : Type := mkHProposal { hp_k : Z; hp_centers : slice; hp_loss : F; hp_pdf : F }.
Arguments mkHProposal {F}. Arguments hp_k {F}. Arguments hp_centers {F}. Arguments hp_loss {F}. Arguments hp_pdf {F}.

(** mcmc/impl.go:13-27; the data of the buffer are values here (in memory: Model/HeapBuffer.v). *)
Record hmimpl (E F : Type) : Type := mkHMimpl {
  hm_buffer : buffer E; hm_store : list (Z * slice); hm_acc : Z;
  hm_lambda : F; hm_rho : F; hm_rgibbs : F; hm_time : Z; hm_dim : Z; hm_current : hproposal F
}.
Arguments mkHMimpl {E F}. Arguments hm_buffer {E F}. Arguments hm_store {E F}. Arguments hm_acc {E F}.
Arguments hm_lambda {E F}. Arguments hm_rho {E F}. Arguments hm_rgibbs {E F}. Arguments hm_time {E F}.
Arguments hm_dim {E F}. Arguments hm_current {E F}.

Section HeapMcmc.
Context {E F G : Type} (N : Num F) (Sp : Space E F).
Variables (pow : F -> F -> F) (log exp : F -> F) (cpus : Z).
Variable D : distrib E F G.
Variable conf : mparams F.
Notation mem := (mem E).

(** make(core.Clust, n) followed by the loop that fills it (mcmc/store.go:58-62, 68-75; mcmc/impl.go:158-162). *)
Definition halloc (m : mem) (l : list E) : mem * slice := (m ++ [map Some l], mkSlice (length m) (length l)).

(** mcmc/store.go:25-33, 36-38 *)
Fixpoint hstore_get (s : list (Z * slice)) (k : Z) : option slice :=
  match s with
  | [] => None
  | (k', c) :: s' => if k' =? k then Some c else hstore_get s' k
  end.
Definition hstore_set (s : list (Z * slice)) (c : slice) : list (Z * slice) := (Z.of_nat (sl_len c), c) :: s.

(** mcmc/store.go:25-77: the slice of the store or the previous centers themselves, or a new slice. *)
Definition hget_centers (m : mem) (s : list (Z * slice)) (data : list E) (k : Z) (clust : slice) (r : F) (del : Z)
  : outcome (mem * slice * option init_error) :=
  match hstore_get s k with
  | Some c => Ok (m, c, None)
  | None =>
      let* prev := elements (read m clust) in
      if slen prev <? k then let* ce := add_center N Sp cpus data prev r in Ok (halloc m (fst ce), snd ce)
      else if k <? slen prev then let* c := del_center Sp prev del in Ok (halloc m c, None)
      else Ok (m, clust, None)
  end.

(** mcmc/impl.go:115-123 *)
Definition hget_k_centers (m : mem) (x : hmimpl E F) (centroids : slice) (data : list E) (dr : draws F G)
  : outcome (mem * Z * slice) :=
  let current := hm_current x in
  let* k := next_k N conf (hp_k current) data (d_k dr) in
  let* mse := hget_centers m (hm_store x) data k centroids (d_add dr) (d_del dr) in
  let '(m, s, err) := mse in
  match err with
  | None => Ok (m, k, s)
  | Some _ =>
      let k := hp_k current in
      let* mse := hget_centers m (hm_store x) data k centroids (d_add' dr) (d_del' dr) in
      let '(m, s, _) := mse in Ok (m, k, s)
  end.

(** mcmc/seq.go:27-45 and mcmc/par.go:23-41 for one iteration, with the order [schedule] in which the goroutines of the
    parallel k-means process their elements; None when they cannot proceed in this order or are not done after it.
    Clust.Initializer (core/clustering.go:194-196) gives the slice itself to the iteration. *)
Definition hstrategy (m : mem) (s : slice) (data : list E) (schedule : list nat) : option (outcome (mem * slice)) :=
  match hpar_chunks data cpus with
  | Panic => Some Panic
  | Ok parts =>
      match par_steps N Sp s (hstart m s parts) schedule with
      | Some (Ok (m1, ws)) =>
          if forallb (fun w => match w_todo w with [] => true | _ => false end) ws then Some (hpar_join Sp m1 s ws) else None
      | Some Panic => Some Panic
      | None => None
      end
  end.

(** mcmc/impl.go:103-113 *)
Definition hpropose (m : mem) (x : hmimpl E F) (centroids : slice) (data : list E) (time : Z) (dr : draws F G)
  (schedule : list nat) : option (outcome (mem * hproposal F)) :=
  match (let* mks := hget_k_centers m x centroids data dr in
         let '(m, k, s) := mks in
         let* centers := elements (read m s) in
         let* altered := alter D centers time (d_sample dr) in
         Ok (halloc m altered, k)) with
  | Panic => Some Panic
  | Ok (m, s, k) =>
      match hstrategy m s data schedule with
      | None => None
      | Some r =>
          Some (let* ms := r in
                let '(m, s) := ms in
                let* centers := elements (read m s) in
                let* loss := strategy_loss N Sp pow conf centers data in
                let* pdf := proba N D centers centers time in
                Ok (m, mkHProposal k s loss pdf))
      end
  end.

(** mcmc/impl.go:125-139 does not read the centers. *)
Definition hfigures_of (p : hproposal F) : proposal E F := mkProposal (hp_k p) [] (hp_loss p) (hp_pdf p).

(** mcmc/impl.go:90-101 and 64-72; [centroids] is model.Centroids(). *)
Definition hmcmc_iterate (m : mem) (x : hmimpl E F) (centroids : slice) (dr : draws F G) (schedule : list nat)
  : option (outcome (mem * hmimpl E F * slice * @mfigures F)) :=
  let data := bdata (hm_buffer x) in
  let time := slen data in
  match hpropose m x centroids data time dr schedule with
  | None => None
  | Some r =>
      Some (let* mp := r in
            let '(m, prop) := mp in
            let current := hm_current x in
            let '(lambda, rho, rgibbs) := accept_figures N log exp conf (hm_dim x) (hfigures_of current) (hfigures_of prop) time in
            let ok := accept N log exp conf (hm_dim x) (hfigures_of current) (hfigures_of prop) time (d_u dr) in
            let store := if ok then hstore_set (hm_store x) (hp_centers prop) else hm_store x in
            let acc := if ok then hm_acc x + 1 else hm_acc x in
            let* b := buffer_apply (hm_buffer x) in
            Ok (m, mkHMimpl b store acc lambda rho rgibbs time (hm_dim x) (if ok then prop else current),
                if ok then hp_centers prop else centroids, mkMfigures acc lambda rho rgibbs time))
  end.

(** The initializer given to NewAlgo: it returns a slice, which may be new or, like Clust.Initializer, one of the client's. *)
Context {I : Type}.
Variable hinitializer : I -> mem -> Z -> list E -> outcome (mem * slice * option init_error).

Definition hset_buffer (x : hmimpl E F) (b : buffer E) : hmimpl E F :=
  mkHMimpl b (hm_store x) (hm_acc x) (hm_lambda x) (hm_rho x) (hm_rgibbs x) (hm_time x) (hm_dim x) (hm_current x).

(** mcmc/impl.go:43-61 *)
Definition hmcmc_init (m : mem) (x : hmimpl E F) (i : I) : outcome (mem * hmimpl E F * slice * option init_error) :=
  let* b := buffer_apply (hm_buffer x) in
  let data := bdata b in
  let* r := hinitializer i m (mp_init_k conf) data in
  let '(m, s, err) := r in
  let x := hset_buffer x b in
  match err with
  | Some e => Ok (m, x, s, Some e)
  | None =>
      let* centroids := elements (read m s) in
      let time := slen data in
      let* loss := strategy_loss N Sp pow conf centroids data in
      let* pdf := proba N D centroids centroids time in
      Ok (m, mkHMimpl b (hm_store x) (hm_acc x) (hm_lambda x) (hm_rho x) (hm_rgibbs x) time
            (sdim Sp centroids) (mkHProposal (mp_init_k conf) s loss pdf), s, None)
  end.

(** The implementation under the controller, as in Model/Mcmc.v; [hs_centroids] is the slice that Centroids() returns. What
    an iteration that panics has allocated is lost. *)
Record hmsys : Type := mkHMsys { hs_mem : mem; hs_impl : hmimpl E F; hs_centroids : slice; hs_ready : bool }.

Inductive hmevent : Type :=
| HEvPush (x : E) (alive : bool)
| HEvInit (i : I)
| HEvIterate (dr : draws F G) (schedule : list nat).

Inductive hmstep : hmsys -> hmevent -> @mout F -> hmsys -> Prop :=
| hms_push : forall s x alive b,
    buffer_push (hm_buffer (hs_impl s)) x alive = Some (Ok b) ->
    hmstep s (HEvPush x alive) OutPush (mkHMsys (hs_mem s) (hset_buffer (hs_impl s) b) (hs_centroids s) (hs_ready s))
| hms_init : forall s i m x c err,
    hmcmc_init (hs_mem s) (hs_impl s) i = Ok (m, x, c, err) ->
    hmstep s (HEvInit i) (OutInit err) (mkHMsys m x c (match err with None => true | Some _ => false end))
| hms_iterate : forall s dr schedule m x c f,
    hs_ready s = true ->
    hmcmc_iterate (hs_mem s) (hs_impl s) (hs_centroids s) dr schedule = Some (Ok (m, x, c, f)) ->
    hmstep s (HEvIterate dr schedule) (OutFigures (d_u dr) f) (mkHMsys m x c true)
| hms_iterate_panic : forall s dr schedule,
    hs_ready s = true ->
    hmcmc_iterate (hs_mem s) (hs_impl s) (hs_centroids s) dr schedule = Some Panic ->
    hmstep s (HEvIterate dr schedule) OutPanic (mkHMsys (hs_mem s) (hs_impl s) (hs_centroids s) false).

Inductive hmsteps : hmsys -> list hmevent -> list (@mout F) -> hmsys -> Prop :=
| hmss_nil : forall s, hmsteps s [] [] s
| hmss_cons : forall s e o s1 es os s2,
    hmstep s e o s1 -> hmsteps s1 es os s2 -> hmsteps s (e :: es) (o :: os) s2.

(** mcmc/algo.go:7-11 with mcmc/seq.go:11-20: the nil slice of centroids is the first array, of capacity 0; [m] is the memory
    of the client. *)
Definition new_hmsys (m : mem) (data : list E) (frame_size : Z) : outcome hmsys :=
  let* b := new_data_buffer data frame_size in
  Ok (mkHMsys (m ++ [[]])
        (mkHMimpl b [] 0 (nof N 0) (nof N 0) (nof N 0) 0 0 (mkHProposal 0 (mkSlice (length m) 0) (nof N 0) (nof N 0)))
        (mkSlice (length m) 0) false).
End HeapMcmc.
Arguments hmsys : clear implicits. Arguments hmevent : clear implicits.
