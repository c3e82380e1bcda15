(** Model of mcmc/impl.go, mcmc/store.go, mcmc/seq.go, mcmc/par.go and mcmc/dirac.go. *)
From Coq Require Import List ZArith Bool.
From Verif Require Import Base.Go Base.Num Model.Clustering Model.Par Model.Buffer Model.Kmeans
  Model.KmeansInit.
Import ListNotations.
Local Open Scope Z_scope.

(** mcmc/distrib.go:6-9. [G] is the randomness used by one call of Sample. Both methods may panic
    (type assertion or index out of range in MultivT). *)
Record distrib (E F G : Type) : Type := mkDistrib {
  dsample : G -> E -> Z -> outcome E;     (* Sample(mu, time) *)
  dpdf : E -> E -> Z -> outcome F         (* Pdf(x, mu, time) *)
}.
Arguments mkDistrib {E F G}. Arguments dsample {E F G}. Arguments dpdf {E F G}.

(** mcmc/dirac.go:17-25 *)
Definition dirac {E F : Type} (N : Num F) : distrib E F unit :=
  mkDistrib (fun _ mu _ => Ok mu) (fun _ _ _ => Ok (nof N 1)).

(** mcmc/conf.go:14-26: the fields that mcmc/impl.go reads; [mp_num_cpu] is conf.NumCPU. *)
Record mparams (F : Type) : Type := mkMparams {
  mp_par : bool; mp_init_k : Z; mp_b : F; mp_amp : F; mp_norm : F; mp_max_k : Z;
  mp_proba_k : list F; mp_num_cpu : Z
}.
Arguments mkMparams {F}. Arguments mp_par {F}. Arguments mp_init_k {F}. Arguments mp_b {F}.
Arguments mp_amp {F}. Arguments mp_norm {F}. Arguments mp_max_k {F}. Arguments mp_proba_k {F}.
Arguments mp_num_cpu {F}.

(** mcmc/impl.go:83-88 *)
Record proposal (E F : Type) : Type := mkProposal {
  pr_k : Z; pr_centers : list E; pr_loss : F; pr_pdf : F
}.
Arguments mkProposal {E F}. Arguments pr_k {E F}. Arguments pr_centers {E F}.
Arguments pr_loss {E F}. Arguments pr_pdf {E F}.

(** mcmc/impl.go:13-27. The map of the store is an association list, last binding first. *)
Record mimpl (E F : Type) : Type := mkMimpl {
  mi_buffer : buffer E; mi_store : list (Z * list E); mi_acc : Z;
  mi_lambda : F; mi_rho : F; mi_rgibbs : F; mi_time : Z; mi_dim : Z; mi_current : proposal E F
}.
Arguments mkMimpl {E F}. Arguments mi_buffer {E F}. Arguments mi_store {E F}. Arguments mi_acc {E F}.
Arguments mi_lambda {E F}. Arguments mi_rho {E F}. Arguments mi_rgibbs {E F}. Arguments mi_time {E F}.
Arguments mi_dim {E F}. Arguments mi_current {E F}.

(** What one iteration draws: [d_k] the Float64 of nextK; [d_add], [d_del] the Float64 of PPIter and
    the Intn of delCenter in the first call of GetCenters, [d_add'], [d_del'] in the second one;
    [d_sample i] the randomness of the sampling of center [i]; [d_u] the value of uniform.Rand(). *)
Record draws (F G : Type) : Type := mkDraws {
  d_k : F; d_add : F; d_del : Z; d_add' : F; d_del' : Z; d_sample : nat -> G; d_u : F
}.
Arguments mkDraws {F G}. Arguments d_k {F G}. Arguments d_add {F G}. Arguments d_del {F G}.
Arguments d_add' {F G}. Arguments d_del' {F G}. Arguments d_sample {F G}. Arguments d_u {F G}.

(** Reading centers that may be nil: nil reaches Space.Dist, whose type assertion panics.
    Simplification: the panic is raised at once, also when there is no data to measure. *)
Fixpoint somes {E : Type} (l : list (option E)) : outcome (list E) :=
  match l with
  | [] => Ok []
  | None :: _ => Panic
  | Some x :: r => let* y := somes r in Ok (x :: y)
  end.

Section Mcmc.
Context {E F G : Type} (N : Num F) (Sp : Space E F).
(** [math.Pow], [math.Log], [math.Exp]; [cpus] is runtime.NumCPU(). *)
Variables (pow : F -> F -> F) (log exp : F -> F) (cpus : Z).
Variable D : distrib E F G.
Variable conf : mparams F.

(** ** The center store, mcmc/store.go *)

Fixpoint store_get (s : list (Z * list E)) (k : Z) : option (list E) :=
  match s with
  | [] => None
  | (k', c) :: s' => if k' =? k then Some c else store_get s' k
  end.

(** mcmc/store.go:36-38 *)
Definition store_set (s : list (Z * list E)) (c : list E) : list (Z * list E) := (slen c, c) :: s.

(** mcmc/store.go:57-64; PPIter runs on runtime.NumCPU() goroutines. *)
Definition add_center (data prev : list E) (r : F) : outcome (list E * option init_error) :=
  let* ce := pp_iter N Sp cpus prev data r in
  Ok (map (scopy Sp) prev ++ [fst ce], snd ce).

(** mcmc/store.go:66-77; Intn panics when its argument is not positive. *)
Definition del_center (prev : list E) (del : Z) : outcome (list E) :=
  if slen prev <=? 0 then Panic
  else omap (fun i => let* c := sget prev (if i <? del then i else i + 1) in Ok (scopy Sp c))
            (map Z.of_nat (seq 0 (length prev - 1))).

(** mcmc/store.go:40-55 *)
Definition gen_centers (data : list E) (k : Z) (prev : list E) (r : F) (del : Z)
  : outcome (list E * option init_error) :=
  if slen prev <? k then add_center data prev r
  else if k <? slen prev then let* c := del_center prev del in Ok (c, None)
  else Ok (prev, None).

(** mcmc/store.go:25-33 *)
Definition get_centers (s : list (Z * list E)) (data : list E) (k : Z) (clust : list E) (r : F)
  (del : Z) : outcome (list E * option init_error) :=
  match store_get s k with
  | Some c => Ok (c, None)
  | None => gen_centers data k clust r del
  end.

(** ** The strategies *)

(** mcmc/seq.go:27-45 and mcmc/par.go:23-41: both run [iter] iterations of the parallel k-means on
    runtime.NumCPU() goroutines (conf.NumCPU is set by PrepareConf) from the given centers
    (Clust.Initializer), on an unbounded buffer holding the data. The errors are ignored. *)
Fixpoint strategy_iter (iter : nat) (centers data : list E) : outcome (list E) :=
  match iter with
  | O => Ok centers
  | S n =>
      let* r := par_iterate N Sp cpus centers data in
      let* c := somes r in
      strategy_iter n c data
  end.

(** mcmc/seq.go:48-50 and mcmc/par.go:44-46 *)
Definition strategy_loss (centers data : list E) : outcome F :=
  if mp_par conf then par_total_loss N Sp pow centers data (mp_norm conf) (mp_num_cpu conf)
  else total_loss N Sp pow centers data (mp_norm conf).

(** ** mcmc/impl.go *)

(** mcmc/impl.go:141-155; the error of WeightedChoice is ignored. *)
Definition next_k (k : Z) (data : list E) (r : F) : outcome Z :=
  let* ie := weighted_choice N (mp_proba_k conf) r in
  let* d := sget [-1; 0; 1] (fst ie) in
  let new_k := k + d in
  Ok (if new_k <? 1 then 1
      else if mp_max_k conf <? new_k then mp_max_k conf
      else if slen data <? new_k then slen data
      else new_k).

(** mcmc/impl.go:157-165; [i] is the loop index. *)
Fixpoint alter_loop (clust : list E) (time : Z) (g : nat -> G) (i : nat) : outcome (list E) :=
  match clust with
  | [] => Ok []
  | c :: r =>
      let* x := dsample D (g i) c time in
      let* y := alter_loop r time g (S i) in Ok (x :: y)
  end.
Definition alter (clust : list E) (time : Z) (g : nat -> G) : outcome (list E) :=
  alter_loop clust time g 0.

(** mcmc/impl.go:167-173 *)
Definition proba (x mu : list E) (time : Z) : outcome F :=
  let* r := ofold (fun st v =>
              let '(i, p) := st in
              let* m := sget mu i in
              let* d := dpdf D m v time in
              Ok (i + 1, nadd N p d)) x (0, nof N 0) in
  Ok (snd r).

(** mcmc/impl.go:115-123 *)
Definition get_k_centers (m : mimpl E F) (current : proposal E F) (centroids data : list E)
  (dr : draws F G) : outcome (Z * list E) :=
  let* k := next_k (pr_k current) data (d_k dr) in
  let* ce := get_centers (mi_store m) data k centroids (d_add dr) (d_del dr) in
  match snd ce with
  | None => Ok (k, fst ce)
  | Some _ =>
      let k := pr_k current in
      let* ce := get_centers (mi_store m) data k centroids (d_add' dr) (d_del' dr) in
      Ok (k, fst ce)
  end.

(** mcmc/impl.go:103-113 *)
Definition propose (m : mimpl E F) (current : proposal E F) (centroids data : list E) (time : Z)
  (dr : draws F G) : outcome (proposal E F) :=
  let* kc := get_k_centers m current centroids data dr in
  let '(k, centers) := kc in
  let* centers := alter centers time (d_sample dr) in
  let* centers := strategy_iter 1 centers data in
  let* loss := strategy_loss centers data in
  let* pdf := proba centers centers time in
  Ok (mkProposal k centers loss pdf).

(** mcmc/impl.go:125-139: (lambda, rho, rGibbs). *)
Definition accept_figures (dim : Z) (current prop : proposal E F) (time : Z) : F * F * F :=
  let rprop := nsub N (pr_pdf current) (pr_pdf prop) in
  let l2b := log (nmul N (nof N 2) (mp_b conf)) in
  let rinit := nmul N l2b (nof N (dim * (pr_k current - pr_k prop))) in
  let lambda := nmul N (mp_amp conf) (nsqrt N (ndiv N (nof N (dim + 3)) (nof N time))) in
  let rgibbs := nmul N lambda (nsub N (pr_loss current) (pr_loss prop)) in
  let rho := exp (nadd N (nadd N rgibbs rinit) rprop) in
  (lambda, rho, rgibbs).

Definition accept (dim : Z) (current prop : proposal E F) (time : Z) (u : F) : bool :=
  let '(_, rho, _) := accept_figures dim current prop time in nltb N u rho.

(** mcmc/impl.go:90-101, with the assignments of impl.go:69 (current) and 134-136. *)
Definition do_iter (m : mimpl E F) (centroids data : list E) (time : Z) (dr : draws F G)
  : outcome (mimpl E F * list E) :=
  let current := mi_current m in
  let* prop := propose m current centroids data time dr in
  let '(lambda, rho, rgibbs) := accept_figures (mi_dim m) current prop time in
  if accept (mi_dim m) current prop time (d_u dr)
  then Ok (mkMimpl (mi_buffer m) (store_set (mi_store m) (pr_centers prop)) (mi_acc m + 1)
             lambda rho rgibbs (mi_time m) (mi_dim m) prop, pr_centers prop)
  else Ok (mkMimpl (mi_buffer m) (mi_store m) (mi_acc m)
             lambda rho rgibbs (mi_time m) (mi_dim m) current, centroids).

(** mcmc/impl.go:176-184, mcmc/figures.go; float64(impl.acc) and float64(impl.time) are kept as
    integers. *)
Record mfigures : Type := mkMfigures {
  f_acceptations : Z; f_lambda : F; f_rho : F; f_rgibbs : F; f_time : Z
}.
Definition mruntime_figures (m : mimpl E F) : mfigures :=
  mkMfigures (mi_acc m) (mi_lambda m) (mi_rho m) (mi_rgibbs m) (mi_time m).

Definition set_buffer (m : mimpl E F) (b : buffer E) : mimpl E F :=
  mkMimpl b (mi_store m) (mi_acc m) (mi_lambda m) (mi_rho m) (mi_rgibbs m) (mi_time m) (mi_dim m)
    (mi_current m).

(** mcmc/impl.go:64-72; [centroids] is model.Centroids(). *)
Definition mcmc_iterate (m : mimpl E F) (centroids : list E) (dr : draws F G)
  : outcome (mimpl E F * list E * mfigures) :=
  let data := bdata (mi_buffer m) in
  let time := slen data in
  let* mc := do_iter m centroids data time dr in
  let '(m, clust) := mc in
  let m := mkMimpl (mi_buffer m) (mi_store m) (mi_acc m) (mi_lambda m) (mi_rho m) (mi_rgibbs m)
             time (mi_dim m) (mi_current m) in
  let* b := buffer_apply (mi_buffer m) in
  Ok (set_buffer m b, clust, mruntime_figures m).

(** mcmc/seq.go:11-20, mcmc/par.go:9-15: the implementation built on the data; the zero value of
    the other fields. *)
Definition new_mcmc (data : list E) (frame_size : Z) : outcome (mimpl E F) :=
  let* b := new_data_buffer data frame_size in
  Ok (mkMimpl b [] 0 (nof N 0) (nof N 0) (nof N 0) 0 0 (mkProposal 0 [] (nof N 0) (nof N 0))).

(** The initializer given to NewAlgo; [I] is the randomness it uses. *)
Context {I : Type}.
Variable initializer : I -> Z -> list E -> outcome (list (option E) * option init_error).

(** mcmc/impl.go:43-61 *)
Definition mcmc_init (m : mimpl E F) (i : I)
  : outcome (mimpl E F * list (option E) * option init_error) :=
  let* b := buffer_apply (mi_buffer m) in
  let data := bdata b in
  let* r := initializer i (mp_init_k conf) data in
  let m := set_buffer m b in
  let '(cs, err) := r in
  match err with
  | Some e => Ok (m, cs, Some e)
  | None =>
      let* centroids := somes cs in
      let time := slen data in
      let* loss := strategy_loss centroids data in
      let* pdf := proba centroids centroids time in
      Ok (mkMimpl (mi_buffer m) (mi_store m) (mi_acc m) (mi_lambda m) (mi_rho m) (mi_rgibbs m) time
            (sdim Sp centroids) (mkProposal (mp_init_k conf) centroids loss pdf), cs, None)
  end.

(** ** The implementation under the controller
    core/ctrl.go:66-98 and 280-294: Init stores the centroids it returns, whatever the error;
    iterations happen only after a successful initialization, on the stored centroids, and store
    the centroids they return. A panic of Iterate is recovered (core/ctrl.go:207-214) and ends the
    run: the algorithm has to be initialized again; the panics of [mcmc_iterate] occur before any
    assignment to the implementation. Push gives the liveness of the algorithm to the buffer. *)
Record msys : Type := mkMsys {
  ms_impl : mimpl E F; ms_centroids : list (option E); ms_ready : bool
}.

Inductive mevent : Type :=
| EvPush (x : E) (alive : bool)
| EvInit (i : I)
| EvIterate (dr : draws F G).

(** What a call shows: the figures of an iteration that returned. *)
Inductive mout : Type :=
| OutPush
| OutInit (err : option init_error)
| OutFigures (u : F) (f : mfigures)
| OutPanic.

Inductive mstep : msys -> mevent -> mout -> msys -> Prop :=
| ms_push : forall s x alive b,
    buffer_push (mi_buffer (ms_impl s)) x alive = Some (Ok b) ->
    mstep s (EvPush x alive) OutPush
      (mkMsys (set_buffer (ms_impl s) b) (ms_centroids s) (ms_ready s))
| ms_init : forall s i m cs err,
    mcmc_init (ms_impl s) i = Ok (m, cs, err) ->
    mstep s (EvInit i) (OutInit err)
      (mkMsys m cs (match err with None => true | Some _ => false end))
| ms_iterate : forall s dr c m c' f,
    ms_ready s = true -> ms_centroids s = map Some c ->
    mcmc_iterate (ms_impl s) c dr = Ok (m, c', f) ->
    mstep s (EvIterate dr) (OutFigures (d_u dr) f) (mkMsys m (map Some c') true)
| ms_iterate_panic : forall s dr c,
    ms_ready s = true -> ms_centroids s = map Some c ->
    mcmc_iterate (ms_impl s) c dr = Panic ->
    mstep s (EvIterate dr) OutPanic (mkMsys (ms_impl s) (ms_centroids s) false).

Inductive msteps : msys -> list mevent -> list mout -> msys -> Prop :=
| mss_nil : forall s, msteps s [] [] s
| mss_cons : forall s e o s1 es os s2,
    mstep s e o s1 -> msteps s1 es os s2 -> msteps s (e :: es) (o :: os) s2.

(** mcmc/algo.go:7-11: the algorithm before any call. *)
Definition new_msys (data : list E) (frame_size : Z) : outcome msys :=
  let* m := new_mcmc data frame_size in Ok (mkMsys m [] false).

End Mcmc.
