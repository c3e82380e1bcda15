(** Generators of random numbers shared by several algorithms. A *rand.Rand is a pointer: the algorithms
    that hold the same one take their numbers in turn from one sequence. The other models take the numbers
    drawn as inputs; here they are taken from the generators in memory, in the order of the code. *)
From Coq Require Import List ZArith Bool.
From Verif Require Import Base.Go Base.Num Model.Clustering Model.Par Model.Buffer Model.Kmeans Model.KmeansInit Model.Mcmc.
Import ListNotations.
Local Open Scope Z_scope.

(** golang.org/x/exp/rand: a generator is a state [S]; Float64 and Intn return a value and change it.
    [g_law] is all that the sampling of one center takes from the generator of a distribution. *)
Record generator (F G S : Type) : Type := mkGenerator {
  g_float : S -> F * S; g_intn : Z -> S -> Z * S; g_law : S -> G * S
}.
Arguments mkGenerator {F G S}. Arguments g_float {F G S}. Arguments g_intn {F G S}. Arguments g_law {F G S}.

(** The memory: the state of the generator at each pointer. *)
Definition gmem (S : Type) : Type := nat -> S.
Definition gset {S} (m : gmem S) (p : nat) (s : S) : gmem S := fun q => if Nat.eqb q p then s else m q.

(** Computations that draw and may panic. *)
Definition gcomp (S A : Type) : Type := gmem S -> outcome (A * gmem S).
Definition gret {S A} (x : A) : gcomp S A := fun m => Ok (x, m).
Definition gbind {S A B} (a : gcomp S A) (f : A -> gcomp S B) : gcomp S B :=
  fun m => match a m with Ok (x, m') => f x m' | Panic => Panic end.
Definition glift {S A} (o : outcome A) : gcomp S A := fun m => let* x := o in Ok (x, m).
Notation "'let+' x := a 'in' b" := (gbind a (fun x => b)) (at level 200, x pattern, a at level 100, b at level 200).

(** The generators an algorithm holds: that of Conf(), which initializers and nextK use; that of the
    implementation (mcmc/seq.go:15-16, the uniform law and the store), fixed when it was made; that of the
    distribution (mcmc/multivt.go:20). *)
Record pointers : Type := mkPointers { pt_conf : nat; pt_impl : nat; pt_law : nat }.

(** An algorithm of core/impl.go whose calls draw. *)
Record gimplem (E I S : Type) : Type := mkGimplem {
  gi_init : pointers -> I -> gcomp S (I * list (option E) * option init_error);
  gi_iterate : pointers -> I -> list E -> gcomp S (I * list E);
  gi_push : I -> E -> outcome I;
  gi_copy : I -> outcome I
}.
Arguments mkGimplem {E I S}. Arguments gi_init {E I S}. Arguments gi_iterate {E I S}. Arguments gi_push {E I S}. Arguments gi_copy {E I S}.

Section Draws.
Context {E F G S : Type} (N : Num F) (Sp : Space E F) (gen : generator F G S).

Definition gfloat (p : nat) : gcomp S F := fun m => let '(x, s) := g_float gen (m p) in Ok (x, gset m p s).
Definition gintn (p : nat) (n : Z) : gcomp S Z := fun m => let '(x, s) := g_intn gen n (m p) in Ok (x, gset m p s).
Definition glaw (p : nat) : gcomp S G := fun m => let '(x, s) := g_law gen (m p) in Ok (x, gset m p s).

(** kmeans/init.go:110-116: WeightedChoice draws unless the weights add up to zero. *)
Definition gdraw (weights : list F) (p : nat) : gcomp S F :=
  if neqb N (weights_sum N weights) (nof N 0) then gret (nof N 0) else gfloat p.

(** kmeans/init.go:67-71 *)
Definition gpp_iter (cpus : Z) (clust elemts : list E) (p : nat) : gcomp S (E * option init_error) :=
  let+ ld := glift (par_map_label N Sp clust elemts cpus) in
  let+ r := gdraw (snd ld) p in
  glift (pp_iter N Sp cpus clust elemts r).

(** kmeans/init.go:58-60 *)
Fixpoint gpp_loop (cpus : Z) (n : nat) (found elemts : list E) (p : nat) : gcomp S (list E * option init_error) :=
  match n with
  | O => gret (found, None)
  | Datatypes.S n' =>
      let+ ce := gpp_iter cpus found elemts p in
      match snd ce with
      | None => gpp_loop cpus n' (found ++ [fst ce]) elemts p
      | Some e => gret (found ++ [fst ce], Some e)
      end
  end.

(** kmeans/init.go:49-64 *)
Definition gpp_initializer (cpus : Z) (p : nat) (k : Z) (elemts : list E) : gcomp S (list (option E) * option init_error) :=
  let+ centroids := glift (smake (@None E) k) in
  match check k elemts with
  | Some e => gret (centroids, Some e)
  | None =>
      let+ draw := gintn p (slen elemts) in
      let+ c0 := glift (sget elemts draw) in
      let+ r := gpp_loop cpus (Z.to_nat (k - 1)) [c0] elemts p in
      gret (map Some (fst r) ++ repeat None (Z.to_nat k - length (fst r)), snd r)
  end.

(** kmeans/init.go:36-47 *)
Definition ggiven_initializer (p : nat) (k : Z) (elemts : list E) : gcomp S (list (option E) * option init_error) :=
  glift (given_initializer Sp k elemts).

(** The initializer given to NewAlgo, with the generator of Conf(). *)
Variable initializer : nat -> Z -> list E -> gcomp S (list (option E) * option init_error).

(** ** k-means: kmeans/impl.go:19-42. A push is made while the algorithm is not alive. *)
Variables (k frame : Z) (par : option Z).
Definition gkmeans : gimplem E (buffer E) S := mkGimplem
  (fun pt b =>
     let+ b := glift (buffer_apply b) in
     let+ r := initializer (pt_conf pt) k (bdata b) in
     gret (b, fst r, snd r))
  (fun pt b c =>
     let+ r := glift (strategy_iterate N Sp par c (bdata b)) in
     let+ c := glift (somes r) in
     let+ b := glift (buffer_apply b) in
     gret (b, c))
  (fun b x => match buffer_push b x false with Some o => o | None => Panic end)
  (fun b => new_data_buffer (bdata b) frame).

(** ** MCMC *)
Variables (pow : F -> F -> F) (log exp : F -> F) (cpus : Z) (D : distrib E F G) (conf : mparams F) (g0 : G).

(** mcmc/store.go:25-77: what GetCenters draws, the Float64 of PPIter or the Intn of delCenter. *)
Definition gcenters (s : list (Z * list E)) (data : list E) (k : Z) (clust : list E) (p : nat) : gcomp S (F * Z) :=
  match store_get s k with
  | Some _ => gret (nof N 0, 0)
  | None =>
      if slen clust <? k then
        let+ ld := glift (par_map_label N Sp clust data cpus) in
        let+ r := gdraw (snd ld) p in gret (r, 0)
      else if k <? slen clust then let+ d := gintn p (slen clust) in gret (nof N 0, d)
      else gret (nof N 0, 0)
  end.

Fixpoint gsamples (n : nat) (p : nat) : gcomp S (list G) :=
  match n with
  | O => gret []
  | Datatypes.S n' => let+ g := glaw p in let+ r := gsamples n' p in gret (g :: r)
  end.

(** What an iteration draws, in the order of mcmc/impl.go:90-165. *)
Definition gmcmc_draws (pt : pointers) (m : mimpl E F) (centroids : list E) : gcomp S (draws F G) :=
  let data := bdata (mi_buffer m) in
  let current := pr_k (mi_current m) in
  let+ rk := gdraw (mp_proba_k conf) (pt_conf pt) in
  let+ k := glift (next_k N conf current data rk) in
  let+ (r, d) := gcenters (mi_store m) data k centroids (pt_impl pt) in
  let+ ce := glift (get_centers N Sp cpus (mi_store m) data k centroids r d) in
  let+ (r', d') := match snd ce with
                   | None => gret (nof N 0, 0)
                   | Some _ => gcenters (mi_store m) data current centroids (pt_impl pt)
                   end in
  let+ kc := glift (get_k_centers N Sp cpus conf m (mi_current m) centroids data (mkDraws rk r d r' d' (fun _ => g0) (nof N 0))) in
  let+ gs := gsamples (length (snd kc)) (pt_law pt) in
  let+ u := gfloat (pt_impl pt) in
  gret (mkDraws rk r d r' d' (fun i => nth i gs g0) u).

(** mcmc/impl.go:30-34, 43-61, 64-72, 78-80 *)
Definition gmcmc : gimplem E (mimpl E F) S := mkGimplem
  (fun pt m =>
     let+ b := glift (buffer_apply (mi_buffer m)) in
     let+ r := initializer (pt_conf pt) (mp_init_k conf) (bdata b) in
     glift (mcmc_init N Sp pow D conf (fun (_ : unit) _ _ => Ok r) m tt))
  (fun pt m c =>
     let+ dr := gmcmc_draws pt m c in
     let+ r := glift (mcmc_iterate N Sp pow log exp cpus D conf m c dr) in
     gret (fst r))
  (fun m x => match buffer_push (mi_buffer m) x false with Some o => let* b := o in Ok (set_buffer m b) | None => Panic end)
  (fun m => new_mcmc N (bdata (mi_buffer m)) frame).
End Draws.

(** ** Several algorithms *)
Section Algos.
Context {E I S : Type} (im : gimplem E I S).

(** An algorithm that is not running: its generators, its implementation, Centroids(), and whether it was
    initialized. *)
Record galgo : Type := mkGalgo { ga_pt : pointers; ga_impl : I; ga_centroids : list (option E); ga_ready : bool }.

(** Calls on the algorithm of a number; [GIterate] is one iteration of a run. [GCopy i p] is
    Copy(conf, space) of algorithm [i] where conf is its configuration with the generator [p]. *)
Inductive gop : Type := GInit (i : nat) | GIterate (i : nat) | GPush (i : nat) (x : E) | GCopy (i : nat) (p : nat).

Fixpoint gupdate (l : list galgo) (i : nat) (a : galgo) : list galgo :=
  match l, i with
  | [], _ => []
  | _ :: r, O => a :: r
  | b :: r, Datatypes.S j => b :: gupdate r j a
  end.

(** core/ctrl.go:66-98, 280-294 and 374-380. The copy is numbered after the others; its implementation is
    made with the configuration of the algorithm copied (mcmc/impl.go:31-32), hence with its generator.
    [None]: the call panics, or there is no such algorithm, or it cannot iterate. *)
Definition gstep (st : list galgo * gmem S) (o : gop) : option (list galgo * gmem S) :=
  let '(l, m) := st in
  match o with
  | GInit i =>
      match nth_error l i with
      | None => None
      | Some a => match gi_init im (ga_pt a) (ga_impl a) m with
                  | Panic => None
                  | Ok ((im', cs, err), m') =>
                      Some (gupdate l i (mkGalgo (ga_pt a) im' cs (match err with None => true | Some _ => false end)), m')
                  end
      end
  | GIterate i =>
      match nth_error l i with
      | None => None
      | Some a => if ga_ready a then
                    match somes (ga_centroids a) with
                    | Panic => None
                    | Ok c => match gi_iterate im (ga_pt a) (ga_impl a) c m with
                              | Panic => None
                              | Ok ((im', c'), m') => Some (gupdate l i (mkGalgo (ga_pt a) im' (map Some c') true), m')
                              end
                    end
                  else None
      end
  | GPush i x =>
      match nth_error l i with
      | None => None
      | Some a => match gi_push im (ga_impl a) x with
                  | Panic => None
                  | Ok im' => Some (gupdate l i (mkGalgo (ga_pt a) im' (ga_centroids a) (ga_ready a)), m)
                  end
      end
  | GCopy i p =>
      match nth_error l i with
      | None => None
      | Some a => match gi_copy im (ga_impl a) with
                  | Panic => None
                  | Ok im' => Some (l ++ [mkGalgo (mkPointers p (pt_conf (ga_pt a)) (pt_law (ga_pt a))) im' [] false], m)
                  end
      end
  end.

Fixpoint gsteps (st : list galgo * gmem S) (os : list gop) : option (list galgo * gmem S) :=
  match os with
  | [] => Some st
  | o :: r => match gstep st o with Some st' => gsteps st' r | None => None end
  end.
End Algos.
Arguments mkGalgo {E I}. Arguments ga_pt {E I}. Arguments ga_impl {E I}. Arguments ga_centroids {E I}. Arguments ga_ready {E I}.
