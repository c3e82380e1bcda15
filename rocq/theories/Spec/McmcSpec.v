(** Specification vocabulary for the MCMC implementation. *)
From Coq Require Import List ZArith Bool Reals.
From Verif Require Import Base.Go Base.Num Model.Clustering Model.KmeansInit Model.Buffer Model.Mcmc.
Import ListNotations.
Local Open Scope Z_scope.

(** A successful initialization gives exactly the requested number of centroids, which is at least
    one and at most the number of elements (true of the initializers of kmeans/init.go). *)
Definition init_exact {E I : Type}
  (initializer : I -> Z -> list E -> outcome (list (option E) * option init_error)) : Prop :=
  forall i k data cs, initializer i k data = Ok (cs, None) ->
    exists c, cs = map Some c /\ Z.of_nat (length c) = k /\ 1 <= k <= Z.of_nat (length data).

(** The initializers of kmeans/init.go as MCMC initializers; the randomness is explicit. For the
    random one, a run that did not draw enough is no result. *)
Definition use_given {E F} (Sp : Space E F) (i : unit) (k : Z) (data : list E) :=
  given_initializer Sp k data.
Definition use_pp {E F} (N : Num F) (Sp : Space E F) (degree : Z) (i : Z * (nat -> F)) (k : Z) (data : list E) :=
  pp_initializer N Sp degree k data (fst i) (snd i).
Definition use_rand {E F} (Sp : Space E F) (i : list Z) (k : Z) (data : list E) :=
  match rand_initializer Sp k data i with Some r => r | None => Panic end.

(** Iterations that returned in a list of outputs, and those whose uniform draw is below rho. *)
Definition iterations_done {F} (os : list (@mout F)) : Z :=
  Z.of_nat (length (filter (fun o => match o with OutFigures _ _ => true | _ => false end) os)).
Definition accepted {F} (N : Num F) (os : list (@mout F)) : Z :=
  Z.of_nat (length (filter (fun o => match o with OutFigures u f => nltb N u (f_rho f) | _ => false end) os)).

(** Number of elements that the implementation works on. *)
Definition data_size {E F} (s : @msys E F) : Z := Z.of_nat (length (bdata (mi_buffer (ms_impl s)))).
Definition n_centroids {E F} (s : @msys E F) : Z := Z.of_nat (length (ms_centroids s)).

(** All the elements known to the implementation satisfy [P]. *)
Definition all_elements {E F} (P : E -> Prop) (m : mimpl E F) : Prop :=
  Forall P (bdata (mi_buffer m)) /\ Forall P (bpipe (mi_buffer m)) /\
  Forall P (pr_centers (mi_current m)) /\
  forall k c, store_get (mi_store m) k = Some c -> Forall P c.

(** [c] without its element at position [i]. *)
Definition without {A} (i : nat) (c : list A) : list A := firstn i c ++ skipn (S i) c.

(** Pushed elements in a list of events. *)
Definition pushes_in {E F G I} (es : list (@mevent E F G I)) : Z :=
  Z.of_nat (length (filter (fun e => match e with EvPush _ _ => true | _ => false end) es)).

(** Draws of Float64 and of the uniform law, apart from 0 for those of WeightedChoice (C25). *)
Definition in_unit {G} (dr : draws Rdefinitions.R G) : Prop :=
  (0 < d_k dr < 1)%R /\ (0 < d_add dr < 1)%R /\ (0 < d_add' dr < 1)%R /\ (0 <= d_u dr < 1)%R.
