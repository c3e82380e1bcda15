(** Model of kmeans/seq.go, kmeans/par.go and kmeans/impl.go. *)
From Coq Require Import List ZArith Bool.
From Verif Require Import Base.Go Base.Num Model.Clustering Model.Par Model.Buffer.
Import ListNotations.
Local Open Scope Z_scope.

Section Strategy.
Context {E F : Type} (N : Num F) (Sp : Space E F).

(** kmeans/seq.go:26-33; nil is None. *)
Definition seq_build_result (centroids : list E) (result : list (option E)) : outcome (list (option E)) :=
  ofold (fun result i =>
           let* r := sget result i in
           match r with
           | None => let* c := sget centroids i in sset result i (Some c)
           | Some _ => Ok result
           end)
        (map Z.of_nat (seq 0 (length result))) result.

(** kmeans/seq.go:21-24. The result may hold nil entries as far as the code is concerned: that it
    does not is part of C18. *)
Definition seq_iterate (centroids data : list E) : outcome (list (option E)) :=
  let* r := reduce_dba N Sp centroids data in
  seq_build_result centroids (fst r).

(** kmeans/par.go:22-25 *)
Definition par_iterate (degree : Z) (centroids data : list E) : outcome (list (option E)) :=
  let* r := par_reduce_dba N Sp centroids data degree in Ok (fst r).

(** kmeans/algo.go:17-25, kmeans/par.go:8-14: the strategy chosen by conf.Par; [Some degree] is
    ParStrategy{Degree: degree}. *)
Definition strategy_iterate (par : option Z) (centroids data : list E) : outcome (list (option E)) :=
  match par with
  | None => seq_iterate centroids data
  | Some degree => par_iterate degree centroids data
  end.

(** Successive iterations on fixed data: the centroids returned by one iteration are those the
    model gives to the next one (core/ctrl.go runs impl.Iterate and stores the centroids). *)
Inductive iterations (par : option Z) (data : list E) : nat -> list E -> list E -> Prop :=
| it_zero : forall c, iterations par data 0 c c
| it_succ : forall n c c1 c2,
    strategy_iterate par c data = Ok (map Some c1) -> iterations par data n c1 c2 ->
    iterations par data (S n) c c2.

End Strategy.

Section Impl.
Context {E C : Type}.
(** The initializer and the strategy are parameters: the data they are given is what matters. *)
Variable initializer : list E -> C.
Variable iterate : C -> list E -> C.

(** The data an implementation call hands to the initializer or to the strategy, with its result. *)
Record used : Type := mkUsed { used_data : list E; used_result : C }.

(** kmeans/impl.go:20-24 (and mcmc/impl.go:43-47): Apply, then the initializer on Data(). *)
Definition impl_init (b : buffer E) : outcome (buffer E * used) :=
  let* b := buffer_apply b in
  Ok (b, mkUsed (bdata b) (initializer (bdata b))).

(** kmeans/impl.go:27-31 (and mcmc/impl.go:64-72): the strategy runs on Data(), then Apply
    (the operands of return are evaluated from left to right). *)
Definition impl_iterate (centroids : C) (b : buffer E) : outcome (buffer E * used) :=
  let d := bdata b in
  let r := iterate centroids d in
  let* b := buffer_apply b in Ok (b, mkUsed d r).

(** kmeans/impl.go:34-36 (and mcmc/impl.go:79-81): [alive] is model.Status().Alive(). *)
Definition impl_push (b : buffer E) (x : E) (alive : bool) : option (outcome (buffer E)) :=
  buffer_push b x alive.

(** Calls made by the controller on the implementation. *)
Inductive call : Type :=
| CallPush (x : E) (alive : bool)
| CallInit
| CallIterate (centroids : C).

(** Execution of calls; the output lists what Init and Iterate used, in order. *)
Inductive calls : buffer E -> list call -> list used -> buffer E -> Prop :=
| c_nil : forall b, calls b [] [] b
| c_push : forall b x alive b1 cs us b2,
    impl_push b x alive = Some (Ok b1) -> calls b1 cs us b2 ->
    calls b (CallPush x alive :: cs) us b2
| c_init : forall b b1 u cs us b2,
    impl_init b = Ok (b1, u) -> calls b1 cs us b2 -> calls b (CallInit :: cs) (u :: us) b2
| c_iter : forall b c b1 u cs us b2,
    impl_iterate c b = Ok (b1, u) -> calls b1 cs us b2 ->
    calls b (CallIterate c :: cs) (u :: us) b2.

End Impl.
Arguments call : clear implicits.
Arguments used : clear implicits.
