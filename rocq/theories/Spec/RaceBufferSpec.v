(** Goroutines that share a buffer: who is storing, and what was pushed. *)
From Coq Require Import List ZArith Bool Arith.
From Verif Require Import Base.Go Model.Buffer Model.Heap Model.HeapBuffer Model.RaceBuffer.
Import ListNotations.

Section Spec.
Context {E : Type}.

(** The goroutine is between the load of b.data and the store to b.data. *)
Definition storing (t : thread E) : Prop :=
  match t_pc t with PReady | PSend _ | PRecv | PDead => False | _ => True end.
(** At most one goroutine is. *)
Definition exclusive (w : world E) : Prop :=
  forall i j t u, nth_error (w_threads w) i = Some t -> nth_error (w_threads w) j = Some u -> storing t -> storing u -> i = j.
Definition resting (w : world E) : Prop := Forall (fun t => ~ storing t) (w_threads w).
(** All states of an execution, the last one included. *)
Fixpoint always (grow : nat -> nat) (Q : world E -> Prop) (w : world E) (l : list act) : Prop :=
  Q w /\ match l with
         | [] => True
         | a :: l => match wstep grow w a with None => True | Some w => always grow Q w l end
         end.

(** Elements pushed by jobs that are done. *)
Definition pushes (l : list (job E)) : list (option E) := flat_map (fun j => match j with JPush x => [x] | JApply => [] end) l.
(** Elements pushed by the i-th goroutine in a list of elements with the goroutines that pushed them. *)
Definition by_thread (i : nat) (log : list (nat * option E)) : list (option E) := map snd (filter (fun p => Nat.eqb (fst p) i) log).
(** Goroutine by goroutine, the jobs that are done pushed exactly the elements of [log], in this order. *)
Definition accounts (jobs : list (list (job E))) (w : world E) (log : list (nat * option E)) : Prop :=
  length (w_threads w) = length jobs /\
  (forall p, In p log -> fst p < length jobs) /\
  forall i js t, nth_error jobs i = Some js -> nth_error (w_threads w) i = Some t ->
    exists done, js = done ++ t_jobs t /\ by_thread i log = pushes done.
(** What the buffer stores, and what it has staged. *)
Definition stored_in (w : world E) : list (option E) := read (w_mem w) (hb_data (w_buf w)).
Definition staged_in (w : world E) : list (option E) := hb_pipe (w_buf w).
Definition all_done (w : world E) : Prop := Forall (fun t => t_pc t = PReady /\ t_jobs t = []) (w_threads w).
End Spec.
