(** Vocabulary of the statements about the controller with an implementation. *)
From Coq Require Import String List ZArith Bool.
From Verif Require Import Base.Num Model.Clustering Model.Status Model.CtrlLang Model.CtrlSeq Model.Streaming Model.System.
Import ListNotations.
Local Open Scope Z_scope.

(** Successful pushes of a whole history (not only since the last reset). *)
Definition total_pushed {C} (log : list (event C)) : Z :=
  Z.of_nat (length (filter (fun e => match e with EvPushed => true | _ => false end) log)).
(** Iterations with a result, of a whole history. *)
Definition total_saved {C} (log : list (event C)) : Z :=
  Z.of_nat (length (filter (fun e => match e with EvSaved _ _ => true | _ => false end) log)).

(** [P] is kept by Copy, and by Combine for weights up to [M] in total. *)
Definition kept {E F} (Sp : Space E F) (M : Z) (P : E -> Prop) : Prop :=
  (forall x, P x -> P (scopy Sp x)) /\
  (forall a n b m, P a -> P b -> 0 < n -> 0 < m -> n + m <= M -> P (scombine Sp a n b m)).

(** The elements pushed by a list of actions satisfy [P]. *)
Definition pushes_only {E D} (P : E -> Prop) (xs : list (sys_action E D)) : Prop :=
  forall x time now, In (YCall (YPush x time) now) xs -> P x.

(** An initializer that gives [k] centroids satisfying [P], or an error. *)
Definition initializes {E D} (initializer : D -> list E -> option (option (list E) * option nat)) (k : nat) (P : E -> Prop) : Prop :=
  forall d data c e, initializer d data = Some (c, e) -> Forall P data ->
    (forall c', c = Some c' -> Forall P c') /\
    (e = None -> exists c', c = Some c' /\ length c' = k).

(** Turns of the loop of the run goroutine in a schedule. *)
Definition turns {D} (l : list (sys_progress D)) : nat :=
  length (filter (fun p => match p with STurn _ _ _ => true | _ => false end) l).

(** A client pushing elements one after the other: each with the time of the push and of its end. *)
Definition push_all {E D} (l : list (E * Z * Z)) : list (sys_action E D) :=
  map (fun p => YCall (YPush (fst (fst p)) (snd (fst p))) (snd p)) l.
Definition elements_of {E} (l : list (E * Z * Z)) : list E := map (fun p => fst (fst p)) l.

(** [c] is the end of [l]. *)
Definition end_of {E} (c l : list E) : Prop := exists pre, l = pre ++ c.

(** Non-empty series of at most [n] points satisfying [Q]. *)
Definition series {A} (Q : A -> Prop) (n : Z) (s : list A) : Prop := s <> [] /\ Z.of_nat (length s) <= n /\ Forall Q s.

(** The figures that the controller does not write. *)
Definition own_key (key : string) : Prop := ~ In key ["iterations"; "pushedData"; "lastDataTime"; "duration"]%string.
