(** Specification vocabulary for the data used by initializations and iterations. *)
From Coq Require Import List ZArith Bool.
From Verif Require Import Model.Kmeans.
Import ListNotations.

(** The pushes of a list of calls: (element, was the algorithm alive). *)
Fixpoint pushes {E C} (cs : list (call E C)) : list (E * bool) :=
  match cs with
  | [] => []
  | CallPush x alive :: r => (x, alive) :: pushes r
  | _ :: r => pushes r
  end.

Definition while_alive {E} (ps : list (E * bool)) : list E := map fst (filter (fun p => snd p) ps).
Definition while_not_alive {E} (ps : list (E * bool)) : list E := map fst (filter (fun p => negb (snd p)) ps).

(** How a round of pushes ends. *)
Inductive round_end (C : Type) : Type := EndInit | EndIterate (c : C).
Arguments EndInit {C}. Arguments EndIterate {C} c.

(** Histories of calls: rounds of pushes, each ended by an initialization or an iteration. *)
Definition call_of {E C} (e : round_end C) : call E C :=
  match e with EndInit => CallInit | EndIterate c => CallIterate c end.
Definition push_calls {E C} (ps : list (E * bool)) : list (call E C) :=
  map (fun p => CallPush (fst p) (snd p)) ps.
Definition rounds_calls {E C} (rounds : list (list (E * bool) * round_end C)) : list (call E C) :=
  concat (map (fun r => push_calls (fst r) ++ [call_of (snd r)]) rounds).

(** What a completed round adds to the data: the elements pushed while not alive, then those pushed
    while alive, both in push order. *)
Definition round_data {E C} (r : list (E * bool) * round_end C) : list E :=
  while_not_alive (fst r) ++ while_alive (fst r).

(** Data that the end of round [r] must use after the rounds [before]: an iteration does not see the
    elements pushed while alive since the previous initialization or iteration; an initialization
    does. *)
Definition expected_data {E C} (initial : list E) (before : list (list (E * bool) * round_end C))
  (r : list (E * bool) * round_end C) : list E :=
  initial ++ concat (map round_data before) ++
  match snd r with
  | EndInit => round_data r
  | EndIterate _ => while_not_alive (fst r)
  end.

(** Sequential, or parallel with a positive degree. *)
Definition valid_par (par : option Z) : Prop :=
  match par with None => True | Some degree => (0 < degree)%Z end.
