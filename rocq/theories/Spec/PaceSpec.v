(** Vocabulary of the statements about the pace of a run. *)
From Coq Require Import List ZArith Bool.
From Verif Require Import Model.Pace.
Import ListNotations.
Local Open Scope Z_scope.

(** The times at which iterations begin. *)
Definition begins (ts : list pturn) : list Z :=
  flat_map (fun t => match t with PReceived _ => [] | PIterated s _ _ | PFailed s => [s] end) ts.
(** The number of them from time [a] to time [b]. *)
Definition begun (a b : Z) (ts : list pturn) : Z :=
  Z.of_nat (length (filter (fun t => (a <=? t) && (t <=? b)) (begins ts))).
(** Iterations begin as soon as the loop allows: no status is received and no time passes between turns. *)
Fixpoint prompt (clock : Z) (ts : list pturn) : Prop :=
  match ts with
  | [] => True
  | PIterated s _ e :: ts' => s = clock /\ prompt e ts'
  | PFailed s :: ts' => s = clock /\ prompt s ts'
  | PReceived _ :: _ => False
  end.
