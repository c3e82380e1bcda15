(** The pace of the iterations of a run: core/ctrl.go:249-253 and :269-303 with a clock. *)
From Coq Require Import List ZArith Bool.
From Verif Require Import Base.Num Model.Finish.
Import ListNotations.
Local Open Scope Z_scope.

(** core/ctrl.go:249-252: time.Duration(float64(time.Second) / IterFreq), in nanoseconds; 0 without
    IterFreq. Quotients out of the range of int64 are implementation-defined in Go. *)
Definition period (freq : b64) : Z :=
  if b64_ltb (b64_of_Z 0) freq then int_of_b64 (b64_div (b64_of_Z 1000000000) freq) else 0.

(** core/ctrl.go:298-299: the time until which the run sleeps; Sleep returns at once from a duration
    that is not positive. [now] is the clock at line 298. *)
Definition wake (period last now : Z) : Z := Z.max now (now + (period - (now - last))).

(** A turn of the loop: a status is received, and maybe a second one (:271-276), until the time given;
    or Iterate is called at time [start] and returns, without error, before [now] is read at line 298;
    the run sleeps until [stop], read at line 300; or Iterate fails: the loop ends. *)
Inductive pturn : Type := PReceived (until : Z) | PIterated (start now stop : Z) | PFailed (start : Z).

(** The turns of a run, from the time [clock] on: the clock does not go back and Sleep lasts at least as
    long as it should. Without period the clock is not read. *)
Inductive turns (p : Z) : Z -> Z -> list pturn -> Prop :=
| turns_nil : forall last clock, turns p last clock []
| turns_received : forall last clock t ts, clock <= t -> turns p last t ts -> turns p last clock (PReceived t :: ts)
| turns_iterated : forall last clock start now stop ts, clock <= start -> start <= now ->
    (if 0 <? p then wake p last now <= stop else now <= stop) ->
    turns p (if 0 <? p then stop else last) stop ts -> turns p last clock (PIterated start now stop :: ts)
| turns_failed : forall last clock start, clock <= start -> turns p last clock [PFailed start].
