(** C100: the pace of the iterations. *)
From Coq Require Import List ZArith Bool Reals Lra Lia.
From Flocq Require Import Core BinarySingleNaN.
From Verif Require Import Base.Num Model.Finish Model.Pace Spec.PaceSpec Proofs.PaceProofs.
Import ListNotations.
Local Open Scope Z_scope.

(** One iteration per second: after a pause of five seconds two iterations begin within a millisecond. *)
Theorem C100_rate_refuted : period (b64_of_Z 1) = 1000000000 /\
  turns 1000000000 0 0 resumed /\ begun 6000000000 6001000000 resumed = 2.
Proof. exact resumed_ex. Qed.
Print Assumptions C100_rate_refuted.

(** In one run, pauses included: during [b - a] nanoseconds at most two iterations more than the periods that fit. *)
Theorem C100_rate_partial : forall p start clock ts a b, 0 < p -> start <= clock -> a <= b -> turns p start clock ts ->
  (begun a b ts - 2) * p <= b - a.
Proof. exact rate_main. Qed.
Print Assumptions C100_rate_partial.

(** One more at most when no status is received and no time is lost between the turns. *)
Theorem C100_prompt_partial : forall p start ts a b, 0 < p -> a <= b -> turns p start start ts -> prompt start ts ->
  (begun a b ts - 1) * p <= b - a.
Proof. exact prompt_main. Qed.
Print Assumptions C100_prompt_partial.

Example C100_case : turns 10 0 0 [PIterated 0 3 10; PIterated 10 25 25; PFailed 25] /\ prompt 0 [PIterated 0 3 10; PIterated 10 25 25; PFailed 25] /\
  begun 0 25 [PIterated 0 3 10; PIterated 10 25 25; PFailed 25] = 3.
Proof. repeat split; try (repeat (constructor; cbn; try lia)). Qed.

(** The period of IterFreq, as a float64, is the inverse of the frequency up to a rounding and two nanoseconds. *)
Theorem C100_period_partial : forall f : b64, is_finite f = true -> (0 < B2R f)%R -> (1000000000 / B2R f <= bpow radix2 63)%R ->
  ((1000000000 / B2R f) * (1 - bpow radix2 (-53)) - 2 < IZR (period f) <= (1000000000 / B2R f) * (1 + bpow radix2 (-53)) + 1)%R.
Proof. exact period_main. Qed.
Print Assumptions C100_period_partial.

Example C100_period_case : period (b64_of_Z 3) = 333333333 /\ period (b64_of_Z 0) = 0 /\ period (b64_of_Z 2000000000) = 0 /\
  is_finite (b64_of_Z 3) = true /\ (0 < B2R (b64_of_Z 3))%R /\ (1000000000 / B2R (b64_of_Z 3) <= bpow radix2 63)%R.
Proof. exact period_three. Qed.
