(** What the documentation of Go's package math, and the range of float64, say of Exp, Log and
    Gamma at the values that decide whether MCMC can accept anything. *)
From Coq Require Import ZArith Reals.
From Flocq Require Import Core IEEE754.BinarySingleNaN.
From Verif Require Import Base.Num.
Local Open Scope R_scope.

Record go_math (exp log gamma : b64 -> b64) : Prop := mkGoMath {
  exp_nan : forall x, is_nan x = true -> is_nan (exp x) = true;
  exp_up : forall x, b64_leb (b64_of_Z 0) x = true -> b64_leb (b64_of_Z 1) (exp x) = true;
  log_inf : log b64_inf = b64_inf;
  log_neg : forall x, b64_ltb x (b64_of_Z 0) = true -> is_nan (log x) = true;
  log_one : log (b64_of_Z 1) = b64_of_Z 0;
  (* 2^-1074 and 2^1024 have logarithms below 1024 in absolute value *)
  log_finite : forall x, is_finite x = true -> 0 < B2R x -> is_finite (log x) = true /\ Rabs (B2R (log x)) <= 1024;
  (* Gamma(172) = 171! > 2^1024 *)
  gamma_over : forall x, b64_leb (b64_of_Z 172) x = true -> gamma x = b64_inf;
  gamma_range : forall x, is_finite x = true -> 1 <= B2R x <= 171 -> is_finite (gamma x) = true /\ 0 < B2R (gamma x)
}.
