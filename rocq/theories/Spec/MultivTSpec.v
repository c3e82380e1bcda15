(** The density of the multivariate t distribution. *)
From Coq Require Import Reals.
Local Open Scope R_scope.

(** Logarithm of the density of the [p]-dimensional t distribution with [nu] degrees of freedom and
    scale matrix [s2] times the identity, at squared distance [d2] of its center; [gammas] is the
    logarithm of Gamma((nu+p)/2) / Gamma(nu/2). *)
Definition t_logdensity (gammas p nu s2 d2 : R) : R :=
  gammas - p / 2 * ln (PI * nu * s2) - (nu + p) / 2 * ln (1 + d2 / (nu * s2)).
