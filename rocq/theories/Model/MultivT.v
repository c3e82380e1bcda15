(** Model of mcmc/multivt.go. *)
From Coq Require Import List ZArith Bool.
From Verif Require Import Base.Go Base.Num Model.Mcmc.
Import ListNotations.
Local Open Scope Z_scope.

(** mcmc/multivt.go:24-30 and 17-21 without the generators: [mt_nu] is m.Nu and also m.chi2.K
    (multivt.go:46). *)
Record multivt (F : Type) : Type := mkMultivT {
  mt_dim : Z; mt_nu : F; mt_power : F; mt_gamma_factor : F
}.
Arguments mkMultivT {F}. Arguments mt_dim {F}. Arguments mt_nu {F}. Arguments mt_power {F}.
Arguments mt_gamma_factor {F}.

Section MultivT.
Context {F : Type} (N : Num F).
(** [math.Log], [math.Gamma], [math.Pi]. *)
Variables (log gamma : F -> F) (pi : F).

(** mcmc/multivt.go:53-57: setConf replaces a null Nu. *)
Definition conf_nu (nu : F) : F := if neqb N nu (nof N 0) then nof N 3 else nu.

(** mcmc/multivt.go:33-51. [make] panics for a negative Dim; the errors of gonum's constructors
    are not modelled. *)
Definition new_multivt (dim : Z) (nu : F) : outcome (multivt F) :=
  let* _ := smake (nof N 0) dim in
  let nu := conf_nu nu in
  let power := ndiv N (nadd N (nof N dim) nu) (nof N 2) in
  Ok (mkMultivT dim nu power (log (ndiv N (gamma power) (gamma (ndiv N nu (nof N 2)))))).

(** What Sample draws: m.chi2.Rand() and m.normal.Rand(nil), a vector of length Dim. *)
Record noise : Type := mkNoise { no_chi2 : F; no_normal : list F }.

(** mcmc/multivt.go:72-74: [fmu[i]] panics when mu is shorter than the drawn vector. *)
Fixpoint sample_loop (student fmu : list F) (chi_inverse scale : F) : outcome (list F) :=
  match student, fmu with
  | [], _ => Ok []
  | s :: student', m :: fmu' =>
      let* r := sample_loop student' fmu' chi_inverse scale in
      Ok (nadd N m (nmul N (nmul N s chi_inverse) scale) :: r)
  | _ :: _, [] => Panic
  end.

(** mcmc/multivt.go:65-77 *)
Definition mt_sample (m : multivt F) (z : noise) (mu : list F) (time : Z) : outcome (list F) :=
  let scale := ndiv N (nof N 1) (nsqrt N (nof N (time * 20))) in
  let chi_inverse := nsqrt N (ndiv N (mt_nu m) (no_chi2 z)) in
  sample_loop (no_normal z) mu chi_inverse scale.

(** mcmc/multivt.go:85-88: [fx[i]] panics when x is shorter than mu. *)
Fixpoint shift_loop (fmu fx : list F) (shift : F) : outcome F :=
  match fmu, fx with
  | [], _ => Ok shift
  | a :: fmu', b :: fx' =>
      let f := nsub N a b in shift_loop fmu' fx' (nadd N shift (nmul N f f))
  | _ :: _, [] => Panic
  end.

(** mcmc/multivt.go:80-93. The opposite -m.power is written 0 - power, which only differs for the
    sign of a null power. *)
Definition mt_pdf (m : multivt F) (mu x : list F) (time : Z) : outcome F :=
  let* shift := shift_loop mu x (nof N 0) in
  let scale := ndiv N (mt_nu m) (nsqrt N (nof N (time * 20))) in
  let k := nsub N (mt_gamma_factor m)
             (ndiv N (nmul N (log (nmul N pi scale)) (nof N (mt_dim m))) (nof N 2)) in
  Ok (nadd N k (nmul N (nsub N (nof N 0) (mt_power m))
                  (log (nadd N (nof N 1) (ndiv N shift scale))))).

(** As an mcmc Distrib; Pdf(x, mu, time) names its arguments in the other order. *)
Definition multivt_distrib (m : multivt F) : distrib (list F) F noise :=
  mkDistrib (mt_sample m) (mt_pdf m).

End MultivT.
