(** Copy of an MCMC algorithm (core/ctrl.go:374-380 with mcmc/impl.go:29-34). *)
From Coq Require Import List ZArith Bool.
From Verif Require Import Base.Go Base.Num Model.Clustering Model.Buffer Model.KmeansInit Model.Mcmc Model.Status Model.Finish Model.Conf
  Model.CtrlLang Model.CtrlCode Model.CtrlSeq Model.System Model.SystemMcmc Model.Copy.
Import ListNotations.
Local Open Scope Z_scope.

Section CopyMcmc.
Context {G : Type} (rgen0 : G) (cpus : Z) {E : Type}.

(** An MCMC algorithm: the configuration Conf() returns, the degree of the parallel strategy of the
    implementation (None: the sequential one), its state, and the fields of core.Algo. The initializer and
    the distribution, which the copy shares with the algorithm copied, are parameters below. *)
Record mcmc_algo : Type := mkMcmcAlgo {
  xa_conf : mcmc_conf G; xa_strategy : option Z; xa_impl : mimpl E b64; xa_ctrl : seq_st (list E)
}.

(** mcmc/algo.go:13-22, mcmc/par.go:9-15 *)
Definition mcmc_strategy (c : mcmc_conf G) : option Z := if mc_par c then Some (mc_num_cpu c) else None.

(** mcmc/algo.go:7-11, mcmc/seq.go:11-20 *)
Definition mcmc_create (c : mcmc_conf G) (data : list E) : outcome mcmc_algo :=
  let* cb := mcmc_new_algo rgen0 cpus c data in
  let '(c, b) := cb in
  let z := b64_of_Z 0 in
  Ok (mkMcmcAlgo c (mcmc_strategy c) (mkMimpl b [] 0 z z z 0 0 (mkProposal 0 [] z z)) seq0).

(** core/ctrl.go:374-380 with mcmc/impl.go:30-34: the implementation is made by NewAlgo with the
    configuration of the algorithm copied, the new algorithm by core.NewAlgo with [c]. *)
Definition mcmc_copy (a : mcmc_algo) (c : mcmc_conf G) : outcome mcmc_algo :=
  let* made := mcmc_create (xa_conf a) (bdata (mi_buffer (xa_impl a))) in
  let* c := core_new_algo (mcmc_ops rgen0 cpus) c in
  Ok (mkMcmcAlgo c (xa_strategy made) (xa_impl made) seq0).

(** mcmc/impl.go:44, 65: the settings an iteration uses are those of Conf(), but the strategy was chosen
    when the implementation was made. *)
Definition mcmc_params (a : mcmc_algo) : mparams b64 :=
  let c := xa_conf a in
  mkMparams (match xa_strategy a with Some _ => true | None => false end) (mc_init_k c) (mc_b c) (mc_amp c) (mc_norm c) (mc_max_k c) (mc_proba_k c)
    (match xa_strategy a with Some n => n | None => 0 end).

Definition mcmc_of {H I : Type} (Sp : Space E b64) pow log exp (D : distrib E b64 H)
  (initializer : I -> Z -> list E -> outcome (list (option E) * option init_error)) (a : mcmc_algo) : implem E (list E) (mimpl E b64) (I * draws b64 H) :=
  mcmc_implem B64Num Sp pow log exp cpus D (mcmc_params a) initializer (fun x => x).
End CopyMcmc.
Arguments mcmc_algo : clear implicits.
