(** mcmc/impl.go as an implementation under the controller of Model/System.v. *)
From Coq Require Import String List ZArith Bool.
From Verif Require Import Base.Go Base.Num Model.Clustering Model.Buffer Model.KmeansInit Model.Mcmc
  Model.Status Model.Finish Model.CtrlLang Model.CtrlCode Model.CtrlSeq Model.System.
Import ListNotations.
Local Open Scope list_scope.

(** An implementation whose draws are given by other values (for instance by a smaller set of draws). *)
Definition with_draws {E C I D D'} (f : D' -> D) (im : implem E C I D) : implem E C I D' :=
  mkImplem (fun d => im_init im (f d)) (fun d => im_iterate im (f d)) (im_push im).

Section McmcImpl.
  Context {E F G I : Type} (N : Num F) (Sp : Space E F).
  Variables (pow : F -> F -> F) (log exp : F -> F) (cpus : Z).
  Variable D : distrib E F G.
  Variable conf : mparams F.
  Variable initializer : I -> Z -> list E -> outcome (list (option E) * option init_error).
  (** The float64 of a number. *)
  Variable to64 : F -> b64.

  (** mcmc/impl.go:176-184, mcmc/figures.go:3-14 *)
  Definition mcmc_figures (f : @mfigures F) : list (string * b64) :=
    [("acceptations"%string, to64 (nof N (f_acceptations f))); ("lambda"%string, to64 (f_lambda f));
     ("rho"%string, to64 (f_rho f)); ("rGibbs"%string, to64 (f_rgibbs f)); ("time"%string, to64 (nof N (f_time f)))].

  (** mcmc/impl.go:43-79. A draw is one for Init and one for Iterate. As for k-means, the iterations are
      given an empty list for a nil Clust, and with an error of Init a Clust holding nil is taken for nil.
      The panics of Iterate happen before any assignment to the implementation. *)
  Definition mcmc_implem : implem E (list E) (mimpl E F) (I * draws F G) :=
    mkImplem
      (fun d m =>
         match mcmc_init N Sp pow D conf initializer m (fst d) with
         | Panic => None
         | Ok (m', cs, err) => Some (m', (all_some cs, option_map error_code err))
         end)
      (fun d m c =>
         match mcmc_iterate N Sp pow log exp cpus D conf m (match c with Some c => c | None => [] end) (snd d) with
         | Panic => (m, IterPanic 0)
         | Ok (m', c', f) => (m', IterRes (Some c') (Some (mcmc_figures f)) None)
         end)
      (fun m x alive =>
         match buffer_push (mi_buffer m) x alive with
         | None => None
         | Some Panic => None
         | Some (Ok b) => Some (set_buffer m b, None)
         end).
End McmcImpl.
