(** Concrete runs of the MCMC implementation, for the examples beside C39-C43, C72 and C73. *)
From Coq Require Import List ZArith Bool Lia Reals Lra.
From Verif Require Import Base.Go Base.Num Model.Clustering Model.Par Model.Euclid Model.Buffer Model.Kmeans
  Model.KmeansInit Model.Mcmc
  Spec.ClusterSpec Spec.SpaceSpec Spec.RealSpec Spec.NearestSpec Spec.KmeansSpec Spec.McmcSpec
  Proofs.McmcProofs Proofs.McmcMain.
Import ListNotations.
Local Open Scope Z_scope.
Local Notation euclid := (euclid_space RNum).

(** A run in binary64: three elements, one center, an iteration that proposes two centers (accepted),
    one that proposes one (rejected), then back to two. [exp] and [log] are stand-ins. *)
Definition conf64 : mparams b64 :=
  mkMparams false 1 (b64_of_Z 1) (b64_of_Z 1) (b64_of_Z 2) 2 (map b64_of_Z [1; 0; 1]) 2.
Definition draw64 (k u : b64) : draws b64 unit :=
  mkDraws k (b64_div (b64_of_Z 1) (b64_of_Z 2)) 0 (b64_of_Z 1) 0 (fun _ => tt) u.
Definition iter64 (s : @msys (list b64) b64) (dr : draws b64 unit) : option (@msys (list b64) b64 * Z) :=
  match somes (ms_centroids s) with
  | Ok c =>
    match mcmc_iterate B64Num (euclid_space B64Num) (fun x _ => b64_mul x x) (fun x => x) (fun x => x) 2 (dirac B64Num) conf64 (ms_impl s) c dr with
    | Ok (m, c', f) => Some (mkMsys m (map Some c') true, f_acceptations f)
    | Panic => None
    end
  | Panic => None
  end.
Definition shown64 (r : option (@msys (list b64) b64 * Z)) :=
  match r with
  | Some (s, a) => Some (map (option_map (map show64)) (ms_centroids s), a, pr_k (mi_current (ms_impl s)), map fst (mi_store (ms_impl s)))
  | None => None
  end.
Definition start64 : option (@msys (list b64) b64 * Z) :=
  match new_msys B64Num [v64 [0]; v64 [2]; v64 [10]] 0 with
  | Ok s => match mcmc_init B64Num (euclid_space B64Num) (fun x _ => b64_mul x x) (dirac B64Num) conf64 (use_given (euclid_space B64Num)) (ms_impl s) tt with
            | Ok (m, cs, None) => Some (mkMsys m cs true, 0)
            | _ => None
            end
  | Panic => None
  end.
Definition next64 (r : option (@msys (list b64) b64 * Z)) (dr : draws b64 unit) :=
  match r with Some (s, _) => iter64 s dr | None => None end.
Definition quarter : b64 := b64_div (b64_of_Z 1) (b64_of_Z 4).

(** A run in exact arithmetic: three elements, pushed one after the construction, one center, one
    iteration. It meets the hypotheses of C41, C72 and C73. *)
Definition confR : mparams R := mkMparams false 1 1%R 1%R 2%R 2 [0; 1; 0]%R 2.
Definition drawR : draws R unit := mkDraws (1/2)%R (1/2)%R 0 (1/2)%R 0 (fun _ => tt) (1/2)%R.
Local Notation stepR := (mstep RNum euclid (fun x _ => x * x)%R ln exp 2 (dirac RNum) confR (use_given euclid)).

Lemma startR : exists s0 s1 s2, new_msys RNum [[0]; [2]]%R 0 = Ok s0 /\
  stepR s0 (EvPush [10]%R false) OutPush s1 /\ stepR s1 (EvInit tt) (OutInit None) s2 /\
  ms_ready s2 = true /\ ms_centroids s2 = map Some [[0]%R] /\ bdata (mi_buffer (ms_impl s2)) = [[0]; [2]; [10]]%R.
Proof.
  destruct (loss_ok (euclid_space RNum) (fun x _ => x * x)%R confR ltac:(discriminate) [[0]%R] [[0]; [2]; [10]]%R ltac:(discriminate)) as (l & Hl).
  do 3 eexists. split; [reflexivity|]. split; [apply ms_push; reflexivity|]. split.
  - apply ms_init. unfold mcmc_init. cbn [ms_impl set_buffer mi_buffer buffer_apply bpipe ofold store bstrategy bdata strategy_push obind app].
    change (use_given euclid tt (mp_init_k confR) [[0]; [2]; [10]]%R) with (Ok ([Some [0]%R], @None init_error)). cbn [obind somes].
    rewrite Hl. cbn [obind]. rewrite proba_dirac. cbn [obind]. reflexivity.
  - cbn. auto.
Qed.

