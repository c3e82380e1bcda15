(** C120: can MCMC in float64 accept a proposal that is no worse? *)
From Coq Require Import List ZArith Lia Bool Reals Lra.
From Flocq Require Import Core IEEE754.BinarySingleNaN.
From Verif Require Import Base.Go Base.Num Model.Clustering Model.Buffer Model.Euclid Model.KmeansInit Model.Mcmc Model.MultivT
  Spec.McmcSpec Spec.NearestSpec Spec.GoMathSpec Spec.FloatSpec
  Proofs.EuclidFloat Proofs.ConfProofs Proofs.McmcStuck Proofs.StuckCases.
Import ListNotations.
Local Open Scope Z_scope.

(** From dimension 341 on, the density of the default MultivT is infinite: nothing is ever accepted. *)
Theorem C120_dimension_refuted : forall exp log gamma, go_math exp log gamma -> forall I Sp pow pi cpus conf
  (initializer : I -> Z -> list (list b64) -> outcome (list (option (list b64)) * option init_error)) dim mt,
  341 <= dim < 2 ^ 53 - 3 -> new_multivt B64Num log gamma dim (b64_of_Z 0) = Ok mt ->
  init_exact initializer -> mp_init_k conf <= mp_max_k conf ->
  let D := multivt_distrib B64Num log pi mt in
  forall data frame_size s0 es os s, new_msys B64Num data frame_size = Ok s0 ->
  msteps B64Num Sp pow log exp cpus D conf initializer s0 es os s ->
  accepted B64Num os = 0 /\ mi_acc (ms_impl s) = 0 /\
  forall dr o s', mstep B64Num Sp pow log exp cpus D conf initializer s (EvIterate dr) o s' -> ms_centroids s' = ms_centroids s.
Proof. exact dimension_main. Qed.
Print Assumptions C120_dimension_refuted.

(** A negative B, which Conf.Verify accepts, has the same effect in any space and for any distribution. *)
Theorem C120_negative_refuted : forall exp log gamma, go_math exp log gamma -> forall E G I (Sp : Space E b64) pow cpus (D : distrib E b64 G) conf
  (initializer : I -> Z -> list E -> outcome (list (option E) * option init_error)),
  b64_ltb (mp_b conf) (b64_of_Z 0) = true -> init_exact initializer -> mp_init_k conf <= mp_max_k conf ->
  forall data frame_size s0 es os s, new_msys B64Num data frame_size = Ok s0 ->
  msteps B64Num Sp pow log exp cpus D conf initializer s0 es os s ->
  accepted B64Num os = 0 /\ mi_acc (ms_impl s) = 0 /\
  forall dr o s', mstep B64Num Sp pow log exp cpus D conf initializer s (EvIterate dr) o s' -> ms_centroids s' = ms_centroids s.
Proof. exact negative_main. Qed.
Print Assumptions C120_negative_refuted.

(** With a positive B and a finite density, a proposal that is no worse is accepted for every draw. *)
Theorem C120_accept_partial : forall exp log gamma, go_math exp log gamma -> forall E conf dim (cur prop : proposal E b64) time u,
  is_finite (mp_b conf) = true -> (0 < B2R (mp_b conf) <= bpow radix2 1000)%R ->
  is_finite (mp_amp conf) = true -> nonneg64 (mp_amp conf) -> (B2R (mp_amp conf) <= bpow radix2 900)%R ->
  0 <= dim < 2 ^ 53 - 3 -> 1 <= time < 2 ^ 53 ->
  pr_k prop = pr_k cur -> pr_pdf prop = pr_pdf cur -> is_finite (pr_pdf cur) = true ->
  is_finite (pr_loss cur) = true -> is_finite (pr_loss prop) = true -> nonneg64 (pr_loss cur) -> nonneg64 (pr_loss prop) ->
  (B2R (pr_loss prop) <= B2R (pr_loss cur))%R -> b64_ltb u (b64_of_Z 1) = true ->
  accept B64Num log exp conf dim cur prop time u = true.
Proof. exact accept_main. Qed.
Print Assumptions C120_accept_partial.

(** The density at the centers themselves is finite whenever the quotient of the Gamma values is, and
    it does not depend on the centers. *)
Theorem C120_density_partial : forall exp log gamma, go_math exp log gamma -> forall pi dim mt time,
  is_finite pi = true -> (3 <= B2R pi <= 4)%R -> 0 <= dim <= 2 ^ 30 -> 1 <= time <= 2 ^ 48 ->
  new_multivt B64Num log gamma dim (b64_of_Z 0) = Ok mt ->
  is_finite (b64_div (gamma (mt_power mt)) (gamma (b64_div (b64_of_Z 3) (b64_of_Z 2)))) = true ->
  (0 < B2R (b64_div (gamma (mt_power mt)) (gamma (b64_div (b64_of_Z 3) (b64_of_Z 2)))))%R ->
  forall k, (k <= 900)%nat -> exists p, is_finite p = true /\ forall c : list (list b64), length c = k -> Forall finite_vec c ->
    proba B64Num (multivt_distrib B64Num log pi mt) c c time = Ok p.
Proof. exact density_main. Qed.
Print Assumptions C120_density_partial.

Example C120_math : go_math toy_exp toy_log toy_gamma.
Proof. exact toy_go_math. Qed.

(** The same run: in dimension 340 the mean is accepted; in dimension 341, and for B = -1, it is not. *)
Example C120_run :
  run_dim 340 1 = Some ([(show64 (b64_div (b64_of_Z 4) (b64_of_Z 3)), 340%nat)], 1) /\
  run_dim 341 1 = Some ([(show64 (b64_of_Z 0), 341%nat)], 0) /\
  run_dim 3 (-1) = Some ([(show64 (b64_of_Z 0), 3%nat)], 0).
Proof. repeat split; vm_compute; reflexivity. Qed.

Example C120_case : accept B64Num toy_log toy_exp (conf_dim 1) 2 (mkProposal 1 [v64 [0; 0]] (b64_of_Z 5) (b64_of_Z 7))
  (mkProposal 1 [v64 [1; 0]] (b64_of_Z 4) (b64_of_Z 7)) 3 (b64_div (b64_of_Z 1) (b64_of_Z 2)) = true.
Proof.
  destruct (b64_of_Z_exact 0 ltac:(lia)) as [V0 F0]. destruct (b64_of_Z_exact 1 ltac:(lia)) as [V1 F1].
  destruct (b64_of_Z_exact 4 ltac:(lia)) as [V4 F4]. destruct (b64_of_Z_exact 5 ltac:(lia)) as [V5 F5].
  assert (H1 : (1 <= bpow radix2 1000)%R) by (change 1%R with (bpow radix2 0); apply bpow_le; lia).
  apply (C120_accept_partial _ _ _ toy_go_math); cbn [conf_dim mp_b mp_amp pr_k pr_pdf pr_loss];
    try match goal with |- nonneg64 _ => split; reflexivity | |- _ = _ :> bool => reflexivity | |- _ = _ :> Z => reflexivity
        | |- _ = _ :> b64 => reflexivity | |- (_ <= _ < _)%Z => lia end.
  - rewrite V1. lra.
  - rewrite V0. apply bpow_ge_0.
  - rewrite V4, V5. lra.
Qed.

Example C120_density_case : exists mt p, new_multivt B64Num toy_log toy_gamma 3 (b64_of_Z 0) = Ok mt /\ is_finite p = true /\
  proba B64Num (multivt_distrib B64Num toy_log (b64_of_Z 3) mt) [v64 [1; 2; 3]; v64 [4; 5; 6]] [v64 [1; 2; 3]; v64 [4; 5; 6]] 10 = Ok p.
Proof.
  destruct (new_multivt B64Num toy_log toy_gamma 3 (b64_of_Z 0)) as [mt|] eqn:E; [|discriminate]. exists mt.
  assert (Hp : toy_gamma (mt_power mt) = b64_of_Z 1).
  { unfold new_multivt in E. apply (f_equal (fun o => match o with Ok m => toy_gamma (mt_power m) | Panic => b64_inf end)) in E. rewrite <- E.
    change (toy_gamma (b64_div (b64_add (b64_of_Z 3) (b64_of_Z 3)) (b64_of_Z 2)) = b64_of_Z 1). unfold toy_gamma.
    match goal with |- (if ?c then _ else _) = _ => replace c with false by (vm_compute; reflexivity) end. reflexivity. }
  destruct (C120_density_partial _ _ _ toy_go_math (b64_of_Z 3) 3 mt 10 eq_refl) with (k := 2%nat) as (p & Fp & H); try lia; try exact E.
  - destruct (b64_of_Z_exact 3 ltac:(lia)) as [V _]. rewrite V. lra.
  - rewrite Hp. reflexivity.
  - rewrite Hp. destruct (b64_of_Z_exact 1 ltac:(lia)) as [V _].
    replace (b64_div (b64_of_Z 1) (toy_gamma (b64_div (b64_of_Z 3) (b64_of_Z 2)))) with (b64_of_Z 1) by (apply B2SF_inj; vm_compute; reflexivity). rewrite V. lra.
  - exists p. split; [reflexivity|]. split; [exact Fp|]. apply H; [reflexivity|]. repeat constructor.
Qed.
