(** MCMC with the Dirac distribution and a constant number of centers is k-means. *)
From Coq Require Import List ZArith Lia Bool Reals Lra.
From Verif Require Import Base.Go Base.Num Model.Clustering Model.Par Model.Euclid Model.Buffer Model.Kmeans
  Model.KmeansInit Model.Mcmc Spec.ClusterSpec Spec.SpaceSpec Spec.RealSpec Spec.KmeansSpec Spec.McmcSpec
  Proofs.GoLemmas Proofs.NumLaws Proofs.ReduceProofs Proofs.ParReduceProofs Proofs.ReduceMain Proofs.RealLemmas Proofs.EuclidProofs
  Proofs.BufferProofs Proofs.KmeansProofs Proofs.InitProofs Proofs.McmcProofs Proofs.McmcMain.
Import ListNotations.
Local Open Scope Z_scope.
Local Notation euclid := (euclid_space RNum).

Section Frozen.
Variables (pow : R -> R -> R) (cpus : Z) (conf : mparams R) (d : nat) (data : list (list R)).
Hypothesis Hpow : forall x, (0 <= x)%R -> pow x 2%R = (x * x)%R.
Hypothesis Hcpus : 0 < cpus.
Hypothesis Hdata : all_dim d data.
Hypothesis Hamp : (0 <= mp_amp conf)%R.
Hypothesis Hnorm : mp_norm conf = 2%R.
Hypothesis Hpk : mp_proba_k conf = [0; 1; 0]%R.
Hypothesis Hpar : mp_par conf = true -> 0 < mp_num_cpu conf.

(** The state between two iterations. *)
Record frozen (s : @msys (list R) R) (c : list (list R)) : Prop := mkFrozen {
  fz_ready : ms_ready s = true;
  fz_cent : ms_centroids s = map Some c;
  fz_ne : c <> [];
  fz_dim : all_dim d c;
  fz_data : bdata (mi_buffer (ms_impl s)) = data;
  fz_pipe : bpipe (mi_buffer (ms_impl s)) = [];
  fz_store : forall c', store_get (mi_store (ms_impl s)) (slen c) = Some c' -> c' = c;
  fz_k : pr_k (mi_current (ms_impl s)) = slen c;
  fz_pdf : pr_pdf (mi_current (ms_impl s)) = INR (length c);
  fz_loss : total_loss RNum euclid pow c data 2%R = Ok (pr_loss (mi_current (ms_impl s)));
  fz_max : slen c <= mp_max_k conf;
  fz_n : slen c <= slen data
}.

Lemma frozen_loss c : c <> [] -> strategy_loss RNum euclid pow conf c data = total_loss RNum euclid pow c data 2%R.
Proof.
  intros Hc. unfold strategy_loss. rewrite Hnorm. destruct (mp_par conf) eqn:Hp; [|reflexivity].
  apply (par_loss_exact_main _ euclid pow c data 2%R (mp_num_cpu conf) Hc (Hpar eq_refl)).
Qed.

Lemma frozen_k k r : 1 <= k -> k <= mp_max_k conf -> k <= slen data -> (0 < r < 1)%R -> next_k RNum conf k data r = Ok k.
Proof.
  intros H1 H2 H3 Hr. unfold next_k. rewrite Hpk.
  assert (Hw : Forall (fun w => (0 <= w)%R) [0; 1; 0]%R) by (repeat constructor; lra).
  destruct (choice_main [0; 1; 0]%R r Hw Hr) as (_ & C2 & _ & _ & C5).
  assert (Hs : rsum [0; 1; 0]%R <> 0%R) by (unfold rsum; cbn; lra).
  destruct (C2 Hs) as (n & Hn & Hc). rewrite Hc. cbn [length] in Hn.
  assert (n = 1%nat). { destruct n as [|[|[|n]]]; [| reflexivity | | lia]; exfalso.
    - specialize (C5 0%nat 0%R eq_refl Hc). lra.
    - specialize (C5 2%nat 0%R eq_refl Hc). lra. }
  subst n. cbn [obind fst]. change (sget [-1; 0; 1] (Z.of_nat 1)) with (Ok 0). cbn [obind]. rewrite Z.add_0_r.
  destruct (Z.ltb_spec k 1); [lia|]. destruct (Z.ltb_spec (mp_max_k conf) k); [lia|]. destruct (Z.ltb_spec (slen data) k); [lia|]. reflexivity.
Qed.

Lemma alter_dirac {E} (c : list E) time g : forall i, alter_loop (@dirac E R RNum) c time g i = Ok c.
Proof. induction c as [|x c IH]; intros i; cbn; [reflexivity|]. rewrite IH. reflexivity. Qed.

Lemma frozen_iterate s c dr : frozen s c -> (0 < d_k dr < 1)%R -> (d_u dr < 1)%R ->
  exists m' c' f, mcmc_iterate RNum euclid pow ln exp cpus (dirac RNum) conf (ms_impl s) c dr = Ok (m', c', f) /\
    par_iterate RNum euclid cpus c data = Ok (map Some c') /\
    frozen (mkMsys m' (map Some c') true) c' /\ nltb RNum (d_u dr) (f_rho f) = true.
Proof.
  intros [F1 F2 F3 F4 F5 F6 F7 F8 F9 F10 F11 F12] Hk Hu.
  destruct (par_iterate_lloyd RNum _ RNumOrd euclid _ (euclid_mean_space d) cpus c data F3 Hcpus Hdata) as (c' & Hit & Hll).
  pose proof (lloyd_dim d _ c data c' F4 Hdata Hll) as Hd'. pose proof (proj1 Hll) as Hlen.
  destruct (lloyd_decreases pow Hpow d c data c' F3 F4 Hdata Hll) as (l & l' & L1 & L2 & L3).
  rewrite F10 in L1. injection L1 as <-.
  assert (Hne' : c' <> []) by (intros ->; destruct c; [contradiction|discriminate]).
  assert (H1 : 1 <= slen c) by (unfold slen; destruct c; [contradiction|cbn [length]; lia]).
  set (p := mkProposal (slen c) c' l' (INR (length c'))).
  assert (Hp : propose RNum euclid pow cpus (dirac RNum) conf (ms_impl s) (mi_current (ms_impl s)) c data (slen data) dr = Ok p).
  { unfold propose, get_k_centers. rewrite F8, frozen_k by assumption. cbn [obind].
    assert (Hg : get_centers RNum euclid cpus (mi_store (ms_impl s)) data (slen c) c (d_add dr) (d_del dr) = Ok (c, None)).
    { unfold get_centers. destruct (store_get (mi_store (ms_impl s)) (slen c)) as [c0|] eqn:Hs; [rewrite (F7 c0 eq_refl); reflexivity|].
      unfold gen_centers. rewrite Z.ltb_irrefl. reflexivity. }
    rewrite Hg. cbn [obind snd fst]. unfold alter. rewrite alter_dirac. cbn [obind strategy_iter].
    rewrite Hit. cbn [obind]. rewrite somes_map. cbn [obind]. rewrite frozen_loss by exact Hne'. rewrite L2. cbn [obind].
    rewrite proba_dirac. reflexivity. }
  set (lambda := (mp_amp conf * sqrt ((IZR (mi_dim (ms_impl s)) + 3) / INR (length data)))%R).
  assert (HA : exists g, accept_figures RNum ln exp conf (mi_dim (ms_impl s)) (mi_current (ms_impl s)) p (slen data)
    = (lambda, exp (lambda * (pr_loss (mi_current (ms_impl s)) - l'))%R, g)).
  { unfold accept_figures. cbn [RNum nof nadd nsub nmul ndiv nsqrt]. eexists. f_equal. f_equal.
    - unfold lambda, slen. rewrite <- INR_IZR_INZ, plus_IZR. reflexivity.
    - unfold lambda. subst p. cbn [pr_k pr_loss pr_pdf]. rewrite F8, F9, Hlen. rewrite Z.sub_diag, Z.mul_0_r.
      unfold slen. rewrite <- INR_IZR_INZ, plus_IZR. f_equal. ring. }
  destruct HA as (g & HA).
  assert (Hrho : (d_u dr < exp (lambda * (pr_loss (mi_current (ms_impl s)) - l')))%R).
  { apply Rlt_le_trans with 1%R; [exact Hu|]. rewrite <- exp_0 at 1.
    assert (Ha : (0 <= lambda * (pr_loss (mi_current (ms_impl s)) - l'))%R).
    { apply Rmult_le_pos; [|lra]. apply Rmult_le_pos; [exact Hamp|apply sqrt_pos]. }
    destruct Ha as [Ha|Ha]; [left; apply exp_increasing; exact Ha|right; rewrite <- Ha; reflexivity]. }
  assert (Hb : forall b : buffer (list R), bpipe b = [] -> exists b', buffer_apply b = Ok b' /\ bdata b' = bdata b /\ bpipe b' = []).
  { intros b Hb. unfold buffer_apply. rewrite Hb. cbn [ofold]. eexists. split; [reflexivity|]. cbn. auto. }
  destruct (Hb _ F6) as (b' & Hb1 & Hb2 & Hb3).
  unfold mcmc_iterate. rewrite F5. unfold do_iter. rewrite Hp. cbn [obind]. unfold accept. rewrite HA. cbn [nltb RNum].
  rewrite (proj2 (Rltb_true _ _) Hrho). cbn [obind mi_buffer]. rewrite Hb1. cbn [obind].
  do 3 eexists. split; [reflexivity|]. split; [exact Hit|]. split; [|cbn [f_rho mruntime_figures mi_rho]; apply Rltb_true; exact Hrho].
  constructor; cbn [ms_ready ms_centroids ms_impl set_buffer mi_buffer mi_store mi_current p pr_k pr_pdf pr_loss pr_centers];
    try assumption; try reflexivity; unfold slen in *; rewrite ?Hlen; try assumption.
  - congruence.
  - unfold store_set. cbn [store_get]. unfold slen. rewrite Hlen, Z.eqb_refl. intros c0 [= <-]. reflexivity.
  - reflexivity.
Qed.

Lemma frozen_run I (initializer : I -> Z -> list (list R) -> outcome (list (option (list R)) * option init_error)) :
  forall drs s c, frozen s c ->
  Forall (fun dr => (0 < d_k dr < 1)%R /\ (d_u dr < 1)%R) drs ->
  (exists os s', msteps RNum euclid pow ln exp cpus (dirac RNum) conf initializer s (map EvIterate drs) os s') /\
  forall os s', msteps RNum euclid pow ln exp cpus (dirac RNum) conf initializer s (map EvIterate drs) os s' ->
    ~ In OutPanic os /\ accepted RNum os = Z.of_nat (length drs) /\
    exists cn, ms_centroids s' = map Some cn /\ iterations RNum euclid (Some cpus) data (length drs) c cn.
Proof.
  induction drs as [|dr drs IH]; intros s c Hf Hd; cbn [map].
  - split; [do 2 eexists; constructor|]. intros os s' H. inversion H; subst. split; [intros []|]. split; [reflexivity|].
    exists c. split; [apply (fz_cent s' c Hf)|constructor].
  - inversion Hd as [|? ? [Hk Hu] Hd']; subst. destruct (frozen_iterate s c dr Hf Hk Hu) as (m' & c' & f & Hi & Hit & Hf' & Hacc).
    destruct (IH _ _ Hf' Hd') as [(os & s' & Hrun) Hall]. split.
    + do 2 eexists. econstructor; [|exact Hrun]. apply ms_iterate with (c := c); [apply (fz_ready s c Hf)|apply (fz_cent s c Hf)|exact Hi].
    + intros os1 s1 H. inversion H as [|? ? o sa ? os2 sb Hst Hrest]; subst.
      assert (Hsa : o = OutFigures (d_u dr) f /\ sa = mkMsys m' (map Some c') true).
      { inversion Hst as [| |? ? c0 m0 c0' f0 _ Hc0 Hi0|? ? c0 _ Hc0 Hi0]; subst;
          assert (c0 = c) by (apply map_Some_inj; rewrite <- Hc0; apply (fz_cent s c Hf)); subst c0; rewrite Hi in Hi0; [|discriminate].
        injection Hi0 as <- <- <-. auto. }
      destruct Hsa as [-> ->]. destruct (Hall _ _ Hrest) as (A1 & A2 & cn & A3 & A4).
      split; [intros [Hx|Hx]; [discriminate|contradiction]|]. split.
      * change (OutFigures (d_u dr) f :: os2) with ([OutFigures (d_u dr) f] ++ os2). rewrite accepted_app, A2. cbn [length].
        assert (Hone : accepted RNum [OutFigures (d_u dr) f] = 1) by (unfold accepted; cbn [filter]; rewrite Hacc; reflexivity).
        lia.
      * exists cn. split; [exact A3|]. cbn [length]. econstructor; [exact Hit|exact A4].
Qed.
End Frozen.

Lemma pushes_store E F G I (N : Num F) (Sp : Space E F) pow log ex cpus (D : distrib E F G) conf
  (ini : I -> Z -> list E -> outcome (list (option E) * option init_error)) es : forall s os s',
  Forall (fun e => exists x alive, e = EvPush x alive) es -> msteps N Sp pow log ex cpus D conf ini s es os s' ->
  mi_store (ms_impl s') = mi_store (ms_impl s).
Proof.
  induction es as [|e es IH]; intros s os s' He H; inversion H; subst; [reflexivity|]. inversion He as [|? ? (x & alive & ->) He']; subst.
  match goal with K : mstep _ _ _ _ _ _ _ _ _ _ (EvPush _ _) _ _ |- _ => inversion K; subst end.
  match goal with K : msteps _ _ _ _ _ _ _ _ _ _ es _ _ |- _ => rewrite (IH _ _ _ He' K) end. reflexivity.
Qed.

(** ** C73 *)
Lemma dirac_kmeans_main : forall pow cpus conf d I
  (initializer : I -> Z -> list (list R) -> outcome (list (option (list R)) * option init_error)),
  (forall x, (0 <= x)%R -> pow x 2%R = (x * x)%R) -> 0 < cpus -> (0 <= mp_amp conf)%R -> mp_norm conf = 2%R ->
  mp_proba_k conf = [0; 1; 0]%R -> (mp_par conf = true -> 0 < mp_num_cpu conf) ->
  init_exact initializer -> mp_init_k conf <= mp_max_k conf ->
  forall data frame_size s0 es os0 s1 i s2 c,
  new_msys RNum data frame_size = Ok s0 ->
  Forall (fun e => exists x alive, e = EvPush x alive) es ->
  msteps RNum euclid pow ln exp cpus (dirac RNum) conf initializer s0 es os0 s1 ->
  mstep RNum euclid pow ln exp cpus (dirac RNum) conf initializer s1 (EvInit i) (OutInit None) s2 ->
  ms_centroids s2 = map Some c -> all_dim d c -> all_dim d (bdata (mi_buffer (ms_impl s2))) ->
  forall drs, Forall (fun dr => (0 < d_k dr < 1)%R /\ (d_u dr < 1)%R) drs ->
  (exists os s', msteps RNum euclid pow ln exp cpus (dirac RNum) conf initializer s2 (map EvIterate drs) os s') /\
  forall os s', msteps RNum euclid pow ln exp cpus (dirac RNum) conf initializer s2 (map EvIterate drs) os s' ->
    ~ In OutPanic os /\ accepted RNum os = Z.of_nat (length drs) /\
    exists cn, ms_centroids s' = map Some cn /\
      iterations RNum euclid (Some cpus) (bdata (mi_buffer (ms_impl s2))) (length drs) c cn.
Proof.
  intros pow cpus conf d I ini Hpow Hcpus Hamp Hnorm Hpk Hpar Hex Hkk data fs s0 es os0 s1 i s2 c H0 Hes H1 H2 Hc Hdc Hdd drs Hdrs.
  apply (frozen_run pow cpus conf d (bdata (mi_buffer (ms_impl s2))) Hpow Hcpus Hdd Hamp Hnorm Hpk Hpar I ini drs s2 c); [|exact Hdrs].
  pose proof (pushes_store _ _ _ _ _ _ _ _ _ _ _ _ _ _ _ _ _ Hes H1) as Hst.
  assert (Hemp : mi_store (ms_impl s0) = []).
  { unfold new_msys, new_mcmc in H0. apply obind_ok in H0. destruct H0 as (m0 & Hm & [= <-]). apply obind_ok in Hm. destruct Hm as (b & _ & [= <-]). reflexivity. }
  rewrite Hemp in Hst. inversion H2 as [|? ? m cs err Hi| |]; subst. cbn [ms_centroids ms_impl] in *.
  unfold mcmc_init in Hi. apply obind_ok in Hi. destruct Hi as (b & Hb & Hi).
  assert (Hpipe : bpipe b = []).
  { unfold buffer_apply in Hb. apply (ofold_inv _ (fun b1 => bpipe b1 = [])) in Hb; [exact Hb|reflexivity|].
    intros st x st' Hp _ Hs. unfold store in Hs. apply obind_ok in Hs. destruct Hs as ([? ?] & _ & [= <-]). exact Hp. }
  apply obind_ok in Hi. destruct Hi as ([cs0 [e0|]] & Hini & Hi); [discriminate|].
  apply obind_ok in Hi. destruct Hi as (c0 & Hso & Hi). apply obind_ok in Hi. destruct Hi as (l & Hl & Hi).
  apply obind_ok in Hi. destruct Hi as (p & Hp & [= <- Hcs]). subst cs0. cbn [ms_impl mi_buffer set_buffer] in *.
  apply somes_ok in Hso. rewrite Hc in Hso. apply map_Some_inj in Hso. subst c0 cs.
  destruct (Hex _ _ _ _ Hini) as (c1 & Hc1 & Hlen & Hb1). apply map_Some_inj in Hc1. subst c1.
  assert (Hne : c <> []) by (intros ->; cbn in Hlen; lia).
  rewrite (frozen_loss pow conf (bdata b) Hnorm Hpar c Hne) in Hl. rewrite proba_dirac in Hp. injection Hp as <-.
  constructor; cbn [ms_ready ms_centroids ms_impl set_buffer mi_buffer mi_store mi_current pr_k pr_pdf pr_loss pr_centers]; unfold slen;
    try assumption; try reflexivity; try lia.
  rewrite Hst. discriminate.
Qed.
