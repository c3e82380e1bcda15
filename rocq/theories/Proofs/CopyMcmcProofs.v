(** Copies of MCMC algorithms (C108). *)
From Coq Require Import List ZArith Lia Bool.
From Verif Require Import Base.Go Base.Num Model.Clustering Model.Buffer Model.Euclid Model.KmeansInit Model.Mcmc Model.Status Model.Finish Model.Conf
  Model.CtrlLang Model.CtrlCode Model.CtrlSeq Model.System Model.SystemMcmc Model.Copy Model.CopyMcmc
  Spec.McmcSpec Spec.NearestSpec Spec.BufferSpec Spec.CtrlSpec Spec.CtrlSeqSpec Spec.SystemSpec Spec.CopySpec
  Proofs.GoLemmas Proofs.BufferProofs Proofs.McmcProofs Proofs.CtrlSeqProofs Proofs.SystemProofs Proofs.McmcCases Proofs.SystemMain Proofs.SystemMcmcMain Proofs.CopyProofs.
Import ListNotations.
Local Open Scope Z_scope.

Section Conf.
Context {G : Type} (rgen0 : G) (cpus : Z) {E : Type}.
Notation ops := (mcmc_ops rgen0 cpus).
Notation dfl := (mcmc_set_defaults rgen0 cpus).

Lemma default_float_twice x d : default_float (default_float x d) d = default_float x d.
Proof. unfold default_float. destruct (b64_eqb x (b64_of_Z 0)) eqn:H; [destruct (b64_eqb d _); reflexivity|]. rewrite H. reflexivity. Qed.
Lemma mcmc_defaults_twice (c : mcmc_conf G) : dfl (dfl c) = dfl c.
Proof.
  unfold mcmc_set_defaults. cbn [mc_ctrl mc_par mc_init_k mc_rgen mc_b mc_amp mc_r mc_norm mc_max_k mc_proba_k mc_frame_size mc_num_cpu].
  rewrite !default_int_twice, !default_float_twice. destruct (mc_rgen c), (mc_proba_k c); reflexivity.
Qed.
Lemma mcmc_core_defaults (c : mcmc_conf G) : core_new_algo ops (dfl c) = core_new_algo ops c.
Proof. unfold core_new_algo, prepare_conf, mcmc_ops, mcmc_verify. cbn [co_set_defaults co_verify co_ctrl]. rewrite !mcmc_defaults_twice. reflexivity. Qed.
Lemma mcmc_core_conf (c c' : mcmc_conf G) : core_new_algo ops c = Ok c' -> c' = dfl c.
Proof.
  unfold core_new_algo, prepare_conf, mcmc_ops, mcmc_verify. cbn [co_set_defaults co_verify co_ctrl]. rewrite mcmc_defaults_twice.
  destruct (mc_init_k _ <? 1); [discriminate|]. destruct (_ && _); [discriminate|]. destruct (ctrl_verify _); [discriminate|]. congruence.
Qed.
Definition impl0 (b : buffer E) : mimpl E b64 := let z := b64_of_Z 0 in mkMimpl b [] 0 z z z 0 0 (mkProposal 0 [] z z).
Lemma mcmc_create_eq (c : mcmc_conf G) (data : list E) : mcmc_create rgen0 cpus c data =
  match new_data_buffer data (mc_frame_size c), core_new_algo ops c with
  | Ok b, Ok c' => Ok (mkMcmcAlgo c' (mcmc_strategy (dfl c)) (impl0 b) seq0)
  | _, _ => Panic
  end.
Proof.
  unfold mcmc_create, mcmc_new_algo, mcmc_verify. cbn [fst]. rewrite mcmc_core_defaults.
  replace (mc_frame_size (dfl c)) with (mc_frame_size c) by reflexivity.
  destruct (new_data_buffer data (mc_frame_size c)) as [b|]; cbn [obind]; [|reflexivity].
  destruct (core_new_algo ops c) as [c'|] eqn:H; cbn [obind]; [|reflexivity].
  apply mcmc_core_conf in H. subst c'. reflexivity.
Qed.

Lemma mcmc_copy_conf : forall (a a' : mcmc_algo G E) (c : mcmc_conf G), mcmc_copy rgen0 cpus a c = Ok a' ->
  xa_conf a' = dfl c /\ mc_init_k (xa_conf a') = mc_init_k c /\ mc_ctrl (xa_conf a') = mc_ctrl c /\
  xa_strategy a' = mcmc_strategy (dfl (xa_conf a)) /\ xa_ctrl a' = seq0 /\
  mi_store (xa_impl a') = [] /\ mi_acc (xa_impl a') = 0 /\ bpipe (mi_buffer (xa_impl a')) = [] /\
  (mc_frame_size c = mc_frame_size (xa_conf a) -> mc_par c = mc_par (xa_conf a) ->
   (mc_par c = true -> default_int (mc_num_cpu c) cpus = default_int (mc_num_cpu (xa_conf a)) cpus) ->
   mcmc_create rgen0 cpus c (bdata (mi_buffer (xa_impl a))) = Ok a').
Proof.
  intros a a' c. unfold mcmc_copy. rewrite !mcmc_create_eq.
  destruct (new_data_buffer_repr (mc_frame_size (xa_conf a)) (bdata (mi_buffer (xa_impl a)))) as (b & Hb & _ & Hp). rewrite Hb.
  destruct (core_new_algo ops (xa_conf a)) as [c0|]; [|discriminate]. cbn [obind xa_strategy xa_impl].
  destruct (core_new_algo ops c) as [c1|] eqn:Hc; [|discriminate]. cbn [obind]. intros H. injection H as <-.
  cbn [xa_conf xa_ctrl xa_strategy xa_impl impl0 mi_store mi_acc mi_buffer]. pose proof (mcmc_core_conf c c1 Hc) as E1.
  split; [exact E1|]. split; [rewrite E1; reflexivity|]. split; [rewrite E1; reflexivity|]. split; [reflexivity|]. split; [reflexivity|].
  split; [reflexivity|]. split; [reflexivity|]. split; [exact Hp|].
  intros H1 H2 H3. rewrite H1, Hb. f_equal. f_equal. unfold mcmc_strategy, mcmc_set_defaults. cbn [mc_par mc_num_cpu].
  rewrite <- H2. destruct (mc_par c); [|reflexivity]. f_equal. apply H3. reflexivity.
Qed.
(** A copy answers as an algorithm newly created with [c], but for the frame, the choice of the strategy and its degree,
    which are those of the algorithm copied. *)
Lemma mcmc_copy_mixed : forall (H I : Type) (Sp : Space E b64) pow log exp (D : distrib E b64 H)
  (initializer : I -> Z -> list E -> outcome (list (option E) * option init_error)) (a a' : mcmc_algo G E) (c : mcmc_conf G), mcmc_copy rgen0 cpus a c = Ok a' ->
  exists b, mcmc_create rgen0 cpus (mkMcmcConf (mc_ctrl c) (mc_par (xa_conf a)) (mc_init_k c) (mc_rgen c) (mc_b c) (mc_amp c) (mc_r c) (mc_norm c) (mc_max_k c) (mc_proba_k c)
      (mc_frame_size (xa_conf a)) (mc_num_cpu (xa_conf a))) (bdata (mi_buffer (xa_impl a))) = Ok b /\
    xa_impl a' = xa_impl b /\ mcmc_of cpus Sp pow log exp D initializer a' = mcmc_of cpus Sp pow log exp D initializer b /\
    (mc_par (xa_conf a) = true -> mp_num_cpu (mcmc_params a') = default_int (mc_num_cpu (xa_conf a)) cpus).
Proof.
  intros H I Sp pow log exp D initializer a a' c. unfold mcmc_copy. rewrite !mcmc_create_eq. cbn [mc_frame_size].
  destruct (new_data_buffer_repr (mc_frame_size (xa_conf a)) (bdata (mi_buffer (xa_impl a)))) as (b & Hb & _ & Hp). rewrite Hb.
  destruct (core_new_algo ops (xa_conf a)) as [c0|]; [|discriminate]. cbn [obind xa_strategy xa_impl].
  destruct (core_new_algo ops c) as [c1|] eqn:Hc; [|discriminate]. cbn [obind]. intros Q. injection Q as <-.
  match goal with |- exists b, match core_new_algo ops ?x with _ => _ end = _ /\ _ => set (cx := x) end.
  assert (Hx : core_new_algo ops cx = Ok (dfl cx)).
  { revert Hc. unfold core_new_algo, prepare_conf, mcmc_ops, mcmc_verify. cbn [co_set_defaults co_verify co_ctrl]. rewrite !mcmc_defaults_twice.
    unfold cx, mcmc_set_defaults. cbn [mc_ctrl mc_par mc_init_k mc_rgen mc_b mc_amp mc_r mc_norm mc_max_k mc_proba_k mc_frame_size mc_num_cpu].
    destruct (_ <? 1); [discriminate|]. destruct (_ && _); [discriminate|]. destruct (ctrl_verify _); [discriminate|]. reflexivity. }
  rewrite Hx. eexists. split; [reflexivity|]. split; [reflexivity|]. rewrite (mcmc_core_conf c c1 Hc). split.
  - unfold mcmc_of, mcmc_params. cbn [xa_strategy xa_conf]. reflexivity.
  - intros Hpar. unfold mcmc_params, mcmc_strategy, mcmc_set_defaults. cbn [xa_strategy mc_par mc_num_cpu mp_num_cpu]. rewrite Hpar. reflexivity.
Qed.
End Conf.

Section Same.
Context {E H I : Type} (Sp : Space E b64) (pow : b64 -> b64 -> b64) (log exp : b64 -> b64) (cpus : Z) (D : distrib E b64 H) (conf : mparams b64).
Context (initializer : I -> Z -> list E -> outcome (list (option E) * option init_error)).
Notation im := (mcmc_implem B64Num Sp pow log exp cpus D conf initializer (fun x => x)).

(** What an iteration reads. *)
Definition same (m m' : mimpl E b64) : Prop :=
  bdata (mi_buffer m) = bdata (mi_buffer m') /\ bpipe (mi_buffer m) = [] /\ bpipe (mi_buffer m') = [] /\
  mi_store m = mi_store m' /\ mi_acc m = mi_acc m' /\ mi_dim m = mi_dim m' /\ mi_current m = mi_current m'.

Lemma apply_none (b : buffer E) : bpipe b = [] -> buffer_apply b = Ok (mkBuffer [] (bdata b) (bstrategy b)).
Proof. intros Hp. unfold buffer_apply. rewrite Hp. reflexivity. Qed.

Lemma same_iterate m m' c dr : same m m' ->
  match mcmc_iterate B64Num Sp pow log exp cpus D conf m c dr, mcmc_iterate B64Num Sp pow log exp cpus D conf m' c dr with
  | Ok (m1, c1, f1), Ok (m2, c2, f2) => same m1 m2 /\ c1 = c2 /\ f1 = f2
  | Panic, Panic => True
  | _, _ => False
  end.
Proof.
  intros (S1 & S2 & S3 & S4 & S5 & S6 & S7).
  assert (HP : forall cur data t, propose B64Num Sp pow cpus D conf m cur c data t dr = propose B64Num Sp pow cpus D conf m' cur c data t dr)
    by (intros; unfold propose, get_k_centers; rewrite S4; reflexivity).
  unfold mcmc_iterate, do_iter. rewrite HP, S1, S4, S6, S7.
  destruct (propose _ _ _ _ _ _ m' _ _ _ _ _) as [p|]; cbn [obind]; [|exact Logic.I].
  destruct (accept_figures B64Num log exp conf (mi_dim m') (mi_current m') p _) as [[la rh] rg].
  destruct (accept _ _ _ _ _ _ _ _ _); cbn [obind mi_buffer]; rewrite (apply_none _ S2), (apply_none _ S3); cbn [obind];
    unfold same, mruntime_figures, set_buffer; cbn; rewrite S1, S5; repeat split; reflexivity.
Qed.

Lemma same_answers ds : forall m m' c, same m m' -> answers im ds m c = answers im ds m' c.
Proof.
  induction ds as [|d ds IH]; intros m m' c HS; [reflexivity|]. cbn [answers im_iterate mcmc_implem].
  pose proof (same_iterate m m' (match c with Some c => c | None => [] end) (snd d) HS) as V.
  destruct (mcmc_iterate _ _ _ _ _ _ _ _ m _ _) as [[[m1 c1] f1]|], (mcmc_iterate _ _ _ _ _ _ _ _ m' _ _) as [[[m2 c2] f2]|]; try contradiction; [|reflexivity].
  destruct V as (V1 & -> & ->). f_equal. apply IH. exact V1.
Qed.

Lemma same_replay m m' d ds : bdata (mi_buffer m) = bdata (mi_buffer m') -> bpipe (mi_buffer m) = [] -> bpipe (mi_buffer m') = [] ->
  mi_store m = mi_store m' -> mi_acc m = mi_acc m' -> replay im d ds m = replay im d ds m'.
Proof.
  intros S1 S2 S3 S4 S5. unfold replay. cbn [im_init mcmc_implem]. unfold mcmc_init. rewrite (apply_none _ S2), (apply_none _ S3). cbn [obind bdata]. rewrite S1.
  destruct (initializer (fst d) (mp_init_k conf) (bdata (mi_buffer m'))) as [[cs [e|]]|]; cbn [obind]; [reflexivity| |reflexivity].
  destruct (somes cs) as [c|]; cbn [obind]; [|reflexivity]. destruct (strategy_loss _ _ _ _ _ _) as [l|]; cbn [obind]; [|reflexivity].
  destruct (proba _ _ _ _ _) as [p|]; cbn [obind option_map]; [|reflexivity]. f_equal. f_equal. apply same_answers.
  unfold same. cbn. rewrite S4, S5. repeat split; reflexivity.
Qed.

(** No center is stored before a proposal is accepted; the buffer is that of the elements received. *)
Context (size : Z).
Definition fresh_store (_ : list (event (list E))) (_ : option (list E)) (m : mimpl E b64) : Prop :=
  (exists all, brepr size all (mi_buffer m)) /\ 0 <= mi_acc m /\ (mi_acc m = 0 -> mi_store m = []).

Lemma fresh_preserved : preserved im (fun _ => True) fresh_store fresh_store.
Proof.
  split.
  - intros e lg c i _. split; intros V; exact V.
  - intros lg c i V. exact V.
  - intros d lg c m m' r ((all & B) & A & V) Hit. cbn [im_iterate mcmc_implem] in Hit.
    destruct (mcmc_iterate B64Num Sp pow log exp cpus D conf m (match c with Some c => c | None => [] end) (snd d)) as [[[m1 c1] f]|] eqn:Hs;
      injection Hit as <- <-; [|split; [exists all; exact B|split; assumption]].
    unfold mcmc_iterate in Hs. apply obind_ok in Hs as ([m2 c2] & H2 & Hs). apply obind_ok in Hs as (b & Hb & [= <- <- _]). cbn [mi_buffer] in Hb.
    assert (W : mi_buffer m2 = mi_buffer m /\ 0 <= mi_acc m2 /\ (mi_acc m2 = 0 -> mi_store m2 = [])).
    { unfold do_iter in H2. apply obind_ok in H2 as (p & _ & H2). destruct (accept_figures _ _ _ _ _ _ _ _) as [[la rh] rg].
      destruct (accept _ _ _ _ _ _ _ _ _); injection H2 as <- <-; cbn [mi_buffer mi_acc mi_store]; split; auto; split; lia. }
    destruct W as (W1 & W2 & W3). rewrite W1 in Hb. destruct (buffer_apply_repr size all _ B) as (b' & Hb' & B' & _).
    rewrite Hb in Hb'. injection Hb' as <-. split; [exists (all ++ bpipe (mi_buffer m)); exact B'|]. split; [exact W2|exact W3].
  - intros d lg c m m' c' e ((all & B) & A & V) Hi. cbn [im_init mcmc_implem] in Hi.
    destruct (mcmc_init B64Num Sp pow D conf initializer m (fst d)) as [[[m1 cs] er]|] eqn:Hs; [|discriminate]. injection Hi as <- _ _.
    assert (W : fresh_store lg c m1).
    { unfold mcmc_init in Hs. apply obind_ok in Hs as (b & Hb & Hs). apply obind_ok in Hs as ([l er'] & _ & Hs).
      destruct (buffer_apply_repr size all _ B) as (b' & Hb' & B' & _). rewrite Hb in Hb'. injection Hb' as <-.
      destruct er' as [er'|].
      - injection Hs as <- _ _. split; [eexists; exact B'|]. split; [exact A|exact V].
      - apply obind_ok in Hs as (cc & _ & Hs). apply obind_ok in Hs as (lo & _ & Hs). apply obind_ok in Hs as (pd & _ & [= <- _ _]).
        split; [eexists; exact B'|]. split; [exact A|exact V]. }
    destruct e; exact W.
  - intros x lg c m m' err _. cbn [im_push mcmc_implem].
    assert (W : forall a b, fresh_store lg c m -> buffer_push (mi_buffer m) x a = Some (Ok b) -> fresh_store lg c (set_buffer m b)).
    { intros a b ((all & B) & A & V) Hb. split; [|split; [exact A|exact V]]. cbn [mi_buffer set_buffer]. unfold buffer_push in Hb. destruct a.
      - destruct (_ <? _); [|discriminate]. injection Hb as <-. exists all. exact B.
      - destruct (store_repr size all _ x B) as (b' & Hb' & B' & _). rewrite Hb' in Hb. injection Hb as <-. eexists. exact B'. }
    split; intros V Hp.
    + destruct (buffer_push (mi_buffer m) x true) as [[b|]|] eqn:Q; try discriminate Hp. injection Hp as <- <-. apply (W _ _ V Q).
    + destruct (buffer_push (mi_buffer m) x false) as [[b|]|] eqn:Q; try discriminate Hp. injection Hp as <- <-. apply (W _ _ V Q).
Qed.
End Same.

Lemma mcmc_copy_same : forall (G : Type) (rgen0 : G) cpus (E H I : Type) (Sp : Space E b64) pow log exp (D : distrib E b64 H)
  (initializer : I -> Z -> list E -> outcome (list (option E) * option init_error)) (c : mcmc_conf G) elemts a0 cf xs q m,
  mcmc_create rgen0 cpus c elemts = Ok a0 ->
  sys_acts cf (mcmc_of cpus Sp pow log exp D initializer a0) xs (seq0, xa_impl a0) = Some (q, m) ->
  exists a', mcmc_copy rgen0 cpus (mkMcmcAlgo (xa_conf a0) (xa_strategy a0) m q) (xa_conf a0) = Ok a' /\
    xa_conf a' = xa_conf a0 /\ xa_strategy a' = xa_strategy a0 /\ xa_ctrl a' = seq0 /\
    bdata (mi_buffer (xa_impl a')) = bdata (mi_buffer m) /\ mi_store (xa_impl a') = [] /\ mi_acc (xa_impl a') = 0 /\
    (bpipe (mi_buffer m) = [] -> mi_acc m = 0 -> forall d ds,
       replay (mcmc_of cpus Sp pow log exp D initializer a') d ds (xa_impl a') = replay (mcmc_of cpus Sp pow log exp D initializer a0) d ds m).
Proof.
  intros G rgen0 cpus E H I Sp pow log exp D initializer c elemts a0 cf xs q m Hc Hs. rewrite mcmc_create_eq in Hc.
  destruct (new_data_buffer elemts (mc_frame_size c)) as [b0|] eqn:Hb; [|discriminate]. destruct (core_new_algo _ c) as [c1|] eqn:Hc1; [|discriminate].
  injection Hc as <-. cbn [xa_conf xa_strategy xa_impl] in *. pose proof (mcmc_core_conf _ _ _ _ Hc1) as E1.
  assert (F1 : mc_frame_size c1 = mc_frame_size c) by (rewrite E1; reflexivity).
  assert (V : fresh_store (mc_frame_size c) (q_log q) (m_centroids (q_model q)) m).
  { unfold mcmc_of in Hs. set (pa := mcmc_params _) in Hs.
    pose proof (sys_invariant cf _ _ _ _ (fresh_preserved Sp pow log exp cpus D pa initializer (mc_frame_size c)) xs (impl0 b0) (q, m)) as W.
    unfold holds_in in W. cbn [fst snd] in W.
    assert (W0 : fresh_store (mc_frame_size c) [] None (impl0 b0)).
    { split; [|split; [cbn; lia|reflexivity]]. exists elemts. destruct (new_data_buffer_repr (mc_frame_size c) elemts) as (b & Hb' & B & _). rewrite Hb in Hb'. injection Hb' as <-. exact B. }
    assert (Hx : Forall (action_ok (fun _ : E => True)) xs) by (apply Forall_forall; intros [[]|] _; exact Logic.I).
    destruct (st_alive (q_status q)); apply W; auto. }
  destruct V as ((all & B) & _ & V).
  destruct (buffer_same (bdata (mi_buffer m)) (mc_frame_size c)) as (b & N1 & N2 & N3).
  { intros Hz. destruct (proj2 (repr_data _ _ _ _ B) Hz) as [_ L]. lia. }
  unfold mcmc_copy. rewrite mcmc_create_eq. cbn [xa_conf xa_impl]. rewrite F1, N1, E1, mcmc_core_defaults, Hc1. cbn [obind]. eexists. split; [reflexivity|].
  cbn [xa_conf xa_strategy xa_impl xa_ctrl]. rewrite mcmc_defaults_twice. split; [exact E1|]. split; [reflexivity|]. split; [reflexivity|]. split; [exact N2|]. split; [reflexivity|]. split; [reflexivity|].
  intros Hp Ha d ds. unfold mcmc_of. rewrite E1. unfold mcmc_params. cbn [xa_conf xa_strategy]. apply same_replay; auto.
  - cbn [impl0 mi_store]. symmetry. apply V. exact Ha.
Qed.

(** ** The centers stored by the first run *)
Definition xconf : mcmc_conf unit :=
  mkMcmcConf ctrl1 false 1 None (b64_of_Z 1) (b64_of_Z 1) (b64_of_Z 1) (b64_of_Z 2) 2 (map b64_of_Z [1; 0; 1]) 0 2.
Definition xmcmc (a : mcmc_algo unit (list b64)) : implem (list b64) (list (list b64)) (mimpl (list b64) b64) (unit * draws b64 unit) :=
  mcmc_of 2 (euclid_space B64Num) (fun x _ => b64_mul x x) (fun x => x) (fun x => x) (dirac B64Num) (use_given (euclid_space B64Num)) a.
(** Results as shown by the Examples: centroids and acceptations. *)
Definition shown_answers (r : option (option (list (list b64)) * option nat * list (iter_result (list (list b64))))) :=
  match r with
  | Some (_, None, l) => map (fun r => match r with IterRes (Some c) (Some f) None => Some (map (map show64) c, option_map show64 (option_map snd (hd_error f))) | _ => None end) l
  | _ => []
  end.
Definition up : unit * draws b64 unit := mdraw (b64_div (b64_of_Z 3) (b64_of_Z 4)) (b64_of_Z 0).
Definition xsession : list (sys_action (list b64) (unit * draws b64 unit)) :=
  [YCall (YPush (v64 [0]) 1) 1; YCall (YPush (v64 [2]) 2) 2; YCall (YPush (v64 [10]) 3) 3; YCall (YPlay (mdraw quarter quarter)) 4;
   YProgress (STurn up 0 5); YCall YStop 6; YCall (YPush (v64 [30]) 7) 7].
Lemma copy_differs : exists (a0 a' : mcmc_algo unit (list b64)) q m,
  mcmc_create tt 2 xconf [] = Ok a0 /\ sys_acts (ctrl_of (mc_ctrl xconf)) (xmcmc a0) xsession (seq0, xa_impl a0) = Some (q, m) /\
  st_value (q_status q) = Finished /\ bpipe (mi_buffer m) = [] /\ mi_acc m = 1 /\
  mcmc_copy tt 2 (mkMcmcAlgo (xa_conf a0) (xa_strategy a0) m q) (xa_conf a0) = Ok a' /\
  shown_answers (replay (xmcmc a0) up [up] m) = [Some (map (map show64) [v64 [1]; v64 [20]], Some (show64 (b64_of_Z 2)))] /\
  shown_answers (replay (xmcmc a') up [up] (xa_impl a')) = [Some (map (map show64) [v64 [4]; v64 [30]], Some (show64 (b64_of_Z 1)))].
Proof.
  assert (V : match mcmc_create tt 2 xconf [] with Panic => False | Ok a0 =>
    match sys_acts (ctrl_of (mc_ctrl xconf)) (xmcmc a0) xsession (seq0, xa_impl a0) with None => False | Some (q, m) =>
      match mcmc_copy tt 2 (mkMcmcAlgo (xa_conf a0) (xa_strategy a0) m q) (xa_conf a0) with Panic => False | Ok a' =>
        st_value (q_status q) = Finished /\ bpipe (mi_buffer m) = [] /\ mi_acc m = 1 /\
        shown_answers (replay (xmcmc a0) up [up] m) = [Some (map (map show64) [v64 [1]; v64 [20]], Some (show64 (b64_of_Z 2)))] /\
        shown_answers (replay (xmcmc a') up [up] (xa_impl a')) = [Some (map (map show64) [v64 [4]; v64 [30]], Some (show64 (b64_of_Z 1)))]
      end end end) by (vm_compute; repeat split; reflexivity).
  destruct (mcmc_create _ _ _ _) as [a0|] eqn:Ha; [|contradiction]. destruct (sys_acts _ _ _ _) as [[q m]|] eqn:Hs; [|contradiction].
  destruct (mcmc_copy _ _ _ _) as [a'|] eqn:Hc; [|contradiction]. destruct V as (V1 & V2 & V3 & V4 & V5).
  exists a0, a', q, m. repeat (split; [first [reflexivity|assumption]|]). exact V5.
Qed.
Lemma copy_frame_mcmc : exists a a' b : mcmc_algo unit Z,
  mcmc_create tt 4 xconf [1; 2; 3] = Ok a /\ mcmc_copy tt 4 a (mkMcmcConf ctrl1 true 1 None (b64_of_Z 1) (b64_of_Z 1) (b64_of_Z 1) (b64_of_Z 2) 2 [] 2 0) = Ok a' /\
  mc_frame_size (xa_conf a') = 2 /\ bdata (mi_buffer (xa_impl a')) = [1; 2; 3] /\ mc_par (xa_conf a') = true /\ xa_strategy a' = None /\
  mcmc_create tt 4 (mkMcmcConf ctrl1 true 1 None (b64_of_Z 1) (b64_of_Z 1) (b64_of_Z 1) (b64_of_Z 2) 2 [] 2 0) [1; 2; 3] = Ok b /\
  bdata (mi_buffer (xa_impl b)) = [2; 3] /\ xa_strategy b = Some 4.
Proof. do 3 eexists. repeat (split; [reflexivity|]). reflexivity. Qed.
