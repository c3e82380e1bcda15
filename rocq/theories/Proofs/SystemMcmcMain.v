(** MCMC under the controller: initializers, the Dirac law, and the dimension. *)
From Coq Require Import List ZArith Lia Bool Reals Lra.
From Verif Require Import Base.Go Base.Num Model.Clustering Model.Buffer Model.Euclid Model.Kmeans Model.KmeansInit Model.Mcmc Model.Status Model.Finish
  Model.CtrlLang Model.CtrlCode Model.CtrlSeq Model.System Model.SystemMcmc
  Spec.SpaceSpec Spec.RealSpec Spec.NearestSpec Spec.BufferSpec Spec.CtrlSpec Spec.CtrlSeqSpec Spec.McmcSpec Spec.SystemSpec
  Proofs.GoLemmas Proofs.NumLaws Proofs.EuclidProofs Proofs.BufferProofs Proofs.McmcProofs Proofs.McmcMain Proofs.McmcDirac Proofs.McmcCases
  Proofs.CtrlSeqProofs Proofs.CtrlSeqMain Proofs.SystemProofs Proofs.SystemBatch Proofs.SystemKmeans Proofs.SystemMain Proofs.SystemMcmc.
Import ListNotations.
Local Open Scope Z_scope.
Local Notation euclid := (euclid_space RNum).

(** ** The initializers keep a property of the elements *)
Section Initial.
Context {E F : Type} (N : Num F) (Sp : Space E F) (P : E -> Prop) (Hcopy : forall x, P x -> P (scopy Sp x)).

Lemma result_of_ok (r : outcome (list (option E) * option init_error)) c : r = Ok (map Some c, None) -> init_result_of r = Some (Some c, None).
Proof. intros ->. cbn [init_result_of]. rewrite all_some_map. reflexivity. Qed.

Lemma initializers_kept :
  (forall i k data c, Forall P data -> use_given Sp i k data = Ok (map Some c, None) -> Forall P c) /\
  (forall i k data c, Forall P data -> use_rand Sp i k data = Ok (map Some c, None) -> Forall P c) /\
  forall degree i k data c, Forall P data -> use_pp N Sp degree i k data = Ok (map Some c, None) -> Forall P c.
Proof.
  destruct (initializers_exact N Sp) as (X1 & X2 & X3). split; [|split].
  - intros i k data c HD H. destruct (X1 i k data _ H) as (_ & _ & _ & Hk).
    apply (given_initializes Sp P Hcopy k (proj1 Hk) i data (Some c) None (result_of_ok _ c H) HD). reflexivity.
  - intros i k data c HD H. destruct (X2 i k data _ H) as (_ & _ & _ & Hk).
    apply (rand_initializes Sp P Hcopy k (proj1 Hk) i data (Some c) None); [|exact HD|reflexivity].
    unfold with_rand. unfold use_rand in H. destruct (rand_initializer Sp k data i) as [r|]; [|discriminate]. apply (result_of_ok _ c H).
  - intros degree i k data c HD H. destruct (X3 degree i k data _ H) as (_ & _ & _ & Hk).
    apply (pp_initializes N Sp P Hcopy degree k (proj1 Hk) i data (Some c) None (result_of_ok _ c H) HD). reflexivity.
Qed.
End Initial.

(** ** The dimension *)
Section Dim.
Context {E F G I : Type} (N : Num F) (Sp : Space E F) (pow : F -> F -> F) (log exp : F -> F) (cpus : Z) (D : distrib E F G) (conf : mparams F).
Context (initializer : I -> Z -> list E -> outcome (list (option E) * option init_error)) (P : E -> Prop).
Context (Hex : init_exact initializer).
Context (HinitP : forall i k data c, Forall P data -> initializer i k data = Ok (map Some c, None) -> Forall P c).
Notation mstep := (mstep N Sp pow log exp cpus D conf initializer).
Notation msteps := (msteps N Sp pow log exp cpus D conf initializer).

Definition dim_inv (s : @msys E F) : Prop :=
  Forall P (bdata (mi_buffer (ms_impl s))) /\ Forall P (bpipe (mi_buffer (ms_impl s))) /\
  (ms_ready s = true -> exists x l, Forall P (x :: l) /\ mi_dim (ms_impl s) = sdim Sp (x :: l)).

Lemma dim_step s e o s' : mstep s e o s' -> (match e with EvPush x _ => P x | _ => True end) -> dim_inv s -> dim_inv s'.
Proof.
  intros H He (D1 & D2 & D3). unfold dim_inv. destruct H as [s x alive b Hb|s i m cs err Hi|s dr c m c' f Hr Hc Hi|s dr c Hr Hc Hi]; cbn [ms_impl ms_ready] in *.
  - cbn [set_buffer mi_buffer mi_dim]. unfold buffer_push in Hb. destruct alive.
    + destruct (_ <? _); [|discriminate]. injection Hb as <-. cbn [bdata bpipe]. split; [exact D1|]. split; [apply Forall_app; auto|exact D3].
    + injection Hb as Hb. destruct (store_P P _ _ _ D1 He Hb) as [K1 K2]. rewrite K2. auto.
  - unfold mcmc_init in Hi. apply obind_ok in Hi. destruct Hi as (b & Hb & Hi). destruct (apply_P P _ _ D1 D2 Hb) as [K1 K2].
    apply obind_ok in Hi. destruct Hi as ([cs0 [e0|]] & Hini & Hi).
    + injection Hi as <- <- <-. cbn [set_buffer mi_buffer]. split; [exact K1|]. split; [exact K2|discriminate].
    + apply obind_ok in Hi. destruct Hi as (c & Hso & Hi). apply obind_ok in Hi. destruct Hi as (l & _ & Hi).
      apply obind_ok in Hi. destruct Hi as (p & Hp & [= <- <- <-]). cbn [mi_buffer set_buffer mi_dim]. split; [exact K1|]. split; [exact K2|]. intros _.
      apply somes_ok in Hso. subst cs0. destruct (Hex _ _ _ _ Hini) as (c1 & X & L & Hk). apply map_Some_inj in X. subst c1.
      destruct c as [|x c]; [cbn in L; lia|]. exists x, c. split; [apply (HinitP _ _ _ _ K1 Hini)|reflexivity].
  - unfold mcmc_iterate in Hi. apply obind_ok in Hi. destruct Hi as ([m1 c1] & Hd & Hi).
    apply obind_ok in Hi. destruct Hi as (b & Hb & [= <- <- <-]). unfold do_iter in Hd. apply obind_ok in Hd. destruct Hd as (p & Hp & Hd).
    destruct (accept_figures _ _ _ _ _ _ _ _) as [[lambda rho] rgibbs]. destruct (D3 Hr) as (x & l & X1 & X2).
    destruct (accept _ _ _ _ _ _ _ _ _); injection Hd as <- <-; cbn [mi_buffer mi_dim set_buffer] in *;
      destruct (apply_P P _ _ D1 D2 Hb) as [K1 K2]; (split; [exact K1|]); (split; [exact K2|]); intros _; exists x, l; auto.
  - split; [exact D1|]. split; [exact D2|discriminate].
Qed.

Lemma dim_main data size s0 es os s : Forall P data -> new_msys N data size = Ok s0 ->
  Forall (fun e => match e with EvPush x _ => P x | _ => True end) es -> msteps s0 es os s -> ms_ready s = true ->
  exists x l, Forall P (x :: l) /\ mi_dim (ms_impl s) = sdim Sp (x :: l).
Proof.
  intros HD Hn Hes H Hr.
  assert (H0 : dim_inv s0).
  { unfold new_msys, new_mcmc in Hn. destruct (new_data_buffer data size) as [b|] eqn:Hb; [|discriminate]. injection Hn as <-. unfold dim_inv. cbn [ms_impl mi_buffer ms_ready].
    destruct (new_data_buffer_repr size data) as (b' & Hb' & HB & Hp). rewrite Hb in Hb'. injection Hb' as <-.
    split; [exact (proj1 (brepr_data size 1 P (le_n 1) data b HB HD))|]. rewrite Hp. split; [constructor|discriminate]. }
  clear Hn. induction H as [s|s e o s1 es os s2 H1 H2 IH]; [destruct H0 as (_ & _ & H0); apply (H0 Hr)|].
  inversion Hes; subst. apply IH; try assumption. apply (dim_step _ _ _ _ H1); assumption.
Qed.
End Dim.

Lemma euclid_dim_main : forall F G I (N : Num F) pow log exp cpus (D : distrib (list F) F G) conf
  (initializer : I -> Z -> list (list F) -> outcome (list (option (list F)) * option init_error)) (d : nat),
  init_exact initializer ->
  (forall i k data c, Forall (fun x => length x = d) data -> initializer i k data = Ok (map Some c, None) -> Forall (fun x => length x = d) c) ->
  forall data size s0 es os s, Forall (fun x => length x = d) data -> new_msys N data size = Ok s0 ->
  Forall (fun e => match e with EvPush x _ => length x = d | _ => True end) es ->
  msteps N (euclid_space N) pow log exp cpus D conf initializer s0 es os s -> ms_ready s = true ->
  mi_dim (ms_impl s) = Z.of_nat d.
Proof.
  intros F G I N pow log exp cpus D conf initializer d Hex Hini data size s0 es os s HD Hn He H Hr.
  destruct (dim_main N (euclid_space N) pow log exp cpus D conf initializer _ Hex Hini data size s0 es os s HD Hn He H Hr) as (x & l & Hx & ->).
  inversion Hx; subst. reflexivity.
Qed.

Lemma ratio_main : forall G I pow cpus (D : distrib (list R) R G) conf
  (initializer : I -> Z -> list (list R) -> outcome (list (option (list R)) * option init_error)) (d : nat),
  init_exact initializer ->
  (forall i k data c, all_dim d data -> initializer i k data = Ok (map Some c, None) -> all_dim d c) ->
  forall data size s0 es os s, all_dim d data -> new_msys RNum data size = Ok s0 ->
  Forall (fun e => match e with EvPush x _ => length x = d | _ => True end) es ->
  msteps RNum euclid pow ln exp cpus D conf initializer s0 es os s -> ms_ready s = true ->
  forall c dr m' c' f, mcmc_iterate RNum euclid pow ln exp cpus D conf (ms_impl s) c dr = Ok (m', c', f) ->
  let cur := mi_current (ms_impl s) in let n := length (bdata (mi_buffer (ms_impl s))) in
  exists p, propose RNum euclid pow cpus D conf (ms_impl s) cur c (bdata (mi_buffer (ms_impl s))) (Z.of_nat n) dr = Ok p /\
  f_lambda f = (mp_amp conf * sqrt ((INR d + 3) / INR n))%R /\
  f_rho f = (exp (mp_amp conf * sqrt ((INR d + 3) / INR n) * (pr_loss cur - pr_loss p)
                  + INR d * (IZR (pr_k cur) - IZR (pr_k p)) * ln (2 * mp_b conf) + (pr_pdf cur - pr_pdf p)))%R.
Proof.
  intros G I pow cpus D conf initializer d Hex Hini data size s0 es os s HD Hn He H Hr c dr m' c' f Hi cur n.
  pose proof (euclid_dim_main R G I RNum pow ln exp cpus D conf initializer d Hex Hini data size s0 es os s HD Hn He H Hr) as Hd.
  destruct (acceptance_main _ _ euclid pow cpus D conf (ms_impl s) c dr m' c' f Hi) as (p & Hp & A1 & A2 & _).
  exists p. split; [exact Hp|]. rewrite Hd, <- INR_IZR_INZ in A1, A2. auto.
Qed.

(** ** A new algorithm, real vectors and the Dirac law: Batch is k-means *)
Section Dirac.
Context {I : Type} (pow : R -> R -> R) (cpus : Z) (conf : mparams R) (d : nat).
Context (initializer : I -> Z -> list (list R) -> outcome (list (option (list R)) * option init_error)) (to64 : R -> b64) (cf : cconf).
Context (Hpow : forall x, (0 <= x)%R -> pow x 2%R = (x * x)%R) (Hcpus : 0 < cpus) (Hamp : (0 <= mp_amp conf)%R) (Hnorm : mp_norm conf = 2%R).
Context (Hproba : mp_proba_k conf = [0; 1; 0]%R) (Hpar : mp_par conf = true -> 0 < mp_num_cpu conf).
Context (Hex : init_exact initializer) (Hk : mp_init_k conf <= mp_max_k conf).
Context (HinitP : forall i k data c, all_dim d data -> initializer i k data = Ok (map Some c, None) -> all_dim d c).
Context (elemts : list (list R)) (size : Z) (m0 : mimpl (list R) R) (Hm0 : new_mcmc RNum elemts size = Ok m0) (HE : all_dim d elemts).
Notation im := (with_draws (@proj1_sig (I * draws R unit) (fun d => in_unit (snd d))) (mcmc_implem RNum euclid pow ln exp cpus (dirac RNum) conf initializer to64)).
Notation msteps := (msteps RNum euclid pow ln exp cpus (dirac RNum) conf initializer).

Definition mnewly (xs : list (list R)) (q : seq_st (list (list R))) (m : mimpl (list R) R) : Prop :=
  q_status q = new_status Created /\ q_locked q = false /\ q_run q = NoRun /\ 0 <= m_new (q_model q) /\
  CtrlSpec.pushes (q_log q) = Z.of_nat (length xs) /\ mi_acc m = 0 /\
  brepr size (elemts ++ xs) (mi_buffer m) /\ bpipe (mi_buffer m) = [] /\
  exists es os, Forall (fun e => exists x alive, e = EvPush x alive) es /\ msteps (mkMsys m0 [] false) es os (mkMsys m [] false).

Lemma mnewly_push x t now xs q m : mnewly xs q m ->
  exists q' m', sys_act cf im (YCall (YPush x t) now) (q, m) = Some (q', m') /\ mnewly (xs ++ [x]) q' m'.
Proof.
  intros (H1 & H2 & H3 & H4 & H5 & H6 & H7 & H8 & es & os & H9 & H10). cbn [sys_act]. unfold sys_do. cbn [fst]. rewrite H2. cbn [sys_push im_push with_draws mcmc_implem].
  rewrite H1. change (st_alive (new_status Created)) with false.
  destruct (store_repr size (elemts ++ xs) (mi_buffer m) x H7) as (b' & S1 & S2 & S3).
  assert (Hp : buffer_push (mi_buffer m) x false = Some (Ok b')) by (unfold buffer_push; rewrite S1; reflexivity).
  rewrite Hp. cbn [lift]. unfold push_seq.
  cbn [q_event q_upd q_model q_status]. rewrite H1. unfold model_new_data. cbn [st_value new_status status_eqb andb model_figures m_new model_pushed q_model q_upd].
  destruct (Z.eqb_spec (m_new (q_model q) + 1) 0) as [X|X]; [exfalso; lia|]. cbn [lift]. unfold settle. cbn [q_event q_run q_upd]. rewrite H3.
  eexists _, (set_buffer m b'). split; [reflexivity|]. unfold mnewly. cbn [q_event q_upd q_status q_locked q_run q_model q_log m_new set_buffer mi_buffer mi_acc].
  split; [exact H1|]. split; [exact H2|]. split; [exact H3|]. split; [cbn [model_figures m_new]; lia|]. rewrite app_length, app_assoc, S3. cbn [length].
  unfold CtrlSpec.pushes in *. cbn [since_reset filter length] in *.
  split; [rewrite Nat2Z.inj_add; cbn; lia|]. split; [exact H6|]. split; [exact S2|]. split; [exact H8|].
  exists (es ++ [EvPush x false]), (os ++ [OutPush]). split; [apply Forall_app; split; [exact H9|repeat constructor; eauto]|].
  apply (msteps_snoc RNum euclid pow ln exp cpus (dirac RNum) conf initializer _ _ _ _ _ _ _ H10). apply (ms_push RNum euclid pow ln exp cpus (dirac RNum) conf initializer (mkMsys m [] false)). exact Hp.
Qed.

Lemma mnewly_all l : forall xs q m, mnewly xs q m ->
  exists q' m', sys_acts cf im (push_all l) (q, m) = Some (q', m') /\ mnewly (xs ++ elements_of l) q' m'.
Proof.
  induction l as [|[[x t] now] l IH]; intros xs q m H; cbn [push_all map elements_of sys_acts].
  - exists q, m. rewrite app_nil_r. auto.
  - cbn [fst snd]. destruct (mnewly_push x t now xs q m H) as (q1 & m1 & E1 & H1). rewrite E1.
    destruct (IH _ _ _ H1) as (q2 & m2 & E2 & H2). exists q2, m2. split; [exact E2|]. rewrite <- app_assoc in H2. exact H2.
Qed.

Lemma euclid_dist_pos x y : (0 <= sdist euclid x y)%R.
Proof.
  cbn [sdist euclid_space]. destruct (point_dist RNum x y) as [v|] eqn:H; [|cbn; lra].
  unfold point_dist in H. apply obind_ok in H. destruct H as (s & _ & [= <-]). apply sqrt_pos.
Qed.

Lemma mcmc_dirac_main l : all_dim d (elements_of l) -> only_budget cf -> cf_timeout cf = false ->
  Z.of_nat (length l) <= 2 ^ 53 -> budget cf (Z.of_nat (length l)) <= 2 ^ 53 ->
  exists q m data, sys_acts cf im (push_all l) (seq0, m0) = Some (q, m) /\
    (size <= 0 -> data = elemts ++ elements_of l) /\
    (0 < size -> rotation data (last_n (Z.to_nat size) (elemts ++ elements_of l))) /\
    forall dr c0, initializer (fst (proj1_sig dr)) (mp_init_k conf) data = Ok (map Some c0, None) ->
    forall start mid ps now,
      (forall q' m' e, sys_do cf im (YBatch dr start mid ps) now (q, m) = Some ((q', m'), e) ->
         e = None /\ q_status q' = new_status Finished /\ mi_acc m' = budget cf (Z.of_nat (length l)) /\
         exists c, m_centroids (q_model q') = Some c /\ iterations RNum euclid (Some cpus) data (Z.to_nat (budget cf (Z.of_nat (length l)))) c0 c) /\
      (ps <> [] -> budget cf (Z.of_nat (length l)) <= Z.of_nat (turns (mid ++ concat (map snd (removelast ps)))) ->
         sys_do cf im (YBatch dr start mid ps) now (q, m) <> None).
Proof.
  intros HL HB HT Hn Hb.
  assert (H0 : mnewly [] seq0 m0).
  { unfold new_mcmc in Hm0. destruct (new_data_buffer_repr size elemts) as (b0' & Hnb & Hr & Hp). rewrite Hnb in Hm0. injection Hm0 as Hm0'.
    unfold mnewly. cbn. rewrite app_nil_r, <- Hm0'. cbn. repeat (split; [first [reflexivity|assumption|lia]|]). exists [], []. split; constructor. }
  destruct (mnewly_all l [] seq0 m0 H0) as (q & m & Hs & (H1 & H2 & H3 & H4 & H5 & H6 & H7 & H8 & es & os & H9 & H10)). cbn [app] in *.
  assert (Len : length (elements_of l) = length l) by apply map_length. rewrite Len in *.
  destruct (buffer_apply_repr size _ (mi_buffer m) H7) as (b1 & B1 & B2 & _). rewrite H8, app_nil_r in B2.
  exists q, m, (bdata b1). split; [exact Hs|]. destruct (repr_data size _ (bdata b1) (bstrategy b1) B2) as [R1 R2].
  split; [exact R1|]. split; [intros X; apply (R2 X)|]. intros dr c0 Q start mid ps now.
  assert (Hdata : all_dim d (bdata b1)).
  { apply (brepr_data size 1 (fun v => length v = d) (le_n 1) (elemts ++ elements_of l) b1 B2). apply Forall_app. auto. }
  pose proof (HinitP _ _ _ _ Hdata Q) as Hc0.
  destruct (Hex _ _ _ _ Q) as (c0' & X & Lc & Hk1). apply map_Some_inj in X. subst c0'.
  destruct (loss_ok euclid pow conf Hpar c0 (bdata b1)) as (ls & Hls); [intros ->; cbn in Lc; lia|].
  assert (Hsome : somes (map Some c0) = Ok c0) by (clear; induction c0 as [|x c0 IH]; cbn; [reflexivity|rewrite IH; reflexivity]).
  assert (Hi : exists m1, mcmc_init RNum euclid pow (dirac RNum) conf initializer m (fst (proj1_sig dr)) = Ok (m1, map Some c0, None) /\ mi_buffer m1 = b1).
  { unfold mcmc_init. rewrite B1. cbn [obind]. rewrite Q. cbn [obind]. rewrite Hsome. cbn [obind]. rewrite Hls. cbn [obind]. rewrite proba_dirac. cbn [obind]. eexists. split; reflexivity. }
  destruct Hi as (m1 & Hi & Hbm).
  assert (Hx : pushes_only (fun v => length v = d) (push_all (D := {x : I * draws R unit | in_unit (snd x)}) l)).
  { intros x t n' Hin. apply in_map_iff in Hin. destruct Hin as ([[x' t'] n''] & X & Hin). injection X as <- <- <-.
    unfold all_dim in HL. rewrite Forall_forall in HL. apply HL. apply in_map_iff. exists (x', t', n''). auto. }
  pose proof (mcmc_batch_main euclid (fun v => length v = d) pow ln exp cpus (dirac RNum) conf initializer to64 cf (euclid_mean_space d) Hcpus euclid_dist_pos
    ltac:(intros g mu t HP; exists mu; auto) ltac:(intros; eexists; reflexivity)
    ltac:(rewrite Hproba; split; [reflexivity|repeat constructor; lra]) Hpar Hex Hk HinitP elemts size m0 (push_all l) q m (Z.of_nat (length l))
    HE Hm0 Hx Hs H2 HB HT ltac:(rewrite H1; cbn; symmetry; exact H5) Hn Hb dr start mid ps now) as HBt.
  cbv zeta in HBt. rewrite Hi in HBt. destruct HBt as [G1 G2]. split; [|exact G2]. intros q' m' e Hd.
  destruct (G1 q' m' e Hd) as (Y1 & Y2 & _ & _ & drs & os' & c & Y3 & Y4 & Y5 & Y6 & Y7 & _ & _ & Y8).
  split; [exact Y1|]. split; [exact Y2|].
  assert (Hns : new_msys RNum elemts size = Ok (mkMsys m0 [] false)) by (unfold new_msys; rewrite Hm0; reflexivity).
  destruct (dirac_kmeans_main pow cpus conf d I initializer Hpow Hcpus Hamp Hnorm Hproba Hpar Hex Hk elemts size _ es os (mkMsys m [] false) (fst (proj1_sig dr))
    (mkMsys m1 (map Some c0) true) c0 Hns H9 H10) with (drs := drs) as [_ G3].
  - apply (ms_init RNum euclid pow ln exp cpus (dirac RNum) conf initializer (mkMsys m [] false) _ m1 (map Some c0) None). exact Hi.
  - reflexivity.
  - exact Hc0.
  - cbn [ms_impl]. rewrite Hbm. exact Hdata.
  - eapply Forall_impl; [|exact Y4]. intros a (U1 & _ & _ & U2). split; [exact U1|lra].
  - destruct (G3 os' _ Y5) as (_ & A1 & cn & A2 & A3). cbn [ms_centroids] in A2. apply map_Some_inj in A2. subst cn.
    cbn [ms_impl] in A3. rewrite Hbm in A3. split; [rewrite Y8, H6, A1, Y3; lia|]. exists c. split; [exact Y7|].
    rewrite <- Y3, Nat2Z.id. exact A3.
Qed.
End Dirac.

(** ** Cases *)
(** The run of [start64]: three elements pushed, Init, Play, an accepted proposal and a rejected one. *)
Definition mcmc1 := mcmc_implem B64Num (euclid_space B64Num) (fun x _ => b64_mul x x) (fun x => x) (fun x => x) 2 (dirac B64Num) conf64 (use_given (euclid_space B64Num)) (fun x => x).
Definition mdraw (k u : b64) : unit * draws b64 unit := (tt, draw64 k u).
Definition mcmc_session : list (sys_action (list b64) (unit * draws b64 unit)) :=
  [YCall (YPush (v64 [0]) 1) 1; YCall (YPush (v64 [2]) 2) 2; YCall (YPush (v64 [10]) 3) 3; YCall (YPlay (mdraw quarter quarter)) 4;
   YProgress (STurn (mdraw (b64_div (b64_of_Z 3) (b64_of_Z 4)) (b64_of_Z 0)) 0 5); YProgress (STurn (mdraw quarter (b64_of_Z 0)) 0 6)].
Definition mcmc0 : mimpl (list b64) b64 :=
  match new_mcmc B64Num (@nil (list b64)) 0 with Ok m => m | Panic => mkMimpl (mkBuffer [] [] InfiniteSize) [] 0 quarter quarter quarter 0 0 (mkProposal 0 [] quarter quarter) end.
Definition show_mcmc (r : option (seq_st (list (list b64)) * mimpl (list b64) b64)) :=
  match r with
  | Some (q, m) => Some (q_status q, total_saved (q_log q), mi_acc m, mi_dim m, option_map (map (map show64)) (m_centroids (q_model q)))
  | None => None
  end.

Lemma dirac_case : exists m0 q m, new_mcmc RNum [[0]; [2]]%R 0 = Ok m0 /\
  sys_acts (mkCConf 3 0 0 false None None) (with_draws (@proj1_sig (unit * draws R unit) (fun d => in_unit (snd d)))
    (mcmc_implem RNum euclid (fun x _ => x * x)%R ln exp 2 (dirac RNum) confR (use_given euclid) (fun _ => quarter))) (push_all [([10]%R, 1, 1)]) (seq0, m0) = Some (q, m).
Proof.
  assert (Hm : exists m0, new_mcmc (E := list R) RNum [[0]; [2]]%R 0 = Ok m0) by (eexists; reflexivity). destruct Hm as (m0 & Hm).
  destruct (mcmc_dirac_main (I := unit) (fun x _ => x * x)%R 2 confR 1 (use_given euclid) (fun _ => quarter) (mkCConf 3 0 0 false None None) ltac:(reflexivity) ltac:(lia) ltac:(cbn; lra) eq_refl eq_refl
    ltac:(discriminate) (proj1 (initializers_exact RNum euclid)) ltac:(cbn; lia) (proj1 (initializers_kept RNum euclid (fun v => length v = 1%nat) (fun x H => H)))
    [[0]; [2]]%R 0 m0 Hm ltac:(repeat constructor) [([10]%R, 1, 1)] ltac:(repeat constructor) ltac:(split; [reflexivity|]; split; [cbn; lia|]; split; [cbn; lia|left; reflexivity]) eq_refl ltac:(cbn; lia) ltac:(vm_compute; discriminate))
    as (q & m & data & Hs & _). exists m0, q, m. auto.
Qed.

Lemma drawR_unit : in_unit drawR.
Proof. unfold in_unit, drawR. cbn. repeat split; lra. Qed.

Lemma dimension_case : exists s0 s2, new_msys RNum [[0]; [2]]%R 0 = Ok s0 /\ all_dim 1 [[0]; [2]]%R /\
  msteps RNum euclid (fun x _ => x * x)%R ln exp 2 (dirac RNum) confR (use_given euclid) s0 [EvPush [10]%R false; EvInit tt] [OutPush; OutInit None] s2 /\
  ms_ready s2 = true /\ mi_dim (ms_impl s2) = 1.
Proof.
  destruct startR as (s0 & s1 & s2 & H1 & H2 & H3 & H4 & _).
  assert (Hs : msteps RNum euclid (fun x _ => x * x)%R ln exp 2 (dirac RNum) confR (use_given euclid) s0 [EvPush [10]%R false; EvInit tt] [OutPush; OutInit None] s2)
    by (econstructor; [exact H2|]; econstructor; [exact H3|]; constructor).
  exists s0, s2. split; [exact H1|]. split; [repeat constructor|]. split; [exact Hs|]. split; [exact H4|].
  apply (euclid_dim_main _ _ _ RNum _ _ _ _ _ _ _ 1 (proj1 (initializers_exact RNum euclid)) (proj1 (initializers_kept RNum euclid (fun v => length v = 1%nat) (fun x H => H)))
      [[0]; [2]]%R 0 s0 [EvPush [10]%R false; EvInit tt] _ s2 ltac:(repeat constructor) H1 ltac:(repeat constructor) Hs H4).
Qed.
