(** C91-C93: the controller with MCMC, for one client. *)
From Coq Require Import List ZArith Lia Bool Reals.
From Verif Require Import Base.Go Base.Num Model.Clustering Model.Buffer Model.Euclid Model.Kmeans Model.KmeansInit Model.Mcmc
  Model.Status Model.Finish Model.CtrlLang Model.CtrlCode Model.CtrlSeq Model.System Model.SystemMcmc
  Spec.SpaceSpec Spec.RealSpec Spec.NearestSpec Spec.BufferSpec Spec.CtrlSpec Spec.CtrlSeqSpec Spec.McmcSpec Spec.SystemSpec
  Proofs.EuclidProofs Proofs.McmcProofs Proofs.McmcCases Proofs.CtrlSeqEx Proofs.SystemMcmc Proofs.SystemMcmcMain.
Import ListNotations.
Local Open Scope Z_scope.
Local Notation euclid := (euclid_space RNum).

(** Any calls of one client, any schedule of the run goroutine, any number type: the history is one of Model/Mcmc.v (C39-C43 apply). *)
Theorem C91_use : forall (E F G I : Type) (N : Num F) (Sp : Space E F) pow log exp cpus (D : distrib E F G) conf
  (initializer : I -> Z -> list E -> outcome (list (option E) * option init_error)) (to64 : F -> b64) (Dr : Type) (draw : Dr -> I * draws F G) cf (P : E -> Prop),
  init_exact initializer -> mp_init_k conf <= mp_max_k conf -> forall m0 elemts size xs q m,
  new_mcmc N elemts size = Ok m0 -> pushes_only P xs -> sys_acts cf (with_draws draw (mcmc_implem N Sp pow log exp cpus D conf initializer to64)) xs (seq0, m0) = Some (q, m) ->
  exists es os s, msteps N Sp pow log exp cpus D conf initializer (mkMsys m0 [] false) es os s /\ ms_impl s = m /\
    Forall (fun e => match e with EvPush x _ => P x | _ => True end) es /\
    pushes_in es = total_pushed (q_log q) /\ iterations_done os = total_saved (q_log q) /\
    mi_acc m = accepted N os /\ 0 <= mi_acc m <= total_saved (q_log q) /\
    (forall c, m_centroids (q_model q) = Some c -> ms_centroids s = map Some c) /\
    (st_alive (q_status q) = true -> ms_ready s = true /\ exists c, m_centroids (q_model q) = Some c /\
       c = pr_centers (mi_current m) /\ pr_k (mi_current m) = Z.of_nat (length c) /\
       1 <= Z.of_nat (length c) <= Z.min (mp_max_k conf) (Z.of_nat (length (bdata (mi_buffer m))))).
Proof. exact @mcmc_use. Qed.
Print Assumptions C91_use.

(** Exact arithmetic: while a run is alive an iteration neither panics nor returns an error. *)
Theorem C91_no_failure : forall (E G I : Type) (Sp : Space E R) (P : E -> Prop) pow log exp cpus (D : distrib E R G) conf
  (initializer : I -> Z -> list E -> outcome (list (option E) * option init_error)) (to64 : R -> b64) cf,
  mean_space Sp P -> 0 < cpus -> (forall x y, (0 <= sdist Sp x y)%R) ->
  (forall g mu t, P mu -> exists x, dsample D g mu t = Ok x /\ P x) ->
  (forall x mu t, P x -> P mu -> exists p, dpdf D x mu t = Ok p) ->
  length (mp_proba_k conf) = 3%nat /\ Forall (fun w => (0 <= w)%R) (mp_proba_k conf) ->
  (mp_par conf = true -> 0 < mp_num_cpu conf) ->
  init_exact initializer -> mp_init_k conf <= mp_max_k conf ->
  (forall i k data c, Forall P data -> initializer i k data = Ok (map Some c, None) -> Forall P c) ->
  forall (Dr : Type)  (draw : Dr -> I * draws R G) elemts size m0 xs q m,
  Forall P elemts -> new_mcmc RNum elemts size = Ok m0 -> pushes_only P xs ->
  sys_acts cf (with_draws draw (mcmc_implem RNum Sp pow log exp cpus D conf initializer to64)) xs (seq0, m0) = Some (q, m) -> st_alive (q_status q) = true ->
  (exists c, m_centroids (q_model q) = Some c /\ Forall P c) /\
  forall d, in_unit (snd (draw d)) -> exists m' c' f, im_iterate (with_draws draw (mcmc_implem RNum Sp pow log exp cpus D conf initializer to64)) d m (m_centroids (q_model q)) = (m', IterRes (Some c') (Some f) None).
Proof. exact @mcmc_iterates. Qed.
Print Assumptions C91_no_failure.

Theorem C91_initializers : forall (E F : Type) (N : Num F) (Sp : Space E F) (P : E -> Prop), (forall x, P x -> P (scopy Sp x)) ->
  (forall i k data c, Forall P data -> use_given Sp i k data = Ok (map Some c, None) -> Forall P c) /\
  (forall i k data c, Forall P data -> use_rand Sp i k data = Ok (map Some c, None) -> Forall P c) /\
  forall degree i k data c, Forall P data -> use_pp N Sp degree i k data = Ok (map Some c, None) -> Forall P c.
Proof. exact @initializers_kept. Qed.
Print Assumptions C91_initializers.

Example C91_case : mp_init_k conf64 <= mp_max_k conf64 /\ init_exact (use_given (E := list b64) (euclid_space B64Num)) /\
  new_mcmc B64Num (@nil (list b64)) 0 = Ok mcmc0 /\ pushes_only (fun _ => True) mcmc_session /\
  show_mcmc (sys_acts conf_free mcmc1 mcmc_session (seq0, mcmc0)) = Some (new_status Running, 2, 1, 1, Some [map show64 (v64 [1]); map show64 (v64 [10])]).
Proof.
  split; [discriminate|]. split; [apply (initializers_exact B64Num)|]. split; [reflexivity|]. split; [intros x t now _; exact I|].
  vm_compute. reflexivity.
Qed.

(** Batch from any reachable state (draws in the open unit interval). *)
Theorem C92_batch : forall (E G I : Type) (Sp : Space E R) (P : E -> Prop) pow log exp cpus (D : distrib E R G) conf
  (initializer : I -> Z -> list E -> outcome (list (option E) * option init_error)) (to64 : R -> b64) cf,
  mean_space Sp P -> 0 < cpus -> (forall x y, (0 <= sdist Sp x y)%R) ->
  (forall g mu t, P mu -> exists x, dsample D g mu t = Ok x /\ P x) ->
  (forall x mu t, P x -> P mu -> exists p, dpdf D x mu t = Ok p) ->
  length (mp_proba_k conf) = 3%nat /\ Forall (fun w => (0 <= w)%R) (mp_proba_k conf) ->
  (mp_par conf = true -> 0 < mp_num_cpu conf) ->
  init_exact initializer -> mp_init_k conf <= mp_max_k conf ->
  (forall i k data c, Forall P data -> initializer i k data = Ok (map Some c, None) -> Forall P c) ->
  forall elemts size m0 xs q m n,
  Forall P elemts -> new_mcmc RNum elemts size = Ok m0 -> pushes_only P xs ->
  sys_acts cf (with_draws (@proj1_sig _ (fun d => in_unit (snd d))) (mcmc_implem RNum Sp pow log exp cpus D conf initializer to64)) xs (seq0, m0) = Some (q, m) ->
  q_locked q = false -> only_budget cf -> cf_timeout cf = false ->
  n = (if status_eqb (st_value (q_status q)) Created then CtrlSpec.pushes (q_log q) else 0) -> n <= 2 ^ 53 -> budget cf n <= 2 ^ 53 ->
  forall d start mid ps now,
  let batch := sys_do cf (with_draws (@proj1_sig _ (fun d => in_unit (snd d))) (mcmc_implem RNum Sp pow log exp cpus D conf initializer to64)) (YBatch d start mid ps) now (q, m) in
  match mcmc_init RNum Sp pow D conf initializer m (fst (proj1_sig d)) with
  | Panic => batch = None
  | Ok (m1, cs, Some e) => exists q', batch = Some ((q', m1), Some (ErrImpl (error_code e))) /\ q_locked q' = true /\
      q_status q' = new_status_error (ErrImpl (error_code e)) /\ m_centroids (q_model q') = all_some cs
  | Ok (m1, cs, None) =>
      (forall q' m' e, batch = Some ((q', m'), e) ->
         e = None /\ q_status q' = new_status Finished /\ q_locked q' = false /\ iterations_saved (q_log q') = budget cf n /\
         exists drs os c, Z.of_nat (length drs) = budget cf n /\ Forall in_unit drs /\
           msteps RNum Sp pow log exp cpus D conf initializer (mkMsys m1 cs true) (map EvIterate drs) os (mkMsys m' (map Some c) true) /\ ~ In OutPanic os /\
           m_centroids (q_model q') = Some c /\ Forall P c /\
           1 <= Z.of_nat (length c) <= Z.min (mp_max_k conf) (Z.of_nat (length (bdata (mi_buffer m')))) /\
           mi_acc m' = mi_acc m + accepted RNum os) /\
      (ps <> [] -> budget cf n <= Z.of_nat (turns (mid ++ concat (map snd (removelast ps)))) -> batch <> None)
  end.
Proof. exact @mcmc_batch_main. Qed.
Print Assumptions C92_batch.

(** A new algorithm on real vectors with the Dirac law and a constant number of centers: Batch is that of k-means. *)
Theorem C92_kmeans : forall (I : Type) (pow : R -> R -> R) cpus conf d
  (initializer : I -> Z -> list (list R) -> outcome (list (option (list R)) * option init_error)) (to64 : R -> b64) cf,
  (forall x, (0 <= x)%R -> pow x 2%R = (x * x)%R) -> 0 < cpus -> (0 <= mp_amp conf)%R -> mp_norm conf = 2%R ->
  mp_proba_k conf = [0; 1; 0]%R -> (mp_par conf = true -> 0 < mp_num_cpu conf) ->
  init_exact initializer -> mp_init_k conf <= mp_max_k conf ->
  (forall i k data c, all_dim d data -> initializer i k data = Ok (map Some c, None) -> all_dim d c) ->
  forall elemts size m0, new_mcmc RNum elemts size = Ok m0 -> all_dim d elemts -> forall l,
  all_dim d (elements_of l) -> only_budget cf -> cf_timeout cf = false ->
  Z.of_nat (length l) <= 2 ^ 53 -> budget cf (Z.of_nat (length l)) <= 2 ^ 53 ->
  exists q m data, sys_acts cf (with_draws (@proj1_sig (I * draws R unit) (fun d => in_unit (snd d))) (mcmc_implem RNum euclid pow ln exp cpus (dirac RNum) conf initializer to64)) (push_all l) (seq0, m0) = Some (q, m) /\
    (size <= 0 -> data = elemts ++ elements_of l) /\
    (0 < size -> rotation data (last_n (Z.to_nat size) (elemts ++ elements_of l))) /\
    forall dr c0, initializer (fst (proj1_sig dr)) (mp_init_k conf) data = Ok (map Some c0, None) ->
    forall start mid ps now,
      (forall q' m' e, sys_do cf (with_draws (@proj1_sig (I * draws R unit) (fun d => in_unit (snd d))) (mcmc_implem RNum euclid pow ln exp cpus (dirac RNum) conf initializer to64)) (YBatch dr start mid ps) now (q, m) = Some ((q', m'), e) ->
         e = None /\ q_status q' = new_status Finished /\ mi_acc m' = budget cf (Z.of_nat (length l)) /\
         exists c, m_centroids (q_model q') = Some c /\ iterations RNum euclid (Some cpus) data (Z.to_nat (budget cf (Z.of_nat (length l)))) c0 c) /\
      (ps <> [] -> budget cf (Z.of_nat (length l)) <= Z.of_nat (turns (mid ++ concat (map snd (removelast ps)))) ->
         sys_do cf (with_draws (@proj1_sig (I * draws R unit) (fun d => in_unit (snd d))) (mcmc_implem RNum euclid pow ln exp cpus (dirac RNum) conf initializer to64)) (YBatch dr start mid ps) now (q, m) <> None).
Proof. exact @mcmc_dirac_main. Qed.
Print Assumptions C92_kmeans.

Example C92_case : in_unit drawR /\ mean_space euclid (fun v => length v = 1%nat) /\
  exists m0 q m, new_mcmc RNum [[0]; [2]]%R 0 = Ok m0 /\
  sys_acts (mkCConf 3 0 0 false None None) (with_draws (@proj1_sig (unit * draws R unit) (fun d => in_unit (snd d)))
    (mcmc_implem RNum euclid (fun x _ => x * x)%R ln exp 2 (dirac RNum) confR (use_given euclid) (fun _ => quarter))) (push_all [([10]%R, 1, 1)]) (seq0, m0) = Some (q, m).
Proof. split; [exact drawR_unit|]. split; [apply euclid_mean_space|]. exact dirac_case. Qed.

(** The dimension that the acceptance ratio uses is that of the vectors. *)
Theorem C93_dimension : forall F G I (N : Num F) pow log exp cpus (D : distrib (list F) F G) conf
  (initializer : I -> Z -> list (list F) -> outcome (list (option (list F)) * option init_error)) (d : nat),
  init_exact initializer ->
  (forall i k data c, Forall (fun x => length x = d) data -> initializer i k data = Ok (map Some c, None) -> Forall (fun x => length x = d) c) ->
  forall data size s0 es os s, Forall (fun x => length x = d) data -> new_msys N data size = Ok s0 ->
  Forall (fun e => match e with EvPush x _ => length x = d | _ => True end) es ->
  msteps N (euclid_space N) pow log exp cpus D conf initializer s0 es os s -> ms_ready s = true ->
  mi_dim (ms_impl s) = Z.of_nat d.
Proof. exact euclid_dim_main. Qed.
Print Assumptions C93_dimension.

Theorem C93_ratio : forall G I pow cpus (D : distrib (list R) R G) conf
  (initializer : I -> Z -> list (list R) -> outcome (list (option (list R)) * option init_error)) (d : nat),
  init_exact initializer ->
  (forall i k data c, all_dim d data -> initializer i k data = Ok (map Some c, None) -> all_dim d c) ->
  forall data size s0 es os s, all_dim d data -> new_msys RNum data size = Ok s0 ->
  Forall (fun e => match e with EvPush x _ => length x = d | _ => True end) es ->
  msteps RNum euclid pow ln exp cpus D conf initializer s0 es os s -> ms_ready s = true ->
  forall c dr m' c' f, mcmc_iterate RNum euclid pow ln exp cpus D conf (ms_impl s) c dr = Ok (m', c', f) ->
  let cur := mi_current (ms_impl s) in let n := length (bdata (mi_buffer (ms_impl s))) in
  exists p, propose RNum euclid pow cpus D conf (ms_impl s) cur c (bdata (mi_buffer (ms_impl s))) (Z.of_nat n) dr = Ok p /\
  f_lambda f = (mp_amp conf * sqrt ((INR d + 3) / INR n))%R /\
  f_rho f = (exp (mp_amp conf * sqrt ((INR d + 3) / INR n) * (pr_loss cur - pr_loss p)
                  + INR d * (IZR (pr_k cur) - IZR (pr_k p)) * ln (2 * mp_b conf) + (pr_pdf cur - pr_pdf p)))%R.
Proof. exact ratio_main. Qed.
Print Assumptions C93_ratio.

Example C93_case : exists s0 s2, new_msys RNum [[0]; [2]]%R 0 = Ok s0 /\ all_dim 1 [[0]; [2]]%R /\
  msteps RNum euclid (fun x _ => x * x)%R ln exp 2 (dirac RNum) confR (use_given euclid) s0 [EvPush [10]%R false; EvInit tt] [OutPush; OutInit None] s2 /\
  ms_ready s2 = true /\ mi_dim (ms_impl s2) = 1.
Proof. exact dimension_case. Qed.
