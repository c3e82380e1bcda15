(** C39-C45, C70-C74: MCMC. *)
From Coq Require Import List ZArith Bool Lia Reals Lra.
From Verif Require Import Base.Go Base.Num Model.Clustering Model.Par Model.Euclid Model.Buffer Model.Kmeans
  Model.KmeansInit Model.Mcmc Model.MultivT Model.LateDistrib
  Spec.ClusterSpec Spec.SpaceSpec Spec.RealSpec Spec.NearestSpec Spec.KmeansSpec Spec.McmcSpec Spec.MultivTSpec Spec.LateSpec
  Proofs.NumLaws Proofs.EuclidProofs Proofs.McmcProofs Proofs.McmcMain Proofs.McmcDirac Proofs.MultivTProofs Proofs.LateProofs Proofs.McmcCases.
Import ListNotations.
Local Open Scope Z_scope.
Local Notation euclid := (euclid_space RNum).
Local Notation stepR := (mstep RNum euclid (fun x _ => x * x)%R ln exp 2 (dirac RNum) confR (use_given euclid)).

Theorem C39_bounds : forall E F G I (N : Num F) (Sp : Space E F) pow log exp cpus (D : distrib E F G) conf
  (initializer : I -> Z -> list E -> outcome (list (option E) * option init_error)),
  init_exact initializer -> mp_init_k conf <= mp_max_k conf ->
  forall data frame_size s0 es os s,
  new_msys N data frame_size = Ok s0 ->
  msteps N Sp pow log exp cpus D conf initializer s0 es os s ->
  (ms_ready s = true -> 1 <= n_centroids s <= Z.min (mp_max_k conf) (data_size s)) /\
  forall dr o s', mstep N Sp pow log exp cpus D conf initializer s (EvIterate dr) o s' ->
    (exists u f, o = OutFigures u f /\ ms_ready s' = true /\
       1 <= n_centroids s' <= Z.min (mp_max_k conf) (data_size s') /\ Z.abs (n_centroids s' - n_centroids s) <= 1) \/
    (o = OutPanic /\ ms_ready s' = false).
Proof. exact bounds_main. Qed.
Print Assumptions C39_bounds.

(** The initializers of kmeans/init.go satisfy the hypothesis on initializers. *)
Theorem C39_initializers : forall E F (N : Num F) (Sp : Space E F), init_exact (use_given Sp) /\ init_exact (use_rand Sp) /\ forall degree, init_exact (use_pp N Sp degree).
Proof. exact @initializers_exact. Qed.
Print Assumptions C39_initializers.

Theorem C40_bookkeeping : forall E F G I (N : Num F) (Sp : Space E F) pow log exp cpus (D : distrib E F G) conf
  (initializer : I -> Z -> list E -> outcome (list (option E) * option init_error)),
  init_exact initializer -> mp_init_k conf <= mp_max_k conf ->
  forall data frame_size s0 es os s,
  new_msys N data frame_size = Ok s0 ->
  msteps N Sp pow log exp cpus D conf initializer s0 es os s ->
  (ms_ready s = true ->
     ms_centroids s = map Some (pr_centers (mi_current (ms_impl s))) /\
     pr_k (mi_current (ms_impl s)) = n_centroids s) /\
  (forall k c, store_get (mi_store (ms_impl s)) k = Some c -> Z.of_nat (length c) = k) /\
  mi_acc (ms_impl s) = accepted N os /\ accepted N os <= iterations_done os /\
  (forall before u f after, os = before ++ OutFigures u f :: after ->
     f_acceptations f = accepted N (before ++ [OutFigures u f])).
Proof. exact bookkeeping_main. Qed.
Print Assumptions C40_bookkeeping.

Example C39_case : mp_init_k conf64 <= mp_max_k conf64 /\
  init_exact (use_given (E := list b64) (euclid_space B64Num)) /\
  shown64 start64 = Some ([Some (map show64 (v64 [0]))], 0, 1, []) /\
  let r1 := next64 start64 (draw64 (b64_div (b64_of_Z 3) (b64_of_Z 4)) (b64_of_Z 0)) in
  shown64 r1 = Some ([Some (map show64 (v64 [1])); Some (map show64 (v64 [10]))], 1, 2, [2]) /\
  let r2 := next64 r1 (draw64 quarter (b64_of_Z 0)) in
  shown64 r2 = Some ([Some (map show64 (v64 [1])); Some (map show64 (v64 [10]))], 1, 2, [2]).
Proof.
  split; [discriminate|]. split; [apply (initializers_exact B64Num)|]. vm_compute. repeat split; reflexivity.
Qed.

Theorem C41_dirac : forall E I (Sp : Space E R) pow cpus conf
  (initializer : I -> Z -> list E -> outcome (list (option E) * option init_error)),
  init_exact initializer -> mp_init_k conf <= mp_max_k conf -> (0 <= mp_amp conf)%R ->
  forall data frame_size s0 es os s,
  new_msys RNum data frame_size = Ok s0 ->
  msteps RNum Sp pow ln exp cpus (dirac RNum) conf initializer s0 es os s ->
  forall dr c m' c' f p, (d_u dr < 1)%R -> ms_ready s = true -> ms_centroids s = map Some c ->
  let m := ms_impl s in
  mcmc_iterate RNum Sp pow ln exp cpus (dirac RNum) conf m c dr = Ok (m', c', f) ->
  propose RNum Sp pow cpus (dirac RNum) conf m (mi_current m) c (bdata (mi_buffer m)) (Z.of_nat (length (bdata (mi_buffer m)))) dr = Ok p ->
  pr_k p = pr_k (mi_current m) -> (pr_loss p <= pr_loss (mi_current m))%R ->
  c' = pr_centers p /\ mi_current m' = p.
Proof. exact dirac_main. Qed.
Print Assumptions C41_dirac.

(** Any number type: an accepted proposal becomes the current one and is stored. *)
Theorem C41_accepted : forall E F G (N : Num F) (Sp : Space E F) pow log exp cpus (D : distrib E F G) conf m c dr m' c' f,
  mcmc_iterate N Sp pow log exp cpus D conf m c dr = Ok (m', c', f) ->
  nltb N (d_u dr) (f_rho f) = true ->
  exists p, propose N Sp pow cpus D conf m (mi_current m) c (bdata (mi_buffer m)) (Z.of_nat (length (bdata (mi_buffer m)))) dr = Ok p /\
    c' = pr_centers p /\ mi_current m' = p /\ mi_acc m' = mi_acc m + 1 /\
    (forall k, store_get (mi_store m') k = if k =? Z.of_nat (length c') then Some c' else store_get (mi_store m) k) /\
    buffer_apply (mi_buffer m) = Ok (mi_buffer m').
Proof. exact accepted_main. Qed.
Print Assumptions C41_accepted.

Theorem C42_rejected : forall E F G (N : Num F) (Sp : Space E F) pow log exp cpus (D : distrib E F G) conf m c dr m' c' f,
  mcmc_iterate N Sp pow log exp cpus D conf m c dr = Ok (m', c', f) ->
  nltb N (d_u dr) (f_rho f) = false ->
  c' = c /\ mi_current m' = mi_current m /\ mi_store m' = mi_store m /\ mi_acc m' = mi_acc m /\
  buffer_apply (mi_buffer m) = Ok (mi_buffer m').
Proof. exact rejected_main. Qed.
Print Assumptions C42_rejected.

Theorem C43_store : forall E F (N : Num F) (Sp : Space E F) cpus s data k (c : list E) r del,
  (forall c', store_get s k = Some c' -> get_centers N Sp cpus s data k c r del = Ok (c', None)) /\
  (store_get s k = None ->
     (k = Z.of_nat (length c) -> get_centers N Sp cpus s data k c r del = Ok (c, None)) /\
     (k = Z.of_nat (length c) - 1 -> forall i, (i < length c)%nat -> del = Z.of_nat i ->
        get_centers N Sp cpus s data k c r del = Ok (map (scopy Sp) (without i c), None)) /\
     (k = Z.of_nat (length c) + 1 -> forall c' e, get_centers N Sp cpus s data k c r del = Ok (c', e) ->
        exists x, In x data /\ c' = map (scopy Sp) c ++ [scopy Sp x])).
Proof. exact store_main. Qed.
Print Assumptions C43_store.

(** In exact arithmetic the added element is on no center; an error means that every element is on a center. *)
Theorem C43_added_is_new : forall E (Sp : Space E R) cpus s data k (c : list E) r del,
  0 < cpus -> c <> [] -> data <> [] -> (forall x y, (0 <= sdist Sp x y)%R) -> (0 < r < 1)%R ->
  store_get s k = None -> k = Z.of_nat (length c) + 1 ->
  (exists x, In x data /\ (forall y, In y c -> (0 < sdist Sp x y)%R) /\
     get_centers RNum Sp cpus s data k c r del = Ok (map (scopy Sp) c ++ [scopy Sp x], None)) \/
  ((forall x, In x data -> exists y, In y c /\ sdist Sp x y = 0%R) /\
   exists c', get_centers RNum Sp cpus s data k c r del = Ok (c', Some ErrNullSet)).
Proof. exact add_main. Qed.
Print Assumptions C43_added_is_new.

Example C43_case : let sp := euclid_space B64Num in let c := [v64 [0]; v64 [10]] in
  let data := [v64 [0]; v64 [2]; v64 [10]] in
  let show r := match r with Ok (c, e) => Some (map (map show64) c, e) | Panic => None end in
  let half := b64_div (b64_of_Z 1) (b64_of_Z 2) in
  show (get_centers B64Num sp 2 [] data 3 c half 0) = Some (map (map show64) (c ++ [v64 [2]]), None) /\
  show (get_centers B64Num sp 2 [] data 1 c half 0) = Some (map (map show64) [v64 [10]], None) /\
  show (get_centers B64Num sp 2 [] data 1 c half 1) = Some (map (map show64) [v64 [0]], None) /\
  show (get_centers B64Num sp 2 [] data 2 c half 1) = Some (map (map show64) c, None) /\
  show (get_centers B64Num sp 2 [(1, [v64 [7]])] data 1 c half 1) = Some (map (map show64) [v64 [7]], None) /\
  match get_centers B64Num sp 2 [] [v64 [0]; v64 [10]] 3 c half 0 with Ok (_, Some ErrNullSet) => True | _ => False end.
Proof. vm_compute. repeat split; reflexivity. Qed.

Section Late.
Local Open Scope nat_scope.

Theorem C44_once : forall E Dist (s : lstate E Dist), lsteps late_start s ->
  length (l_built (s_late s)) <= 1 /\
  (builder_fine s -> length (l_started (s_late s)) <= 1) /\
  (forall g d, In g (s_gos s) -> g_pc g = Returned d -> l_built (s_late s) = [d]) /\
  (forall g, In g (s_gos s) -> g_pc g <> NilPanic).
Proof. exact late_main. Qed.
Print Assumptions C44_once.

(** A call that is not over can always be made to progress by some step. *)
Theorem C44_no_deadlock : forall E Dist (s : lstate E Dist) g, lsteps late_start s -> In g (s_gos s) ->
  (exists d, g_pc g = Returned d) \/ g_pc g = Crashed \/
  exists t h, nth_error (s_gos s) t = Some h /\
    forall build, exists l' p', go_step t (g_elemt h) build (s_late s) (g_pc h) = Some (l', p').
Proof. exact late_progress. Qed.
Print Assumptions C44_no_deadlock.

(** A builder that panics is called again by a later call. *)
Theorem C44_panicking_builder : forall E Dist (x : E) (d : Dist), exists s : lstate E Dist,
  lsteps late_start s /\ length (l_started (s_late s)) = 2.
Proof. exact late_panic_twice. Qed.
Print Assumptions C44_panicking_builder.

End Late.

(** Two calls: the second one waits for the lock, then uses what the first one built. *)
Example C44_case : exists s : lstate nat nat, lsteps late_start s /\ builder_fine s /\
  map g_pc (s_gos s) = [Returned 7%nat; Returned 7%nat] /\ l_started (s_late s) = [1%nat].
Proof.
  eexists. split; [|split; [|split]].
  - eapply lss_cons; [apply (ls_call _ 1%nat)|]. eapply lss_cons; [apply (ls_call _ 2%nat)|]. cbn.
    do 3 (eapply lss_cons; [eapply (ls_go _ 0%nat _ (Ok 7%nat)); reflexivity|]; cbn).
    eapply lss_cons; [eapply (ls_go _ 1%nat _ (Ok 8%nat)); reflexivity|]; cbn.
    do 5 (eapply lss_cons; [eapply (ls_go _ 0%nat _ (Ok 7%nat)); reflexivity|]; cbn).
    do 4 (eapply lss_cons; [eapply (ls_go _ 1%nat _ (Ok 8%nat)); reflexivity|]; cbn). apply lss_nil.
  - intros g [<-|[<-|[]]]; cbn; split; discriminate.
  - reflexivity.
  - reflexivity.
Qed.

Theorem C70_data_race_refuted : forall E Dist (x : E) (d : Dist), exists s : lstate E Dist, lsteps late_start s /\ data_race s.
Proof. exact late_race. Qed.
Print Assumptions C70_data_race_refuted.

(** The field d.distrib is never raced for; d.initialized is, by the one goroutine that sets it and by first checks, which
    then read false or true and in either case lead to C44. *)
Theorem C70_flag_partial : forall E Dist (s : lstate E Dist) t1 t2 g1 g2 f w, lsteps late_start s -> t1 <> t2 ->
  nth_error (s_gos s) t1 = Some g1 -> nth_error (s_gos s) t2 = Some g2 -> access (g_pc g1) = Some (f, true) -> access (g_pc g2) = Some (f, w) ->
  g_pc g1 = AtSet /\ g_pc g2 = AtCheck /\ l_initialized (s_late s) = false /\ l_owner (s_late s) = Some t1.
Proof. exact late_flag. Qed.
Print Assumptions C70_flag_partial.

Section Reals.
Local Open Scope R_scope.

Theorem C41_metropolis : forall E G (Sp : Space E R) pow cpus (D : distrib E R G) conf m c dr m' c' f,
  mcmc_iterate RNum Sp pow ln exp cpus D conf m c dr = Ok (m', c', f) ->
  exists p, propose RNum Sp pow cpus D conf m (mi_current m) c (bdata (mi_buffer m)) (Z.of_nat (length (bdata (mi_buffer m)))) dr = Ok p /\
  let cur := mi_current m in
  let lambda := mp_amp conf * sqrt ((IZR (mi_dim m) + 3) / INR (length (bdata (mi_buffer m)))) in
  let rho := exp (lambda * (pr_loss cur - pr_loss p)
                  + IZR (mi_dim m) * (IZR (pr_k cur) - IZR (pr_k p)) * ln (2 * mp_b conf)
                  + (pr_pdf cur - pr_pdf p)) in
  f_lambda f = lambda /\ f_rho f = rho /\
  (d_u dr < rho -> c' = pr_centers p /\ mi_current m' = p /\ mi_acc m' = (mi_acc m + 1)%Z) /\
  (rho <= d_u dr -> c' = c /\ mi_current m' = cur /\ mi_acc m' = mi_acc m).
Proof. exact acceptance_main. Qed.
Print Assumptions C41_metropolis.

Theorem C45_pdf : forall gamma dim nu m, new_multivt RNum ln gamma dim nu = Ok m -> 0 < mt_nu m ->
  forall time, (0 < time)%Z ->
  exists g : R -> R,
    (forall a b, 0 <= a -> a < b -> g b < g a) /\
    forall mu x, length mu = length x ->
      mt_pdf RNum ln PI m mu x time = Ok (g (sqdist mu x)) /\
      mt_pdf RNum ln PI m x mu time = mt_pdf RNum ln PI m mu x time /\
      exists top here, mt_pdf RNum ln PI m mu mu time = Ok top /\ mt_pdf RNum ln PI m mu x time = Ok here /\
        here <= top /\ (here = top <-> x = mu).
Proof. exact pdf_main. Qed.
Print Assumptions C45_pdf.

Theorem C71_density_refuted : ~ (forall gamma dim nu m, new_multivt RNum ln gamma dim nu = Ok m -> 0 < mt_nu m ->
  forall mu x time, length mu = length x -> (0 < time)%Z ->
  mt_pdf RNum ln PI m mu x time =
    Ok (t_logdensity (ln (gamma ((mt_nu m + IZR dim) / 2) / gamma (mt_nu m / 2))) (IZR dim) (mt_nu m)
          (1 / sqrt (20 * IZR time) * (1 / sqrt (20 * IZR time))) (sqdist mu x))).
Proof. exact pdf_not_sample_density. Qed.
Print Assumptions C71_density_refuted.

(** What Pdf computes: the density for the scale matrix 1/sqrt(20 time). *)
Theorem C71_pdf_value_partial : forall gamma dim nu m, new_multivt RNum ln gamma dim nu = Ok m -> 0 < mt_nu m ->
  forall mu x time, length mu = length x -> (0 < time)%Z ->
  mt_pdf RNum ln PI m mu x time =
    Ok (t_logdensity (ln (gamma ((mt_nu m + IZR dim) / 2) / gamma (mt_nu m / 2))) (IZR dim) (mt_nu m)
          (1 / sqrt (20 * IZR time)) (sqdist mu x)).
Proof. exact pdf_value. Qed.
Print Assumptions C71_pdf_value_partial.

(** What Sample draws: the center plus 1/sqrt(20 time) times a standard t vector, whose scale matrix is 1/(20 time). *)
Theorem C71_sample_value_partial : forall (m : multivt R) z mu time x, (0 < time)%Z -> mt_sample RNum m z mu time = Ok x ->
  length x = length (no_normal z) /\
  forall i, (i < length x)%nat ->
    nth i x 0 = nth i mu 0 + 1 / sqrt (20 * IZR time) * (nth i (no_normal z) 0 * sqrt (mt_nu m / no_chi2 z)).
Proof. exact sample_value. Qed.
Print Assumptions C71_sample_value_partial.

Theorem C74_pdf_term : forall gamma dim nu mt, new_multivt RNum ln gamma dim nu = Ok mt -> 0 < mt_nu mt ->
  forall time, (0 < time)%Z -> exists K,
  forall (Sp : Clustering.Space (list R) R) pow cpus conf m cur c data dr p,
  propose RNum Sp pow cpus (multivt_distrib RNum ln PI mt) conf m cur c data time dr = Ok p ->
  pr_pdf p = INR (length (pr_centers p)) * K.
Proof. exact pdf_term_main. Qed.
Print Assumptions C74_pdf_term.

Example C45_case : exists m, new_multivt RNum ln (fun _ => 1) 2 0 = Ok m /\ 0 < mt_nu m /\ mt_dim m = 2%Z /\
  length [1; 2] = length [3; 4] /\ exists x, mt_sample RNum m (mkNoise 3 [1; 0]) [1; 2] 5 = Ok x.
Proof.
  eexists. split; [reflexivity|]. cbn [mt_nu mt_dim]. unfold conf_nu. cbn [neqb RNum nof]. rewrite (proj2 (Reqb_true 0 0) eq_refl).
  split; [lra|]. split; [reflexivity|]. split; [reflexivity|]. eexists. reflexivity.
Qed.

End Reals.

Theorem C72_no_panic : forall E G I (Sp : Space E R) (P : E -> Prop) pow log exp cpus (D : distrib E R G) conf
  (initializer : I -> Z -> list E -> outcome (list (option E) * option init_error)),
  mean_space Sp P -> 0 < cpus -> (forall x y, (0 <= sdist Sp x y)%R) ->
  (forall g mu t, P mu -> exists x, dsample D g mu t = Ok x /\ P x) ->
  (forall x mu t, P x -> P mu -> exists p, dpdf D x mu t = Ok p) ->
  length (mp_proba_k conf) = 3%nat /\ Forall (fun w => (0 <= w)%R) (mp_proba_k conf) ->
  (mp_par conf = true -> 0 < mp_num_cpu conf) ->
  init_exact initializer -> mp_init_k conf <= mp_max_k conf ->
  (forall i k data c, Forall P data -> initializer i k data = Ok (map Some c, None) -> Forall P c) ->
  forall data frame_size s0 es os s, Forall P data ->
  new_msys RNum data frame_size = Ok s0 ->
  Forall (fun e => match e with EvPush x _ => P x | _ => True end) es ->
  msteps RNum Sp pow log exp cpus D conf initializer s0 es os s -> ms_ready s = true ->
  (exists c, ms_centroids s = map Some c /\ Forall P c) /\
  forall dr, (0 < d_k dr < 1)%R -> (0 < d_add dr < 1)%R -> (0 < d_add' dr < 1)%R ->
    (exists o s', mstep RNum Sp pow log exp cpus D conf initializer s (EvIterate dr) o s') /\
    forall o s', mstep RNum Sp pow log exp cpus D conf initializer s (EvIterate dr) o s' -> o <> OutPanic /\ ms_ready s' = true.
Proof. exact progress_main. Qed.
Print Assumptions C72_no_panic.

Theorem C73_kmeans : forall pow cpus conf d I
  (initializer : I -> Z -> list (list R) -> outcome (list (option (list R)) * option init_error)),
  (forall x, (0 <= x)%R -> pow x 2%R = (x * x)%R) -> 0 < cpus -> (0 <= mp_amp conf)%R -> mp_norm conf = 2%R ->
  mp_proba_k conf = [0; 1; 0]%R -> (mp_par conf = true -> 0 < mp_num_cpu conf) ->
  init_exact initializer -> mp_init_k conf <= mp_max_k conf ->
  forall data frame_size s0 es os0 s1 i s2 c,
  new_msys RNum data frame_size = Ok s0 ->
  Forall (fun e => exists x alive, e = EvPush x alive) es ->
  msteps RNum euclid pow ln exp cpus (dirac RNum) conf initializer s0 es os0 s1 ->
  mstep RNum euclid pow ln exp cpus (dirac RNum) conf initializer s1 (EvInit i) (OutInit None) s2 ->
  ms_centroids s2 = map Some c -> all_dim d c -> all_dim d (bdata (mi_buffer (ms_impl s2))) ->
  forall drs, Forall (fun dr => (0 < d_k dr < 1)%R /\ (d_u dr < 1)%R) drs ->
  (exists os s', msteps RNum euclid pow ln exp cpus (dirac RNum) conf initializer s2 (map EvIterate drs) os s') /\
  forall os s', msteps RNum euclid pow ln exp cpus (dirac RNum) conf initializer s2 (map EvIterate drs) os s' ->
    ~ In OutPanic os /\ accepted RNum os = Z.of_nat (length drs) /\
    exists cn, ms_centroids s' = map Some cn /\
      iterations RNum euclid (Some cpus) (bdata (mi_buffer (ms_impl s2))) (length drs) c cn.
Proof. exact dirac_kmeans_main. Qed.
Print Assumptions C73_kmeans.

Example C73_case : exists s0 s1 s2 s3 os,
  new_msys RNum [[0]; [2]]%R 0 = Ok s0 /\ stepR s0 (EvPush [10]%R false) OutPush s1 /\
  stepR s1 (EvInit tt) (OutInit None) s2 /\ ms_ready s2 = true /\ ms_centroids s2 = map Some [[0]%R] /\
  all_dim 1 [[0]%R] /\ all_dim 1 (bdata (mi_buffer (ms_impl s2))) /\
  (0 < d_k drawR < 1)%R /\ (0 < d_add drawR < 1)%R /\ (0 < d_add' drawR < 1)%R /\ (d_u drawR < 1)%R /\
  init_exact (use_given euclid) /\ mean_space euclid (fun v => length v = 1%nat) /\
  (forall x, (0 <= x)%R -> (fun x _ => x * x)%R x 2%R = (x * x)%R) /\
  msteps RNum euclid (fun x _ => x * x)%R ln exp 2 (dirac RNum) confR (use_given euclid) s2 [EvIterate drawR] os s3.
Proof.
  destruct startR as (s0 & s1 & s2 & H0 & H1 & H2 & H3 & H4 & H5).
  destruct (dirac_kmeans_main (fun x _ => x * x)%R 2 confR 1 unit (use_given euclid) ltac:(reflexivity) ltac:(lia) ltac:(cbn; lra) eq_refl eq_refl
     ltac:(discriminate) (proj1 (initializers_exact RNum euclid)) ltac:(cbn; lia) _ _ s0 [EvPush [10]%R false] [OutPush] s1 tt s2 [[0]%R] H0
     ltac:(repeat constructor; eauto) (mss_cons _ _ _ _ _ _ _ _ _ _ _ _ _ _ _ _ H1 (mss_nil _ _ _ _ _ _ _ _ _ _)) H2 H4
     ltac:(repeat constructor) ltac:(rewrite H5; repeat constructor) [drawR] ltac:(repeat constructor; cbn; lra)) as [(os & s3 & Hr) _].
  exists s0, s1, s2, s3, os. cbn [d_k d_add d_add' d_u drawR].
  repeat (split; [first [assumption | lra | reflexivity | apply (initializers_exact RNum euclid) | apply euclid_mean_space | rewrite H5; repeat constructor | repeat constructor]|]).
  exact Hr.
Qed.
