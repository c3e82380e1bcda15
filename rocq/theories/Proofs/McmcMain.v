(** Main results about the MCMC implementation: acceptance, center store, absence of panics. *)
From Coq Require Import List ZArith Lia Bool Reals Lra.
From Verif Require Import Base.Go Base.Num Model.Clustering Model.Par Model.Buffer Model.Kmeans
  Model.KmeansInit Model.Mcmc Spec.ClusterSpec Spec.SpaceSpec Spec.RealSpec Spec.McmcSpec
  Proofs.GoLemmas Proofs.NumLaws Proofs.ReduceProofs Proofs.ParReduceProofs Proofs.RealLemmas Proofs.BufferProofs Proofs.KmeansProofs
  Proofs.InitProofs Proofs.McmcProofs.
Import ListNotations.
Local Open Scope Z_scope.

(** ** C42 *)
Lemma rejected_main : forall E F G (N : Num F) (Sp : Space E F) pow log exp cpus (D : distrib E F G) conf m c dr m' c' f,
  mcmc_iterate N Sp pow log exp cpus D conf m c dr = Ok (m', c', f) ->
  nltb N (d_u dr) (f_rho f) = false ->
  c' = c /\ mi_current m' = mi_current m /\ mi_store m' = mi_store m /\ mi_acc m' = mi_acc m /\
  buffer_apply (mi_buffer m) = Ok (mi_buffer m').
Proof.
  intros E F G N Sp pow log exp cpus D conf m c dr m' c' f H Hu. unfold mcmc_iterate in H.
  apply obind_ok in H. destruct H as ([m1 c1] & Hd & H). apply obind_ok in H. destruct H as (b & Hb & [= <- <- <-]).
  unfold do_iter in Hd. apply obind_ok in Hd. destruct Hd as (p & Hp & Hd). unfold accept in Hd.
  destruct (accept_figures N log exp conf (mi_dim m) (mi_current m) p (slen (bdata (mi_buffer m)))) as [[lambda rho] rgibbs].
  destruct (nltb N (d_u dr) rho) eqn:Hr; injection Hd as <- <-; cbn in *; [congruence|]. auto.
Qed.

(** An accepted proposal becomes the current one. *)
Lemma accepted_main : forall E F G (N : Num F) (Sp : Space E F) pow log exp cpus (D : distrib E F G) conf m c dr m' c' f,
  mcmc_iterate N Sp pow log exp cpus D conf m c dr = Ok (m', c', f) ->
  nltb N (d_u dr) (f_rho f) = true ->
  exists p, propose N Sp pow cpus D conf m (mi_current m) c (bdata (mi_buffer m)) (Z.of_nat (length (bdata (mi_buffer m)))) dr = Ok p /\
    c' = pr_centers p /\ mi_current m' = p /\ mi_acc m' = mi_acc m + 1 /\
    (forall k, store_get (mi_store m') k = if k =? Z.of_nat (length c') then Some c' else store_get (mi_store m) k) /\
    buffer_apply (mi_buffer m) = Ok (mi_buffer m').
Proof.
  intros E F G N Sp pow log exp cpus D conf m c dr m' c' f H Hu. unfold mcmc_iterate in H.
  apply obind_ok in H. destruct H as ([m1 c1] & Hd & H). apply obind_ok in H. destruct H as (b & Hb & [= <- <- <-]).
  unfold do_iter in Hd. apply obind_ok in Hd. destruct Hd as (p & Hp & Hd). unfold accept in Hd.
  destruct (accept_figures N log exp conf (mi_dim m) (mi_current m) p (slen (bdata (mi_buffer m)))) as [[lambda rho] rgibbs].
  destruct (nltb N (d_u dr) rho) eqn:Hr; injection Hd as <- <-; cbn in *; [|congruence].
  exists p. split; [exact Hp|]. split; [reflexivity|]. split; [reflexivity|]. split; [reflexivity|]. split; [|exact Hb].
  intros k. unfold slen. rewrite Z.eqb_sym. reflexivity.
Qed.

Section Accept.
Local Open Scope R_scope.

(** ** C41 *)
Lemma acceptance_main : forall E G (Sp : Space E R) pow cpus (D : distrib E R G) conf m c dr m' c' f,
  mcmc_iterate RNum Sp pow ln exp cpus D conf m c dr = Ok (m', c', f) ->
  exists p, propose RNum Sp pow cpus D conf m (mi_current m) c (bdata (mi_buffer m)) (Z.of_nat (length (bdata (mi_buffer m)))) dr = Ok p /\
  let cur := mi_current m in
  let lambda := mp_amp conf * sqrt ((IZR (mi_dim m) + 3) / INR (length (bdata (mi_buffer m)))) in
  let rho := exp (lambda * (pr_loss cur - pr_loss p)
                  + IZR (mi_dim m) * (IZR (pr_k cur) - IZR (pr_k p)) * ln (2 * mp_b conf)
                  + (pr_pdf cur - pr_pdf p)) in
  f_lambda f = lambda /\ f_rho f = rho /\
  (d_u dr < rho -> c' = pr_centers p /\ mi_current m' = p /\ mi_acc m' = (mi_acc m + 1)%Z) /\
  (rho <= d_u dr -> c' = c /\ mi_current m' = cur /\ mi_acc m' = mi_acc m).
Proof.
  intros E G Sp pow cpus D conf m c dr m' c' f H. unfold mcmc_iterate in H.
  apply obind_ok in H. destruct H as ([m1 c1] & Hd & H). apply obind_ok in H. destruct H as (b & Hb & [= <- <- <-]).
  unfold do_iter in Hd. apply obind_ok in Hd. destruct Hd as (p & Hp & Hd). exists p. split; [exact Hp|].
  unfold accept in Hd. cbv zeta.
  set (lambda := mp_amp conf * sqrt ((IZR (mi_dim m) + 3) / INR (length (bdata (mi_buffer m))))).
  set (rho := exp (lambda * (pr_loss (mi_current m) - pr_loss p) + IZR (mi_dim m) * (IZR (pr_k (mi_current m)) - IZR (pr_k p)) * ln (2 * mp_b conf)
     + (pr_pdf (mi_current m) - pr_pdf p))).
  assert (HA : exists g, accept_figures RNum ln exp conf (mi_dim m) (mi_current m) p (slen (bdata (mi_buffer m))) = (lambda, rho, g)).
  { unfold accept_figures. cbn [RNum nof nadd nsub nmul ndiv nsqrt]. eexists. f_equal. f_equal.
    - unfold lambda, slen. rewrite <- INR_IZR_INZ, plus_IZR. reflexivity.
    - unfold rho, lambda, slen. rewrite <- INR_IZR_INZ, plus_IZR, mult_IZR, minus_IZR. f_equal. ring. }
  destruct HA as (g & HA). rewrite HA in Hd. cbn [nltb RNum] in Hd. destruct (Rltb (d_u dr) rho) eqn:Hr; injection Hd as <- <-; cbn.
  - apply Rltb_true in Hr. split; [reflexivity|]. split; [reflexivity|]. split; [auto|]. lra.
  - assert (Hn : ~ d_u dr < rho) by (intros Hl; apply Rltb_true in Hl; congruence).
    split; [reflexivity|]. split; [reflexivity|]. split; [lra|auto].
Qed.

Lemma proba_dirac_loop {E} (mu : list E) time : forall x i p, (i + length x <= length mu)%nat ->
  ofold (fun st v => let '(i, p) := st in let* m := sget mu i in let* d := dpdf (@dirac E R RNum) m v time in Ok (i + 1, nadd RNum p d)%Z)
    x (Z.of_nat i, p) = Ok (Z.of_nat (i + length x), p + INR (length x)).
Proof.
  induction x as [|v x IH]; intros i p Hl; cbn [ofold length] in *; [rewrite Nat.add_0_r; cbn; rewrite Rplus_0_r; reflexivity|].
  destruct (nth_error mu i) as [e|] eqn:He; [|apply nth_error_None in He; lia].
  rewrite sget_nat, He. cbn [obind dpdf dirac]. replace (Z.of_nat i + 1)%Z with (Z.of_nat (S i)) by lia.
  rewrite IH by lia. rewrite S_INR. cbn [nadd nof RNum]. f_equal. f_equal; [lia|]. lra.
Qed.

Lemma proba_dirac {E} (c : list E) time : proba RNum (dirac RNum) c c time = Ok (INR (length c)).
Proof.
  unfold proba. rewrite (proba_dirac_loop c time c 0 _ (le_n _)). cbn. f_equal. lra.
Qed.

End Accept.

Section Dirac.
Context {E I : Type} (Sp : Space E R).
Variables (pow : R -> R -> R) (cpus : Z) (conf : mparams R).
Variable initializer : I -> Z -> list E -> outcome (list (option E) * option init_error).

Definition pdf_ok (s : @msys E R) : Prop :=
  ms_ready s = true -> pr_pdf (mi_current (ms_impl s)) = INR (length (pr_centers (mi_current (ms_impl s)))).

Lemma dirac_step s e o s' : pdf_ok s -> mstep RNum Sp pow ln exp cpus (dirac RNum) conf initializer s e o s' -> pdf_ok s'.
Proof.
  intros Hs H. inversion H as [s0 x alive b Hb|s0 i m cs err Hi|s0 dr c m c' f Hrdy Hc Hi|s0 dr c Hrdy Hc Hi]; subst; clear H.
  - intros Hr. apply Hs. exact Hr.
  - unfold mcmc_init in Hi. apply obind_ok in Hi. destruct Hi as (b & Hb & Hi).
    apply obind_ok in Hi. destruct Hi as ([cs0 [e0|]] & Hini & Hi); [injection Hi as <- <- <-; discriminate|].
    apply obind_ok in Hi. destruct Hi as (c & Hso & Hi). apply obind_ok in Hi. destruct Hi as (l & _ & Hi).
    apply obind_ok in Hi. destruct Hi as (p & Hp & [= <- <- <-]). rewrite proba_dirac in Hp. injection Hp as <-. intros _. reflexivity.
  - intros _. cbn. specialize (Hs Hrdy). unfold mcmc_iterate in Hi. apply obind_ok in Hi. destruct Hi as ([m1 c1] & Hd & Hi).
    apply obind_ok in Hi. destruct Hi as (b & Hb & [= <- <- <-]). cbn. unfold do_iter in Hd.
    apply obind_ok in Hd. destruct Hd as (p & Hp & Hd). unfold accept in Hd.
    destruct (accept_figures _ _ _ _ _ _ _ _) as [[lambda rho] rgibbs].
    destruct (nltb RNum (d_u dr) rho); injection Hd as <- <-; cbn; [|exact Hs].
    unfold propose in Hp. apply obind_ok in Hp. destruct Hp as ([k c1] & Hk & Hp).
    apply obind_ok in Hp. destruct Hp as (c2 & _ & Hp). apply obind_ok in Hp. destruct Hp as (c3 & _ & Hp).
    apply obind_ok in Hp. destruct Hp as (l & _ & Hp). apply obind_ok in Hp. destruct Hp as (pdf & Hpdf & [= <-]). cbn.
    rewrite proba_dirac in Hpdf. congruence.
  - intros Hr. discriminate.
Qed.

Lemma dirac_steps s es os s' : pdf_ok s -> msteps RNum Sp pow ln exp cpus (dirac RNum) conf initializer s es os s' -> pdf_ok s'.
Proof. intros Hs H. induction H as [|s e o s1 es os s2 H1 H2 IH]; [exact Hs|]. apply IH. apply (dirac_step s e o); assumption. Qed.
End Dirac.

Lemma dirac_main : forall E I (Sp : Space E R) pow cpus conf
  (initializer : I -> Z -> list E -> outcome (list (option E) * option init_error)),
  init_exact initializer -> mp_init_k conf <= mp_max_k conf -> (0 <= mp_amp conf)%R ->
  forall data frame_size s0 es os s,
  new_msys RNum data frame_size = Ok s0 ->
  msteps RNum Sp pow ln exp cpus (dirac RNum) conf initializer s0 es os s ->
  forall dr c m' c' f p, (d_u dr < 1)%R -> ms_ready s = true -> ms_centroids s = map Some c ->
  let m := ms_impl s in
  mcmc_iterate RNum Sp pow ln exp cpus (dirac RNum) conf m c dr = Ok (m', c', f) ->
  propose RNum Sp pow cpus (dirac RNum) conf m (mi_current m) c (bdata (mi_buffer m)) (Z.of_nat (length (bdata (mi_buffer m)))) dr = Ok p ->
  pr_k p = pr_k (mi_current m) -> (pr_loss p <= pr_loss (mi_current m))%R ->
  c' = pr_centers p /\ mi_current m' = p.
Proof.
  intros E I Sp pow cpus conf ini Hex Hk Hamp data fs s0 es os s H0 H dr c m' c' f p Hu Hrdy Hc m Hit Hp Hpk Hloss.
  destruct (new_inv RNum conf _ _ _ H0) as (A1 & A2 & _).
  destruct (steps_inv RNum Sp pow ln exp cpus (dirac RNum) conf ini Hex Hk _ _ _ _ A1 A2 H) as (B1 & B2 & _).
  assert (Hpdf : pdf_ok s).
  { apply (dirac_steps Sp pow cpus conf ini s0 es os); [|exact H]. unfold new_msys in H0. apply obind_ok in H0.
    destruct H0 as (m0 & _ & [= <-]). intros Hr. discriminate. }
  destruct (B2 Hrdy) as (c0 & Hc0 & G1 & G2 & G3 & G4). rewrite Hc in Hc0. apply map_Some_inj in Hc0. subst c0.
  destruct (propose_k RNum Sp pow ln exp cpus (dirac RNum) conf _ _ _ _ _ _ _ B1 G2 G3 G4 Hp) as (P1 & _).
  destruct (acceptance_main E _ Sp pow cpus (dirac RNum) conf m c dr m' c' f Hit) as (p' & Hp' & Hall).
  fold m in Hp. rewrite Hp in Hp'. injection Hp' as <-. cbv zeta in Hall. destruct Hall as (_ & _ & Hacc & _).
  assert (Hpp : pr_pdf p = INR (length (pr_centers p))).
  { unfold propose in Hp. apply obind_ok in Hp. destruct Hp as ([k c1] & _ & Hp).
    apply obind_ok in Hp. destruct Hp as (c2 & _ & Hp). apply obind_ok in Hp. destruct Hp as (c3 & _ & Hp).
    apply obind_ok in Hp. destruct Hp as (l & _ & Hp). apply obind_ok in Hp. destruct Hp as (pdf & Hpd & [= <-]). cbn.
    rewrite proba_dirac in Hpd. congruence. }
  assert (Hlen : length (pr_centers p) = length (pr_centers (mi_current m))).
  { fold m in G1, G2. rewrite G1. unfold slen in *. lia. }
  destruct Hacc as (-> & -> & _); [|auto]. pose proof (Hpdf Hrdy) as Hq. fold m in Hq. rewrite Hpk, Hpp, Hq, Hlen.
  match goal with |- (_ < exp ?a)%R => replace a with (mp_amp conf * sqrt ((IZR (mi_dim m) + 3) / INR (length (bdata (mi_buffer m)))) * (pr_loss (mi_current m) - pr_loss p))%R by ring end.
  apply Rlt_le_trans with 1%R; [exact Hu|]. rewrite <- exp_0.
  match goal with |- (exp 0 <= exp ?a)%R => assert (Ha : (0 <= a)%R) end.
  { apply Rmult_le_pos; [|lra]. apply Rmult_le_pos; [exact Hamp|apply sqrt_pos]. }
  destruct Ha as [Ha|Ha]; [left; apply exp_increasing; exact Ha|right; rewrite <- Ha; reflexivity].
Qed.

(** ** C43 *)
Section Store.
Context {E F : Type} (N : Num F) (Sp : Space E F).

Lemma del_center_without (prev : list E) (del : nat) : (del < length prev)%nat ->
  del_center Sp prev (Z.of_nat del) = Ok (map (scopy Sp) (without del prev)).
Proof.
  intros Hd. unfold del_center, slen. destruct (Z.leb_spec (Z.of_nat (length prev)) 0); [lia|].
  assert (Hlen : length (without del prev) = (length prev - 1)%nat).
  { unfold without. rewrite app_length, firstn_length, skipn_length. lia. }
  assert (Hnth : forall i, (i < length prev - 1)%nat ->
    nth_error (without del prev) i = nth_error prev (if (i <? del)%nat then i else S i)).
  { intros i Hi. unfold without. destruct (Nat.ltb_spec i del).
    - rewrite nth_error_app1 by (rewrite firstn_length; lia). clear -H0. revert i prev H0. induction del as [|del IH]; intros [|i] [|a prev] H; cbn; try lia; auto. apply IH. lia.
    - rewrite nth_error_app2 by (rewrite firstn_length; lia). rewrite firstn_length. replace (Nat.min del (length prev)) with del by lia.
      replace (S i) with (S del + (i - del))%nat by lia. generalize (S del) (i - del)%nat. clear. intros n. revert prev. induction n as [|n IH]; intros [|a prev] k; cbn; auto. destruct k; reflexivity. }
  assert (Hom : forall s n (l : list E), length l = n -> (forall i, (i < n)%nat -> nth_error l i = nth_error prev (if (s + i <? del)%nat then s + i else S (s + i))%nat) ->
    omap (fun i => let* c := sget prev (if i <? Z.of_nat del then i else i + 1) in Ok (scopy Sp c)) (map Z.of_nat (seq s n)) = Ok (map (scopy Sp) l)).
  { clear. intros s n. revert s. induction n as [|n IH]; intros s [|x l] Hl H; try discriminate; [reflexivity|].
    cbn [seq map omap]. specialize (H 0%nat ltac:(lia)) as H0. rewrite Nat.add_0_r in H0. cbn [nth_error] in H0.
    assert (Hg : sget prev (if Z.of_nat s <? Z.of_nat del then Z.of_nat s else Z.of_nat s + 1) = Ok x).
    { destruct (Z.ltb_spec (Z.of_nat s) (Z.of_nat del)); destruct (Nat.ltb_spec s del); try lia.
      - rewrite sget_nat, <- H0. reflexivity.
      - replace (Z.of_nat s + 1) with (Z.of_nat (S s)) by lia. rewrite sget_nat, <- H0. reflexivity. }
    rewrite Hg. cbn [obind]. cbn in Hl. rewrite (IH (S s) l); [reflexivity|lia|]. intros i Hi.
    specialize (H (S i) ltac:(lia)). cbn [nth_error] in H. rewrite H. replace (s + S i)%nat with (S s + i)%nat by lia. reflexivity. }
  apply Hom; [exact Hlen|]. intros i Hi. rewrite Hnth by exact Hi. cbn. reflexivity.
Qed.

End Store.

Lemma store_main : forall E F (N : Num F) (Sp : Space E F) cpus s data k (c : list E) r del,
  (forall c', store_get s k = Some c' -> get_centers N Sp cpus s data k c r del = Ok (c', None)) /\
  (store_get s k = None ->
     (k = Z.of_nat (length c) -> get_centers N Sp cpus s data k c r del = Ok (c, None)) /\
     (k = Z.of_nat (length c) - 1 -> forall i, (i < length c)%nat -> del = Z.of_nat i ->
        get_centers N Sp cpus s data k c r del = Ok (map (scopy Sp) (without i c), None)) /\
     (k = Z.of_nat (length c) + 1 -> forall c' e, get_centers N Sp cpus s data k c r del = Ok (c', e) ->
        exists x, In x data /\ c' = map (scopy Sp) c ++ [scopy Sp x])).
Proof.
  intros E F N Sp cpus s data k c r del. unfold get_centers. split; [intros c' ->; reflexivity|]. intros ->.
  unfold gen_centers, slen. split; [|split].
  - intros ->. rewrite Z.ltb_irrefl. reflexivity.
  - intros -> i Hi ->. destruct (Z.ltb_spec (Z.of_nat (length c)) (Z.of_nat (length c) - 1)); [lia|].
    destruct (Z.ltb_spec (Z.of_nat (length c) - 1) (Z.of_nat (length c))); [|lia].
    rewrite del_center_without by exact Hi. reflexivity.
  - intros -> c' e. destruct (Z.ltb_spec (Z.of_nat (length c)) (Z.of_nat (length c) + 1)); [|lia].
    unfold add_center. intros Ha. apply obind_ok in Ha. destruct Ha as (ce & Hpp & [= <- _]).
    unfold pp_iter in Hpp. apply obind_ok in Hpp. destruct Hpp as (ld & _ & Hpp). apply obind_ok in Hpp. destruct Hpp as ([dr er] & _ & Hpp).
    apply obind_ok in Hpp. destruct Hpp as (x & Hx & [= <-]). apply sget_ok in Hx. destruct Hx as [_ Hx]. apply nth_error_In in Hx.
    exists x. split; [exact Hx|reflexivity].
Qed.

(** In exact arithmetic the added element is away from all the centers, and the only error is that
    every element is on a center. *)
Lemma add_main : forall E (Sp : Space E R) cpus s data k (c : list E) r del,
  0 < cpus -> c <> [] -> data <> [] -> (forall x y, (0 <= sdist Sp x y)%R) -> (0 < r < 1)%R ->
  store_get s k = None -> k = Z.of_nat (length c) + 1 ->
  (exists x, In x data /\ (forall y, In y c -> (0 < sdist Sp x y)%R) /\
     get_centers RNum Sp cpus s data k c r del = Ok (map (scopy Sp) c ++ [scopy Sp x], None)) \/
  ((forall x, In x data -> exists y, In y c /\ sdist Sp x y = 0%R) /\
   exists c', get_centers RNum Sp cpus s data k c r del = Ok (c', Some ErrNullSet)).
Proof.
  intros E Sp cpus s data k c r del Hcpu Hc Hda Hd Hr Hs ->. unfold get_centers. rewrite Hs. unfold gen_centers, slen.
  destruct (Z.ltb_spec (Z.of_nat (length c)) (Z.of_nat (length c) + 1)); [|lia]. unfold add_center.
  destruct (pp_iter_main Sp cpus c data r Hcpu Hc Hda Hd Hr) as [P1 P2].
  destruct (Classical_Prop.classic (forall x, In x data -> exists y, In y c /\ sdist Sp x y = 0%R)) as [Hall|Hn].
  - right. split; [exact Hall|]. destruct (P1 Hall) as (e & ->). cbn [obind fst snd]. eexists. reflexivity.
  - left. destruct P2 as (x & Hx & Hpp & Hpos).
    + apply Classical_Pred_Type.not_all_ex_not in Hn. destruct Hn as [x Hx]. exists x.
      apply Classical_Prop.imply_to_and in Hx. destruct Hx as [Hin Hno]. split; [exact Hin|]. intros y Hy H0. apply Hno. eauto.
    + exists x. split; [exact Hx|]. split; [exact Hpos|]. rewrite Hpp. reflexivity.
Qed.

(** ** C72: iterations do not panic *)
Section Progress.
Context {E G I : Type} (Sp : Space E R) (P : E -> Prop) (HM : mean_space Sp P).
Variables (pow : R -> R -> R) (log exp : R -> R) (cpus : Z) (D : distrib E R G) (conf : mparams R).
Variable initializer : I -> Z -> list E -> outcome (list (option E) * option init_error).
Hypothesis Hcpus : 0 < cpus.
Hypothesis Hdist : forall x y, (0 <= sdist Sp x y)%R.
Hypothesis Hsample : forall g mu t, P mu -> exists x, dsample D g mu t = Ok x /\ P x.
Hypothesis Hpdf : forall x mu t, P x -> P mu -> exists p, dpdf D x mu t = Ok p.
Hypothesis Hproba : length (mp_proba_k conf) = 3%nat /\ Forall (fun w => (0 <= w)%R) (mp_proba_k conf).
Hypothesis Hpar : mp_par conf = true -> 0 < mp_num_cpu conf.

Lemma next_k_ok k (data : list E) r : (0 < r < 1)%R -> exists k', next_k RNum conf k data r = Ok k'.
Proof.
  intros Hr. destruct Hproba as [Hl Hw]. unfold next_k.
  destruct (choice_main (mp_proba_k conf) r Hw Hr) as (C1 & C2 & _).
  destruct (Req_EM_T (rsum (mp_proba_k conf)) 0) as [H0|H0].
  - rewrite (proj1 C1 H0). eexists; reflexivity.
  - destruct (C2 H0) as (n & Hn & ->). cbn [obind fst]. rewrite Hl in Hn. destruct n as [|[|[|n]]]; [| | |lia]; eexists; reflexivity.
Qed.

Lemma get_centers_ok s data k c r del : (forall k c, store_get s k = Some c -> Forall P c) ->
  Forall P c -> Forall P data -> c <> [] -> data <> [] -> 1 <= k -> (0 < r < 1)%R ->
  exists c' e, get_centers RNum Sp cpus s data k c r del = Ok (c', e) /\ Forall P c'.
Proof.
  intros Hs Hc Hd Hcn Hdn Hk Hr. assert (Hcop : Forall P (map (scopy Sp) c)).
  { apply Forall_forall. intros y Hy. apply in_map_iff in Hy. destruct Hy as (x & <- & Hx). apply (ms_copy_closed HM). rewrite Forall_forall in Hc. auto. }
  unfold get_centers. destruct (store_get s k) as [c0|] eqn:Hg; [do 2 eexists; split; [reflexivity|]; apply (Hs _ _ Hg)|].
  unfold gen_centers. destruct (slen c <? k).
  - unfold add_center. assert (Hpp : exists x e, In x data /\ pp_iter RNum Sp cpus c data r = Ok (scopy Sp x, e)).
    { destruct (pp_iter_main Sp cpus c data r Hcpus Hcn Hdn Hdist Hr) as [P1 P2].
      destruct (Classical_Prop.classic (forall x, In x data -> exists y, In y c /\ sdist Sp x y = 0%R)) as [Hall|Hn].
      - destruct (P1 Hall) as (e & He). unfold pp_iter in He |- *. apply obind_ok in He. destruct He as (ld & -> & He).
        apply obind_ok in He. cbn [obind]. destruct He as ([dr er] & -> & He). apply obind_ok in He. cbn [obind]. destruct He as (x & Hx & He).
        rewrite Hx. cbn [obind]. exists x, er. split; [|reflexivity]. apply sget_ok in Hx. destruct Hx as [_ Hx]. apply (nth_error_In _ _ Hx).
      - destruct P2 as (x & Hx & Hpp & _); [|eauto]. apply Classical_Pred_Type.not_all_ex_not in Hn. destruct Hn as [x Hx]. exists x.
        apply Classical_Prop.imply_to_and in Hx. destruct Hx as [Hin Hno]. split; [exact Hin|]. intros y Hy H0. apply Hno. eauto. }
    destruct Hpp as (x & e & Hx & ->). cbn [obind fst snd]. do 2 eexists. split; [reflexivity|].
    apply Forall_app. split; [exact Hcop|]. constructor; [|constructor]. apply (ms_copy_closed HM). rewrite Forall_forall in Hd. auto.
  - destruct (k <? slen c) eqn:Hlt.
    + assert (Hom : exists c', del_center Sp c del = Ok c' /\ Forall P c').
      { unfold del_center, slen in *. apply Z.ltb_lt in Hlt. destruct (Z.leb_spec (Z.of_nat (length c)) 0); [lia|].
        assert (Hgen : forall l, (forall i, In i l -> 0 <= i < Z.of_nat (length c) - 1) -> exists c',
          omap (fun i => let* c0 := sget c (if i <? del then i else i + 1) in Ok (scopy Sp c0)) l = Ok c' /\ Forall P c').
        { clear -Hc HM. induction l as [|i l IH]; intros Hin; [eexists; split; [reflexivity|constructor]|]. cbn [omap].
          assert (Hi : 0 <= (if i <? del then i else i + 1) < Z.of_nat (length c)) by (specialize (Hin i (or_introl eq_refl)); destruct (i <? del); lia).
          destruct (sget c (if i <? del then i else i + 1)) as [x|] eqn:Hg; [|apply (proj1 (sget_panic _ _)) in Hg; unfold slen in Hg; lia].
          cbn [obind]. destruct IH as (c' & -> & HF); [intros j Hj; apply Hin; right; exact Hj|]. cbn [obind]. eexists. split; [reflexivity|].
          constructor; [|exact HF]. apply (ms_copy_closed HM). apply sget_ok in Hg. destruct Hg as [_ Hg]. apply nth_error_In in Hg. rewrite Forall_forall in Hc. auto. }
        apply Hgen. intros i Hi. apply in_map_iff in Hi. destruct Hi as (j & <- & Hj). apply in_seq in Hj. lia. }
      destruct Hom as (c' & -> & HF). cbn [obind]. eauto.
    + eauto.
Qed.

Lemma alter_ok time g : forall c i, Forall P c -> exists c', alter_loop D c time g i = Ok c' /\ Forall P c'.
Proof.
  induction c as [|x c IH]; intros i H; cbn [alter_loop]; [eauto|]. inversion H; subst.
  destruct (Hsample (g i) x time) as (y & -> & Hy); [assumption|]. cbn [obind].
  destruct (IH (S i)) as (c' & -> & Hc'); [assumption|]. cbn [obind]. eauto.
Qed.

Lemma proba_ok c time : Forall P c -> exists p, proba RNum D c c time = Ok p.
Proof.
  intros Hc. unfold proba.
  assert (Hgen : forall x i p, Forall P x -> (i + length x <= length c)%nat ->
    exists q, ofold (fun st v => let '(i, p) := st in let* m := sget c i in let* d := dpdf D m v time in Ok (i + 1, nadd RNum p d)%Z) x (Z.of_nat i, p) = Ok q).
  { induction x as [|v x IH]; intros i p Hx Hl; cbn [ofold]; [eauto|]. cbn [length] in Hl. inversion Hx; subst.
    destruct (nth_error c i) as [e|] eqn:He; [|apply nth_error_None in He; lia].
    rewrite sget_nat, He. cbn [obind]. rewrite Forall_forall in Hc.
    destruct (Hpdf e v time) as (d & ->); [apply Hc; apply (nth_error_In _ _ He)|assumption|]. cbn [obind].
    replace (Z.of_nat i + 1)%Z with (Z.of_nat (S i)) by lia. apply IH; [assumption|lia]. }
  destruct (Hgen c 0%nat (nof RNum 0) Hc (le_n _)) as ([i q] & Hq). cbn [Z.of_nat] in Hq. rewrite Hq. cbn. eauto.
Qed.

Lemma strategy_iter_ok c data : c <> [] -> Forall P c -> Forall P data ->
  exists c', strategy_iter RNum Sp cpus 1 c data = Ok c' /\ Forall P c' /\ length c' = length c.
Proof using HM Hcpus.
  clear Hproba.
  intros Hn Hc Hd. cbn [strategy_iter].
  destruct (par_iterate_lloyd RNum _ RNumOrd Sp P HM cpus c data Hn Hcpus Hd) as (c' & Hp & Hl & Hll).
  rewrite Hp. cbn [obind]. rewrite somes_map. cbn [obind]. exists c'. split; [reflexivity|]. split; [|exact Hl].
  apply Forall_forall. intros y Hy. apply In_nth_error in Hy. destruct Hy as [i Hi].
  assert (Hlt : (i < length c)%nat) by (rewrite <- Hl; apply nth_error_Some; congruence).
  destruct (nth_error c i) as [ci|] eqn:Hci; [|apply nth_error_None in Hci; lia].
  rewrite (Hll i ci Hci) in Hi. injection Hi as <-.
  destruct (dba Sp (members (fun x => fst (nearest RNum Sp c x)) i data)) as [m|] eqn:Hdb; cbn.
  - eapply (dba_closed Sp P HM); [|exact Hdb]. apply Forall_forall. intros x Hx. apply filter_In in Hx. rewrite Forall_forall in Hd. apply Hd. apply Hx.
  - rewrite Forall_forall in Hc. apply Hc. apply (nth_error_In _ _ Hci).
Qed.

Lemma loss_ok c data : c <> [] -> exists l, strategy_loss RNum Sp pow conf c data = Ok l.
Proof.
  intros Hc. unfold strategy_loss. pose proof (leb_m1_0 RNum _ RNumOrd) as Hm. destruct (mp_par conf) eqn:Hp.
  - unfold par_total_loss. destruct (par_reduce_loss_result RNum Sp pow Hm c data (mp_norm conf) (mp_num_cpu conf) Hc (Hpar eq_refl))
      as (ch & lo & ca & _ & _ & -> & _). cbn. eauto.
  - unfold total_loss. destruct (reduce_loss_result RNum Sp pow c data (mp_norm conf) Hc Hm) as (l & k & -> & _). cbn. eauto.
Qed.

Lemma propose_ok m c data time dr : (forall k c, store_get (mi_store m) k = Some c -> Forall P c) -> store_ok (mi_store m) ->
  Forall P c -> Forall P data -> pr_k (mi_current m) = slen c -> 1 <= slen c <= mp_max_k conf -> slen c <= slen data ->
  (0 < d_k dr < 1)%R -> (0 < d_add dr < 1)%R -> (0 < d_add' dr < 1)%R ->
  exists p, propose RNum Sp pow cpus D conf m (mi_current m) c data time dr = Ok p /\ Forall P (pr_centers p).
Proof.
  intros Hs Hso Hc Hd Hk Hb Hb2 R1 R2 R3. unfold slen in *.
  assert (Hcn : c <> []) by (intros ->; cbn in Hb; lia). assert (Hdn : data <> []) by (intros ->; cbn in Hb2; lia).
  assert (Hg : exists k c1, get_k_centers RNum Sp cpus conf m (mi_current m) c data dr = Ok (k, c1) /\ Forall P c1 /\ c1 <> []).
  { unfold get_k_centers. rewrite Hk. destruct (next_k_ok (Z.of_nat (length c)) data (d_k dr) R1) as (k & Hnk). rewrite Hnk. cbn [obind].
    destruct (next_k_bounds RNum pow ln ln conf _ _ _ _ Hb Hb2 Hnk) as (B1 & B2 & B3). 
    destruct (get_centers_ok (mi_store m) data k c (d_add dr) (d_del dr) Hs Hc Hd Hcn Hdn ltac:(lia) R2) as (c1 & e1 & Hg1 & HF1). rewrite Hg1. cbn [obind snd fst].
    pose proof (get_centers_length RNum Sp cpus _ _ _ _ _ _ _ _ Hso B3 Hg1) as Hl1. destruct e1 as [e1|].
    - destruct (get_centers_ok (mi_store m) data (Z.of_nat (length c)) c (d_add' dr) (d_del' dr) Hs Hc Hd Hcn Hdn ltac:(lia) R3) as (c2 & e2 & Hg2 & HF2). rewrite Hg2. cbn [obind fst].
      assert (Hl2 : slen c2 = Z.of_nat (length c)) by (apply (get_centers_length RNum Sp cpus _ _ _ _ _ _ _ _ Hso) in Hg2; [exact Hg2|unfold slen; lia]).
      do 2 eexists. split; [reflexivity|]. split; [exact HF2|]. intros ->. cbn in Hl2. lia.
    - do 2 eexists. split; [reflexivity|]. split; [exact HF1|]. intros ->. cbn in Hl1. lia. }
  destruct Hg as (k & c1 & Hg & HF & Hn1). unfold propose. rewrite Hg. cbn [obind].
  unfold alter. destruct (alter_ok time (d_sample dr) c1 0 HF) as (c2 & Ha & HF2). rewrite Ha. cbn [obind].
  assert (Hn2 : c2 <> []) by (intros ->; apply alter_length in Ha; destruct c1; [contradiction|discriminate]).
  destruct (strategy_iter_ok c2 data Hn2 HF2 Hd) as (c3 & -> & HF3 & Hl3). cbn [obind].
  assert (Hn3 : c3 <> []) by (intros ->; destruct c2; [contradiction|discriminate]).
  destruct (loss_ok c3 data Hn3) as (l & ->). cbn [obind]. destruct (proba_ok c3 time HF3) as (p & ->). cbn [obind]. eexists. split; [reflexivity|exact HF3].
Qed.

Hypothesis Hexact : init_exact initializer.
Hypothesis Hk : mp_init_k conf <= mp_max_k conf.
Hypothesis HinitP : forall i k data c, Forall P data -> initializer i k data = Ok (map Some c, None) -> Forall P c.

Definition event_ok (e : @mevent E R G I) : Prop := match e with EvPush x _ => P x | _ => True end.

Record full (s : @msys E R) : Prop := mkFull {
  fu_buffer : exists size all, brepr size all (mi_buffer (ms_impl s));
  fu_elements : all_elements P (ms_impl s);
  fu_store : store_ok (mi_store (ms_impl s));
  fu_ready : ready_ok conf s
}.

Lemma store_P (b : buffer E) x b' : Forall P (bdata b) -> P x -> store b x = Ok b' -> Forall P (bdata b') /\ bpipe b' = bpipe b.
Proof.
  intros Hd Hx. unfold store. intros H. apply obind_ok in H. destruct H as ([s data] & H & [= <-]). cbn. split; [|reflexivity].
  destruct (bstrategy b) as [size pos|]; cbn [strategy_push] in H.
  - destruct (_ <? slen (bdata b)).
    + apply obind_ok in H. destruct H as (d & Hs & [= _ <-]). unfold sset in Hs. destruct (_ <? 0); [discriminate|].
      destruct (Nat.ltb_spec (Z.to_nat (if pos =? size then 0 else pos)) (length (bdata b))); [|discriminate]. injection Hs as <-. rewrite upd_split by assumption.
      apply Forall_app. split.
      * apply Forall_forall. intros y Hy. rewrite Forall_forall in Hd. apply Hd. rewrite <- (firstn_skipn (Z.to_nat (if pos =? size then 0 else pos)) (bdata b)). apply in_or_app. left. exact Hy.
      * constructor; [exact Hx|]. apply Forall_forall. intros y Hy. rewrite Forall_forall in Hd. apply Hd.
        rewrite <- (firstn_skipn (S (Z.to_nat (if pos =? size then 0 else pos))) (bdata b)). apply in_or_app. right. exact Hy.
    + injection H as _ <-. apply Forall_app. auto.
  - injection H as _ <-. apply Forall_app. auto.
Qed.

Lemma apply_P (b b' : buffer E) : Forall P (bdata b) -> Forall P (bpipe b) -> buffer_apply b = Ok b' -> Forall P (bdata b') /\ Forall P (bpipe b').
Proof.
  intros Hd Hp H. unfold buffer_apply in H. rewrite Forall_forall in Hp.
  apply (ofold_inv _ (fun b1 => Forall P (bdata b1) /\ Forall P (bpipe b1))) in H; [exact H|split; [exact Hd|constructor]|].
  intros s x s' [H1 H2] Hx Hs. destruct (store_P _ _ _ H1 (Hp x Hx) Hs) as [K1 K2]. rewrite K2. auto.
Qed.

Lemma iterate_ok s c dr : full s -> ms_ready s = true -> ms_centroids s = map Some c ->
  (0 < d_k dr < 1)%R -> (0 < d_add dr < 1)%R -> (0 < d_add' dr < 1)%R ->
  exists m' c' f, mcmc_iterate RNum Sp pow log exp cpus D conf (ms_impl s) c dr = Ok (m', c', f).
Proof.
  intros [(size & all & HB) HE HS HR] Hrdy Hc R1 R2 R3. destruct (HR Hrdy) as (c0 & Hc0 & G1 & G2 & G3 & G4).
  rewrite Hc in Hc0. apply map_Some_inj in Hc0. subst c0. destruct HE as (E1 & E2 & E3 & E4).
  unfold mcmc_iterate, do_iter.
  destruct (propose_ok (ms_impl s) c (bdata (mi_buffer (ms_impl s))) (slen (bdata (mi_buffer (ms_impl s)))) dr E4 HS
    (eq_ind _ (Forall P) E3 _ G1) E1 G2 G3 G4 R1 R2 R3) as (p & -> & Hp). cbn [obind].
  destruct (accept_figures _ _ _ _ _ _ _ _) as [[lambda rho] rgibbs]. destruct (buffer_apply_repr _ _ _ HB) as (b & Hb & _).
  destruct (accept _ _ _ _ _ _ _ _ _); cbn; rewrite Hb; cbn; do 3 eexists; reflexivity.
Qed.

Lemma full_step s e o s' : full s -> event_ok e -> mstep RNum Sp pow log exp cpus D conf initializer s e o s' -> full s'.
Proof.
  intros [(size & all & HB) HE HS HR] He H.
  destruct (step_inv RNum Sp pow log exp cpus D conf initializer Hexact Hk s e o s' HS HR H) as (S1 & S2 & _).
  destruct HE as (E1 & E2 & E3 & E4).
  assert (Hgoal : (exists size all, brepr size all (mi_buffer (ms_impl s'))) /\ all_elements P (ms_impl s')).
  2: { destruct Hgoal. constructor; assumption. }
  inversion H as [s0 x alive b Hb|s0 i m cs err Hi|s0 dr c m c' f Hrdy Hc Hi|s0 dr c Hrdy Hc Hi]; subst; clear H; cbn in *.
  - unfold buffer_push in Hb. destruct alive.
    + destruct (_ <? _); [|discriminate]. injection Hb as <-. split; [exists size, all; exact HB|]. unfold all_elements. cbn.
      split; [exact E1|]. split; [apply Forall_app; auto|]. auto.
    + injection Hb as Hb. destruct (store_repr size all _ x HB) as (b' & Hb' & HB' & _). rewrite Hb in Hb'. injection Hb' as <-.
      split; [eauto|]. destruct (store_P _ _ _ E1 He Hb) as [K1 K2]. unfold all_elements. cbn. rewrite K2. auto.
  - unfold mcmc_init in Hi. apply obind_ok in Hi. destruct Hi as (b & Hb & Hi).
    destruct (buffer_apply_repr size all _ HB) as (b' & Hb' & HB' & _). rewrite Hb in Hb'. injection Hb' as <-.
    destruct (apply_P _ _ E1 E2 Hb) as [K1 K2].
    apply obind_ok in Hi. destruct Hi as ([cs0 [e0|]] & Hini & Hi).
    + injection Hi as <- <- <-. cbn. split; [eauto|]. unfold all_elements. cbn. auto.
    + apply obind_ok in Hi. destruct Hi as (c & Hso & Hi). apply obind_ok in Hi. destruct Hi as (l & _ & Hi).
      apply obind_ok in Hi. destruct Hi as (p & Hp & [= <- <- <-]). cbn. split; [eauto|]. unfold all_elements. cbn.
      apply somes_ok in Hso. subst cs0. split; [exact K1|]. split; [exact K2|]. split; [apply (HinitP _ _ _ _ K1 Hini)|exact E4].
  - destruct (HR Hrdy) as (c0 & Hc0 & G1 & G2 & G3 & G4). rewrite Hc in Hc0. apply map_Some_inj in Hc0. subst c0.
    unfold mcmc_iterate in Hi. apply obind_ok in Hi. destruct Hi as ([m1 c1] & Hd & Hi).
    apply obind_ok in Hi. destruct Hi as (b & Hb & [= <- <- <-]). unfold do_iter in Hd. apply obind_ok in Hd. destruct Hd as (p & Hp & Hd).
    assert (HFp : Forall P (pr_centers p)).
    { revert Hp. clear -Hc HM Hsample E1 E3 E4 G1 G3 G4 Hcpus HS G2. intros Hp. unfold propose in Hp. apply obind_ok in Hp. destruct Hp as ([k c1] & Hgk & Hp).
      apply obind_ok in Hp. destruct Hp as (c2 & Ha & Hp). apply obind_ok in Hp. destruct Hp as (c3 & Hst & Hp).
      apply obind_ok in Hp. destruct Hp as (l & _ & Hp). apply obind_ok in Hp. destruct Hp as (pdf & _ & [= <-]). cbn.
      assert (Hc1 : Forall P c1 /\ c1 <> []).
      { assert (HFc : Forall P c) by (rewrite <- G1; exact E3).
        assert (Hget : forall k r del c' e, Z.abs (k - slen c) <= 1 -> 1 <= k -> get_centers RNum Sp cpus (mi_store (ms_impl s)) (bdata (mi_buffer (ms_impl s))) k c r del = Ok (c', e) -> Forall P c' /\ c' <> []).
        { intros k0 r del c' e Hab Hk1 Hg. split.
          - unfold get_centers in Hg. destruct (store_get (mi_store (ms_impl s)) k0) as [c4|] eqn:Hsg; [injection Hg as <- _; apply (E4 _ _ Hsg)|].
            assert (Hcop : Forall P (map (scopy Sp) c)).
            { apply Forall_forall. intros y Hy. apply in_map_iff in Hy. destruct Hy as (x & <- & Hx). apply (ms_copy_closed HM). rewrite Forall_forall in HFc. auto. }
            unfold gen_centers in Hg. destruct (slen c <? k0).
            + unfold add_center in Hg. apply obind_ok in Hg. destruct Hg as (ce & Hpp & [= <- _]).
              unfold pp_iter in Hpp. apply obind_ok in Hpp. destruct Hpp as (ld & _ & Hpp). apply obind_ok in Hpp. destruct Hpp as ([dr0 er] & _ & Hpp).
              apply obind_ok in Hpp. destruct Hpp as (x & Hx & [= <-]). apply sget_ok in Hx. destruct Hx as [_ Hx]. apply nth_error_In in Hx.
              apply Forall_app. split; [exact Hcop|]. constructor; [|constructor]. cbn. apply (ms_copy_closed HM). rewrite Forall_forall in E1. auto.
            + destruct (k0 <? slen c).
              * apply obind_ok in Hg. destruct Hg as (c5 & Hdc & [= <- _]). unfold del_center in Hdc. destruct (_ <=? 0); [discriminate|].
                apply omap_ok_inv in Hdc. clear -Hdc HFc HM. induction Hdc as [|i y is ys Hy _ IH]; constructor; [|exact IH].
                apply obind_ok in Hy. destruct Hy as (x & Hx & [= <-]). apply sget_ok in Hx. destruct Hx as [_ Hx]. apply nth_error_In in Hx.
                apply (ms_copy_closed HM). rewrite Forall_forall in HFc. auto.
              * injection Hg as <- _. exact HFc.
          - apply (get_centers_length RNum Sp cpus _ _ _ _ _ _ _ _ HS Hab) in Hg. intros ->. cbn in Hg. lia. }
        unfold get_k_centers in Hgk. apply obind_ok in Hgk. destruct Hgk as (k0 & Hnk & Hgk). rewrite G2 in *.
        destruct (next_k_bounds RNum pow ln ln conf _ _ _ _ G3 G4 Hnk) as (B1 & B2 & B3).
        apply obind_ok in Hgk. destruct Hgk as ([c4 [e4|]] & Hg4 & Hgk); cbn [snd fst] in Hgk.
        - apply obind_ok in Hgk. destruct Hgk as ([c5 e5] & Hg5 & [= _ <-]). cbn. eapply Hget; [ | |exact Hg5]; lia.
        - injection Hgk as _ <-. eapply Hget; [exact B3| |exact Hg4]; lia. }
      destruct Hc1 as [HF1 Hn1].
      assert (HF2 : Forall P c2).
      { clear Hst. revert Ha. unfold alter. generalize 0%nat. clear Hgk Hn1. revert c2 HF1. clear -Hsample. induction c1 as [|x c1 IH]; intros c2 HF i Ha; cbn [alter_loop] in Ha; [injection Ha as <-; constructor|].
        inversion HF; subst. apply obind_ok in Ha. destruct Ha as (y & Hy & Ha). apply obind_ok in Ha. destruct Ha as (ys & Hys & [= <-]).
        destruct (Hsample (d_sample dr i) x (slen (bdata (mi_buffer (ms_impl s))))) as (y' & Hy' & HP); [assumption|]. rewrite Hy in Hy'. injection Hy' as <-.
        constructor; [exact HP|]. eapply IH; eauto. }
      assert (Hn2 : c2 <> []) by (intros ->; apply alter_length in Ha; destruct c1; [contradiction|discriminate]).
      destruct (strategy_iter_ok c2 _ Hn2 HF2 E1) as (c3' & Hst' & HF3 & _). rewrite Hst in Hst'. injection Hst' as <-. exact HF3. }
    unfold accept in Hd. destruct (accept_figures _ _ _ _ _ _ _ _) as [[lambda rho] rgibbs].
    destruct (nltb RNum (d_u dr) rho); injection Hd as <- <-; cbn in *;
      destruct (buffer_apply_repr size all _ HB) as (b' & Hb' & HB' & _); rewrite Hb in Hb'; injection Hb' as <-;
      destruct (apply_P _ _ E1 E2 Hb) as [K1 K2]; (split; [eauto|]); unfold all_elements; cbn.
    + split; [exact K1|]. split; [exact K2|]. split; [exact HFp|]. intros k c0. unfold slen. destruct (_ =? k); [intros [= <-]; exact HFp|apply E4].
    + auto.
  - split; [eauto|]. unfold all_elements. auto.
Qed.

Lemma full_steps s es os s' : full s -> Forall event_ok es -> msteps RNum Sp pow log exp cpus D conf initializer s es os s' -> full s'.
Proof.
  intros Hs He H. revert Hs He. induction H as [|s e o s1 es os s2 H1 H2 IH]; intros Hs He; [exact Hs|].
  inversion He; subst. apply IH; [|assumption]. apply (full_step s e o); assumption.
Qed.

Lemma full_new data size s : Forall P data -> new_msys RNum data size = Ok s -> full s.
Proof.
  intros Hd H. destruct (new_inv RNum conf _ _ _ H) as (A1 & A2 & _). unfold new_msys, new_mcmc in H.
  destruct (new_data_buffer_repr size data) as (b & Hb & HB & Hp). rewrite Hb in H. injection H as <-.
  constructor; [cbn; eauto| |exact A1|exact A2]. unfold all_elements. cbn. rewrite Hp. split; [|split; [constructor|split; [constructor|discriminate]]].
  unfold new_data_buffer in Hb. destruct (_ <? size); [injection Hb as <-; exact Hd|]. destruct (0 <? size); [|injection Hb as <-; exact Hd].
  apply obind_ok in Hb. destruct Hb as (t & Ht & [= <-]). cbn. unfold sslice in Ht. destruct (_ || _)%bool; [discriminate|]. injection Ht as <-.
  apply Forall_forall. intros y Hy. rewrite Forall_forall in Hd. apply Hd. apply In_nth_error in Hy. destruct Hy as [i Hi].
  assert (Hin : In y (skipn (Z.to_nat (slen data - size)) data)).
  { eapply nth_error_In. rewrite <- (firstn_skipn (Z.to_nat (slen data - (slen data - size))) (skipn (Z.to_nat (slen data - size)) data)).
    rewrite nth_error_app1; [exact Hi|]. apply nth_error_Some. congruence. }
  rewrite <- (firstn_skipn (Z.to_nat (slen data - size)) data). apply in_or_app. right. exact Hin.
Qed.

End Progress.

Lemma progress_main : forall E G I (Sp : Space E R) (P : E -> Prop) pow log exp cpus (D : distrib E R G) conf
  (initializer : I -> Z -> list E -> outcome (list (option E) * option init_error)),
  mean_space Sp P -> 0 < cpus -> (forall x y, (0 <= sdist Sp x y)%R) ->
  (forall g mu t, P mu -> exists x, dsample D g mu t = Ok x /\ P x) ->
  (forall x mu t, P x -> P mu -> exists p, dpdf D x mu t = Ok p) ->
  length (mp_proba_k conf) = 3%nat /\ Forall (fun w => (0 <= w)%R) (mp_proba_k conf) ->
  (mp_par conf = true -> 0 < mp_num_cpu conf) ->
  init_exact initializer -> mp_init_k conf <= mp_max_k conf ->
  (forall i k data c, Forall P data -> initializer i k data = Ok (map Some c, None) -> Forall P c) ->
  forall data frame_size s0 es os s, Forall P data ->
  new_msys RNum data frame_size = Ok s0 ->
  Forall (fun e => match e with EvPush x _ => P x | _ => True end) es ->
  msteps RNum Sp pow log exp cpus D conf initializer s0 es os s -> ms_ready s = true ->
  (exists c, ms_centroids s = map Some c /\ Forall P c) /\
  forall dr, (0 < d_k dr < 1)%R -> (0 < d_add dr < 1)%R -> (0 < d_add' dr < 1)%R ->
    (exists o s', mstep RNum Sp pow log exp cpus D conf initializer s (EvIterate dr) o s') /\
    forall o s', mstep RNum Sp pow log exp cpus D conf initializer s (EvIterate dr) o s' -> o <> OutPanic /\ ms_ready s' = true.
Proof.
  intros E G I Sp P pow log exp cpus D conf ini HM Hcpu Hd Hsa Hpd Hpr Hpar Hex Hk HiP data fs s0 es os s HP H0 Hes H Hrdy.
  pose proof (full_new P conf data fs s0 HP H0) as F0.
  pose proof (full_steps Sp P HM pow log exp cpus D conf ini Hcpu Hsa Hex Hk HiP s0 es os s F0 Hes H) as Fs.
  split.
  - destruct (fu_ready P conf s Fs Hrdy) as (c & Hc & G1 & _). exists c. split; [exact Hc|]. rewrite <- G1. apply (fu_elements P conf s Fs).
  - intros dr R1 R2 R3. destruct (fu_ready P conf s Fs Hrdy) as (c & Hc & _).
    destruct (iterate_ok Sp P HM pow log exp cpus D conf Hcpu Hd Hsa Hpd Hpr Hpar s c dr Fs Hrdy Hc R1 R2 R3) as (m' & c' & f & Hit).
    split.
    + do 2 eexists. apply ms_iterate with (c := c); eassumption.
    + intros o s' Hst. inversion Hst; subst; [split; [discriminate|reflexivity]|].
      assert (c0 = c) by (apply map_Some_inj; congruence). subst c0. congruence.
Qed.
