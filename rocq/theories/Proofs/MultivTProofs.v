(** The multivariate t distribution of mcmc/multivt.go. *)
From Coq Require Import List ZArith Lia Bool Reals Lra.
From Verif Require Import Base.Go Base.Num Model.Mcmc Model.MultivT Spec.RealSpec Spec.MultivTSpec
  Proofs.GoLemmas Proofs.NumLaws Proofs.RealLemmas Proofs.EuclidProofs Proofs.McmcProofs.
Import ListNotations.
Local Open Scope R_scope.

Lemma shift_loop_R a : forall b s, (length a <= length b)%nat -> shift_loop RNum a b s = Ok (s + sqdist a b).
Proof.
  induction a as [|x a IH]; intros [|y b] s H; cbn in H; try lia; cbn [shift_loop].
  - unfold sqdist. cbn. f_equal. lra.
  - unfold sqdist. cbn. f_equal. lra.
  - rewrite IH by lia. rewrite sqdist_cons. cbn. f_equal. lra.
Qed.

Lemma new_multivt_R gamma dim nu m : new_multivt RNum ln gamma dim nu = Ok m -> 0 < mt_nu m ->
  (0 <= dim)%Z /\ mt_dim m = dim /\ (nu <> 0 -> mt_nu m = nu) /\ (nu = 0 -> mt_nu m = 3) /\
  mt_power m = (mt_nu m + IZR dim) / 2 /\ mt_gamma_factor m = ln (gamma ((mt_nu m + IZR dim) / 2) / gamma (mt_nu m / 2)).
Proof.
  unfold new_multivt. intros H Hnu. apply obind_ok in H. destruct H as (z & Hz & [= <-]). cbn [mt_dim mt_nu mt_power mt_gamma_factor] in *.
  unfold smake in Hz. destruct (Z.ltb_spec dim 0); [discriminate|]. split; [lia|]. split; [reflexivity|].
  unfold conf_nu. cbn [neqb RNum nof nadd ndiv]. split; [|split; [|split]].
  - intros Hn. destruct (Reqb nu 0) eqn:He; [|reflexivity]. apply Reqb_true in He. contradiction.
  - intros ->. destruct (Reqb 0 0) eqn:He; [reflexivity|]. exfalso. rewrite (proj2 (Reqb_true 0 0) eq_refl) in He. discriminate.
  - rewrite (Rplus_comm (IZR dim)). reflexivity.
  - rewrite (Rplus_comm (IZR dim)). reflexivity.
Qed.

(** The value of Pdf: a t distribution whose scale matrix is 1/sqrt(20 time). *)
Lemma pdf_value : forall gamma dim nu m, new_multivt RNum ln gamma dim nu = Ok m -> 0 < mt_nu m ->
  forall mu x time, length mu = length x -> (0 < time)%Z ->
  mt_pdf RNum ln PI m mu x time =
    Ok (t_logdensity (ln (gamma ((mt_nu m + IZR dim) / 2) / gamma (mt_nu m / 2))) (IZR dim) (mt_nu m)
          (1 / sqrt (20 * IZR time)) (sqdist mu x)).
Proof.
  intros gamma dim nu m Hm Hnu mu x time Hl Ht.
  destruct (new_multivt_R _ _ _ _ Hm Hnu) as (D0 & D1 & _ & _ & D2 & D3).
  assert (Hs : 0 < sqrt (20 * IZR time)) by (apply sqrt_lt_R0; apply IZR_pos in Ht; lra).
  unfold mt_pdf. rewrite shift_loop_R by lia. cbn [obind nadd nmul nsub ndiv nsqrt nof RNum]. rewrite D1, D2, D3.
  f_equal. unfold t_logdensity. rewrite mult_IZR, (Rmult_comm (IZR time)), Rplus_0_l.
  replace (PI * mt_nu m * (1 / sqrt (20 * IZR time))) with (PI * (mt_nu m / sqrt (20 * IZR time))) by (field; lra).
  replace (mt_nu m * (1 / sqrt (20 * IZR time))) with (mt_nu m / sqrt (20 * IZR time)) by (field; lra). field.
Qed.

Lemma t_decreasing g p nu s2 a b : 0 < nu -> 0 <= p -> 0 < s2 -> 0 <= a -> a < b -> t_logdensity g p nu s2 b < t_logdensity g p nu s2 a.
Proof.
  intros Hn Hp Hs Ha Hab. unfold t_logdensity. assert (Hns : 0 < nu * s2) by (apply Rmult_lt_0_compat; assumption).
  assert (Hdiv : a / (nu * s2) < b / (nu * s2)) by (apply Rmult_lt_compat_r; [apply Rinv_0_lt_compat; exact Hns|exact Hab]).
  assert (H0 : 0 <= a / (nu * s2)) by (apply Rmult_le_pos; [exact Ha|left; apply Rinv_0_lt_compat; exact Hns]).
  assert (Hln : ln (1 + a / (nu * s2)) < ln (1 + b / (nu * s2))) by (apply ln_increasing; lra).
  assert (Hc : 0 < (nu + p) / 2) by lra.
  pose proof (Rmult_lt_compat_l _ _ _ Hc Hln). lra.
Qed.

(** ** C45 *)
Lemma pdf_main : forall gamma dim nu m, new_multivt RNum ln gamma dim nu = Ok m -> 0 < mt_nu m ->
  forall time, (0 < time)%Z ->
  exists g : R -> R,
    (forall a b, 0 <= a -> a < b -> g b < g a) /\
    forall mu x, length mu = length x ->
      mt_pdf RNum ln PI m mu x time = Ok (g (sqdist mu x)) /\
      mt_pdf RNum ln PI m x mu time = mt_pdf RNum ln PI m mu x time /\
      exists top here, mt_pdf RNum ln PI m mu mu time = Ok top /\ mt_pdf RNum ln PI m mu x time = Ok here /\
        here <= top /\ (here = top <-> x = mu).
Proof.
  intros gamma dim nu m Hm Hnu time Ht.
  destruct (new_multivt_R _ _ _ _ Hm Hnu) as (D0 & _).
  assert (Hs : 0 < 1 / sqrt (20 * IZR time)).
  { apply Rdiv_lt_0_compat; [lra|]. apply sqrt_lt_R0; apply IZR_pos in Ht; lra. }
  assert (Hd : 0 <= IZR dim) by (apply IZR_le in D0; exact D0).
  exists (t_logdensity (ln (gamma ((mt_nu m + IZR dim) / 2) / gamma (mt_nu m / 2))) (IZR dim) (mt_nu m) (1 / sqrt (20 * IZR time))).
  set (g := t_logdensity _ _ _ _).
  assert (Hdec : forall a b, 0 <= a -> a < b -> g b < g a) by (intros a b Ha Hab; apply t_decreasing; assumption).
  split; [exact Hdec|]. intros mu x Hl.
  pose proof (pdf_value gamma dim nu m Hm Hnu mu x time Hl Ht) as P1. pose proof (pdf_value gamma dim nu m Hm Hnu x mu time (eq_sym Hl) Ht) as P2.
  pose proof (pdf_value gamma dim nu m Hm Hnu mu mu time eq_refl Ht) as P3. fold g in P1, P2, P3.
  split; [exact P1|]. split; [rewrite P1, P2, sqdist_sym; reflexivity|].
  exists (g (sqdist mu mu)), (g (sqdist mu x)). split; [exact P3|]. split; [exact P1|].
  rewrite (proj2 (sqdist_zero mu mu eq_refl) eq_refl). pose proof (sqdist_nonneg mu x) as Hn.
  destruct (Req_EM_T (sqdist mu x) 0) as [E|E].
  - rewrite E. split; [lra|]. split; [|reflexivity]. intros _. symmetry. apply (sqdist_zero mu x Hl). exact E.
  - assert (Hlt : g (sqdist mu x) < g 0) by (apply Hdec; lra). split; [lra|]. split; [lra|].
    intros ->. exfalso. apply E. apply (sqdist_zero mu mu eq_refl). reflexivity.
Qed.

(** ** C71 *)
Lemma sample_loop_R student : forall mu ci sc r, sample_loop RNum student mu ci sc = Ok r ->
  length r = length student /\ forall i, (i < length student)%nat -> nth i r 0 = nth i mu 0 + sc * (nth i student 0 * ci).
Proof.
  induction student as [|s st IH]; intros [|m mu] ci sc r H; cbn in H; try discriminate; try (injection H as <-; cbn; split; [reflexivity|intros; lia]).
  apply obind_ok in H. destruct H as (r' & Hr & [= <-]). destruct (IH _ _ _ _ Hr) as [L H]. cbn. split; [rewrite L; reflexivity|].
  intros [|i] Hi; [lra|]. apply H. lia.
Qed.

(** Sample draws the center plus 1/sqrt(20 time) times a t vector of scale 1. *)
Lemma sample_value : forall (m : multivt R) z mu time x, (0 < time)%Z -> mt_sample RNum m z mu time = Ok x ->
  length x = length (no_normal z) /\
  forall i, (i < length x)%nat ->
    nth i x 0 = nth i mu 0 + 1 / sqrt (20 * IZR time) * (nth i (no_normal z) 0 * sqrt (mt_nu m / no_chi2 z)).
Proof.
  intros m z mu time x Ht H. unfold mt_sample in H. cbn [nof ndiv nsqrt RNum] in H. apply sample_loop_R in H. destruct H as [L H].
  split; [exact L|]. intros i Hi. rewrite mult_IZR, (Rmult_comm (IZR time)) in H. apply H. lia.
Qed.

(** So its density has scale matrix 1/(20 time), and Pdf is not that density. *)
Lemma pdf_not_sample_density : ~ (forall gamma dim nu m, new_multivt RNum ln gamma dim nu = Ok m -> 0 < mt_nu m ->
  forall mu x time, length mu = length x -> (0 < time)%Z ->
  mt_pdf RNum ln PI m mu x time =
    Ok (t_logdensity (ln (gamma ((mt_nu m + IZR dim) / 2) / gamma (mt_nu m / 2))) (IZR dim) (mt_nu m)
          (1 / sqrt (20 * IZR time) * (1 / sqrt (20 * IZR time))) (sqdist mu x))).
Proof.
  intros H. set (gamma := fun _ : R => 1).
  destruct (new_multivt RNum ln gamma 1 3) as [m|] eqn:Hm; [|discriminate].
  assert (Hnu : mt_nu m = 3).
  { unfold new_multivt in Hm. cbn [smake Z.ltb Z.compare obind] in Hm. injection Hm as <-. cbn [mt_nu]. unfold conf_nu. cbn [neqb RNum nof].
    destruct (Reqb 3 0) eqn:He; [apply Reqb_true in He; lra|reflexivity]. }
  assert (Hpos : 0 < mt_nu m) by (rewrite Hnu; lra).
  specialize (H gamma 1%Z 3 m Hm Hpos [0] [0] 1%Z eq_refl ltac:(lia)).
  rewrite (pdf_value gamma 1 3 m Hm Hpos [0] [0] 1 eq_refl ltac:(lia)) in H. injection H as H. rewrite Hnu in H. unfold t_logdensity in H.
  assert (Hq : sqdist [0] [0] = 0) by (unfold sqdist; cbn; lra). rewrite Hq in H.
  rewrite !Rmult_1_r in H. set (s := 1 / sqrt 20) in *.
  replace (0 / (3 * s)) with 0 in H by (unfold Rdiv; ring). replace (0 / (3 * (s * s))) with 0 in H by (unfold Rdiv; ring).
  assert (H20 : 1 < sqrt 20) by (rewrite <- sqrt_1 at 1; apply sqrt_lt_1; lra).
  assert (Hs : 0 < s < 1).
  { unfold s. split; [apply Rdiv_lt_0_compat; lra|]. apply Rmult_lt_reg_r with (sqrt 20); [lra|]. unfold Rdiv. rewrite Rmult_assoc, Rinv_l by lra. lra. }
  assert (Hln : ln (PI * 3 * (s * s)) < ln (PI * 3 * s)).
  { pose proof PI_RGT_0. assert (0 < PI * 3 * s) by (apply Rmult_lt_0_compat; lra).
    assert (0 < PI * 3 * (s * s)) by (apply Rmult_lt_0_compat; [lra|apply Rmult_lt_0_compat; lra]).
    apply ln_increasing; [assumption|]. apply Rmult_lt_compat_l; [lra|]. nra. }
  lra.
Qed.

(** ** C74 *)
Lemma proba_same gamma dim nu m : new_multivt RNum ln gamma dim nu = Ok m -> 0 < mt_nu m ->
  forall c time, (0 < time)%Z ->
  proba RNum (multivt_distrib RNum ln PI m) c c time =
    Ok (INR (length c) * t_logdensity (ln (gamma ((mt_nu m + IZR dim) / 2) / gamma (mt_nu m / 2))) (IZR dim) (mt_nu m)
          (1 / sqrt (20 * IZR time)) 0).
Proof.
  intros Hm Hnu c time Ht. set (K := t_logdensity _ _ _ _ _).
  assert (Hself : forall v, dpdf (multivt_distrib RNum ln PI m) v v time = Ok K).
  { intros v. cbn [dpdf multivt_distrib]. rewrite (pdf_value gamma dim nu m Hm Hnu v v time eq_refl Ht), (proj2 (sqdist_zero v v eq_refl) eq_refl). reflexivity. }
  unfold proba.
  assert (Hgen : forall post pre p, c = pre ++ post ->
    ofold (fun st v => let '(i, p) := st in let* mm := sget c i in let* d := dpdf (multivt_distrib RNum ln PI m) mm v time in Ok (i + 1, nadd RNum p d)%Z)
      post (Z.of_nat (length pre), p) = Ok (Z.of_nat (length c), p + INR (length post) * K)).
  { induction post as [|v post IH]; intros pre p Hc; cbn [ofold].
    - rewrite Hc, app_nil_r. cbn. rewrite Rmult_0_l, Rplus_0_r. reflexivity.
    - rewrite sget_nat. assert (Hn : nth_error c (length pre) = Some v) by (rewrite Hc, nth_error_app2, Nat.sub_diag by lia; reflexivity).
      rewrite Hn. cbn [obind]. rewrite Hself. cbn [obind].
      replace (Z.of_nat (length pre) + 1)%Z with (Z.of_nat (length (pre ++ [v]))) by (rewrite app_length; cbn; lia).
      rewrite (IH (pre ++ [v]) _ ltac:(rewrite <- app_assoc; exact Hc)). cbn [length]. rewrite S_INR. cbn [nadd RNum]. f_equal. f_equal. ring. }
  specialize (Hgen c [] (nof RNum 0) eq_refl). cbn [length Z.of_nat] in Hgen. rewrite Hgen. cbn. f_equal. lra.
Qed.

Lemma pdf_term_main : forall gamma dim nu mt, new_multivt RNum ln gamma dim nu = Ok mt -> 0 < mt_nu mt ->
  forall time, (0 < time)%Z -> exists K,
  forall (Sp : Clustering.Space (list R) R) pow cpus conf m cur c data dr p,
  propose RNum Sp pow cpus (multivt_distrib RNum ln PI mt) conf m cur c data time dr = Ok p ->
  pr_pdf p = INR (length (pr_centers p)) * K.
Proof.
  intros gamma dim nu mt Hm Hnu time Ht. eexists. intros Sp pow cpus conf m cur c data dr p Hp.
  unfold propose in Hp. apply obind_ok in Hp. destruct Hp as ([k c1] & _ & Hp).
  apply obind_ok in Hp. destruct Hp as (c2 & _ & Hp). apply obind_ok in Hp. destruct Hp as (c3 & _ & Hp).
  apply obind_ok in Hp. destruct Hp as (l & _ & Hp). apply obind_ok in Hp. destruct Hp as (pdf & Hpd & [= <-]). cbn [pr_pdf pr_centers].
  rewrite (proba_same gamma dim nu mt Hm Hnu c3 time Ht) in Hpd. injection Hpd as <-. reflexivity.
Qed.
