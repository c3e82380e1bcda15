(** k-means and streaming in binary64: C80, C81, and what fails there. *)
From Coq Require Import List ZArith Lia Bool Reals Lra Psatz Permutation.
From Flocq Require Import Core IEEE754.BinarySingleNaN.
From Verif Require Import Base.Go Base.Num Model.Clustering Model.Par Model.Euclid Model.Kmeans Model.Streaming
  Spec.ClusterSpec Spec.RealSpec Spec.KmeansSpec Spec.NearestSpec Spec.StreamingSpec Spec.FloatSpec
  Proofs.GoLemmas Proofs.NumLaws Proofs.RealLemmas Proofs.NearestProofs Proofs.ReduceMain Proofs.ParReduceProofs Proofs.KmeansProofs
  Proofs.EuclidFloat Proofs.EuclidProofs Proofs.SpaceMain Proofs.ConfProofs Proofs.StreamingProofs Proofs.FloatMean Proofs.Represent.
Import ListNotations.
Local Open Scope R_scope.
Notation euclid64 := (euclid_space B64Num).

(** Combine, coordinate by coordinate. *)
Lemma combine64 (a b : list b64) (w1 w2 : Z) : length a = length b -> (0 < w1)%Z -> (0 < w2)%Z -> (w1 + w2 < 2 ^ 53)%Z ->
  scombine euclid64 a w1 b w2 = map (fun p => mean64 (fst p) w1 (snd p) w2) (combine a b).
Proof.
  intros Hl H1 H2 H. cbn [scombine euclid_space]. unfold point_combine. cbn [nof nadd B64Num]. rewrite weights_add by assumption.
  assert (Hloop : forall a b, length a = length b ->
     combine_loop B64Num a (b64_of_Z w1) b (b64_of_Z w2) (b64_of_Z (w1 + w2)) = Ok (map (fun p => mean64 (fst p) w1 (snd p) w2) (combine a b))).
  { induction a0 as [|x a0 IH]; intros [|y b0] Hl0; try discriminate; [reflexivity|]. cbn [combine_loop combine map].
    rewrite IH by (cbn in Hl0; lia). reflexivity. }
  rewrite Hloop by exact Hl. reflexivity.
Qed.

Lemma box_combine k d a (w1 : Z) b (w2 : Z) : (-1074 <= k <= 970)%Z -> (0 < w1)%Z -> (0 < w2)%Z -> (w1 + w2 < 2 ^ 53)%Z ->
  box_vec k d a -> box_vec k d b -> box_vec k d (scombine euclid64 a w1 b w2).
Proof.
  intros Hk H1 H2 H [La Ba] [Lb Bb]. rewrite combine64 by (auto; congruence). split.
  - rewrite map_length, combine_length. lia.
  - clear La Lb. revert b Bb. induction Ba as [|x a Hx Ba IH]; intros [|y b] Bb; cbn [combine map]; constructor.
    + inversion Bb; subst. apply mean64_box; assumption.
    + apply IH. inversion Bb; assumption.
Qed.

Lemma coord_combine64 j : forall (a b : list b64) (w1 w2 : Z), (j < length a)%nat -> (j < length b)%nat ->
  coord j (reals (map (fun p => mean64 (fst p) w1 (snd p) w2) (combine a b)))
  = B2R (mean64 (nth j a (b64_of_Z 0)) w1 (nth j b (b64_of_Z 0)) w2).
Proof.
  unfold coord, reals. intros a b w1 w2 Ha Hb. rewrite map_map.
  rewrite (nth_indep _ 0 ((fun p => B2R (mean64 (fst p) w1 (snd p) w2)) (b64_of_Z 0, b64_of_Z 0))) by (rewrite map_length, combine_length; lia).
  rewrite (map_nth (fun p => B2R (mean64 (fst p) w1 (snd p) w2))).
  assert (Hn : forall a b : list b64, (j < length a)%nat -> (j < length b)%nat ->
    nth j (combine a b) (b64_of_Z 0, b64_of_Z 0) = (nth j a (b64_of_Z 0), nth j b (b64_of_Z 0))).
  { clear. revert j. induction j as [|j IH]; intros [|x a] [|y b] Ha Hb; cbn in *; try lia; [reflexivity|]. apply IH; lia. }
  rewrite Hn by assumption. reflexivity.
Qed.

Lemma coord_reals j (a : list b64) : (j < length a)%nat -> coord j (reals a) = B2R (nth j a (b64_of_Z 0)).
Proof.
  intros H. unfold coord, reals. rewrite (nth_indep _ 0 (B2R (b64_of_Z 0))) by (rewrite map_length; exact H). apply map_nth.
Qed.

(** The mean of the coordinates [j], and the distance of a computed average to it. *)
Definition mean_coord (j : nat) (vs : list (list b64)) : R := rsum (map (fun v => coord j (reals v)) vs) / INR (length vs).
Definition near_mean (k : Z) (d : nat) (c : list b64) (vs : list (list b64)) : Prop :=
  box_vec k d c /\
  forall j, (j < d)%nat -> Rabs (coord j (reals c) - mean_coord j vs) <= INR (length vs) * powerRZ 2 (k - 51).

Lemma near_mean_one k d x : box_vec k d x -> near_mean k d x [x].
Proof.
  intros H. split; [exact H|]. intros j Hj. unfold mean_coord. cbn.
  replace (coord j (reals x) - (coord j (reals x) + 0) / 1) with 0 by field. rewrite Rabs_R0, Rmult_1_l. rewrite pow2_bpow. apply bpow_ge_0.
Qed.

Lemma mean_coord_app j xs ys : xs <> [] -> ys <> [] ->
  mean_coord j (xs ++ ys) =
  (mean_coord j xs * INR (length xs) + mean_coord j ys * INR (length ys)) / (INR (length xs) + INR (length ys)).
Proof.
  intros Hx Hy. assert (0 < INR (length xs)) by (apply lt_0_INR; destruct xs; [contradiction|cbn; lia]).
  assert (0 < INR (length ys)) by (apply lt_0_INR; destruct ys; [contradiction|cbn; lia]).
  unfold mean_coord. rewrite map_app, rsum_app, app_length, plus_INR. field. lra.
Qed.

Lemma near_mean_combine k d a xs b ys : (-1020 <= k <= 970)%Z -> xs <> [] -> ys <> [] ->
  (Z.of_nat (length xs) + Z.of_nat (length ys) < 2 ^ 53)%Z ->
  near_mean k d a xs -> near_mean k d b ys ->
  near_mean k d (scombine euclid64 a (Z.of_nat (length xs)) b (Z.of_nat (length ys))) (xs ++ ys).
Proof.
  intros Hk Hx Hy Hn [[La Ba] Ea] [[Lb Bb] Eb].
  assert (H1 : (0 < Z.of_nat (length xs))%Z) by (destruct xs; [contradiction|cbn [length]; lia]).
  assert (H2 : (0 < Z.of_nat (length ys))%Z) by (destruct ys; [contradiction|cbn [length]; lia]).
  split; [apply box_combine; auto; try lia; split; assumption|].
  intros j Hj. rewrite combine64 by (auto; congruence). rewrite coord_combine64 by lia.
  specialize (Ea j Hj). specialize (Eb j Hj). rewrite coord_reals in Ea, Eb by lia.
  rewrite mean_coord_app by assumption. rewrite app_length, plus_INR.
  assert (Ia : in_box k (nth j a (b64_of_Z 0))) by (rewrite Forall_forall in Ba; apply Ba, nth_In; lia).
  assert (Ib : in_box k (nth j b (b64_of_Z 0))) by (rewrite Forall_forall in Bb; apply Bb, nth_In; lia).
  pose proof (mean64_err _ _ k _ _ Hk H1 H2 Hn Ia Ib) as Hm.
  rewrite plus_IZR, <- !INR_IZR_INZ in Hm.
  assert (N1 : 1 <= INR (length xs)) by (rewrite INR_IZR_INZ; apply IZR_le; lia).
  assert (N2 : 1 <= INR (length ys)) by (rewrite INR_IZR_INZ; apply IZR_le; lia).
  set (n1 := INR (length xs)) in *. set (n2 := INR (length ys)) in *. set (e := powerRZ 2 (k - 51)) in *.
  set (x := B2R (nth j a (b64_of_Z 0))) in *. set (y := B2R (nth j b (b64_of_Z 0))) in *.
  set (m1 := mean_coord j xs) in *. set (m2 := mean_coord j ys) in *.
  match goal with |- Rabs (?r - _) <= _ => set (r0 := r) in * end.
  assert (He : 0 <= e) by (unfold e; rewrite pow2_bpow; apply bpow_ge_0).
  replace (r0 - (m1 * n1 + m2 * n2) / (n1 + n2)) with
    ((r0 - (x * n1 + y * n2) / (n1 + n2)) + ((x - m1) * n1 + (y - m2) * n2) / (n1 + n2)) by (field; lra).
  apply (Rle_trans _ _ _ (Rabs_triang _ _)).
  assert (Hq : Rabs (((x - m1) * n1 + (y - m2) * n2) / (n1 + n2)) <= (n1 * e * n1 + n2 * e * n2) / (n1 + n2)).
  { unfold Rdiv. rewrite Rabs_mult, (Rabs_right (/ (n1 + n2))) by (apply Rle_ge; left; apply Rinv_0_lt_compat; lra).
    apply Rmult_le_compat_r; [left; apply Rinv_0_lt_compat; lra|]. apply (Rle_trans _ _ _ (Rabs_triang _ _)).
    rewrite !Rabs_mult, (Rabs_right n1), (Rabs_right n2) by lra. apply Rplus_le_compat; apply Rmult_le_compat_r; lra. }
  assert (Hs : (n1 * e * n1 + n2 * e * n2) / (n1 + n2) <= (n1 + n2) * e - e).
  { apply (Rmult_le_reg_r (n1 + n2)); [lra|]. unfold Rdiv. rewrite Rmult_assoc, Rinv_l, Rmult_1_r by lra.
    assert (0 <= e * ((2 * n1 * n2) - (n1 + n2))) by (apply Rmult_le_pos; [exact He|nra]). nra. }
  lra.
Qed.

Definition max_count : Z := (2 ^ 53 - 1)%Z.

Lemma box_averages k d : (-1074 <= k <= 970)%Z -> averages euclid64 max_count (box_vec k d) (fun a _ => box_vec k d a).
Proof.
  intros Hk. constructor; auto. intros a xs b ys _ _ Hx Hy Ha Hb Hn. unfold max_count in Hn. apply box_combine; auto; try lia.
  - destruct xs; [contradiction|cbn [length]; lia].
  - destruct ys; [contradiction|cbn [length]; lia].
Qed.

Lemma near_averages k d : (-1020 <= k <= 970)%Z -> averages euclid64 max_count (box_vec k d) (near_mean k d).
Proof.
  intros Hk. constructor.
  - intros x Hx. apply near_mean_one. exact Hx.
  - intros x Hx. apply near_mean_one. exact Hx.
  - intros a xs b ys _ _ Hx Hy Ha Hb Hn. unfold max_count in Hn. apply near_mean_combine; auto. lia.
Qed.

Lemma map_some_inj {X} : forall (l1 l2 : list X), map Some l1 = map Some l2 -> l1 = l2.
Proof. induction l1 as [|a l1 IH]; intros [|b l2] H; try discriminate; [reflexivity|]. cbn in H. injection H as -> H. f_equal. auto. Qed.

(** ** C80 *)
Lemma step_box par k d (c data : list (list b64)) : valid_par par -> c <> [] -> (-1074 <= k <= 970)%Z ->
  (Z.of_nat (length data) < 2 ^ 53)%Z -> Forall (box_vec k d) c -> Forall (box_vec k d) data ->
  exists c', strategy_iterate B64Num euclid64 par c data = Ok (map Some c') /\ length c' = length c /\ Forall (box_vec k d) c'.
Proof.
  intros Hp Hc Hk Hn HC HD.
  destruct (strategy_average B64Num _ B64NumOrd euclid64 max_count _ _ (box_averages k d Hk) par c data Hp Hc HD) as (c' & H1 & H2 & H3).
  { unfold max_count. lia. }
  exists c'. split; [exact H1|]. split; [exact H2|]. apply Forall_forall. intros v Hv. apply In_nth_error in Hv. destruct Hv as [i Hi].
  assert (Hlt : (i < length c)%nat) by (rewrite <- H2; apply nth_error_Some; congruence).
  destruct (nth_error c i) as [ci|] eqn:Hci; [|apply nth_error_None in Hci; lia].
  destruct (H3 i ci v Hci Hi) as [[_ ->]|[_ H]]; [|exact H].
  rewrite Forall_forall in HC. apply HC. apply (nth_error_In c i Hci).
Qed.

Lemma float_box_main : forall par k d (c data : list (list b64)), valid_par par -> c <> [] -> (-1074 <= k <= 970)%Z ->
  (Z.of_nat (length data) < 2 ^ 53)%Z -> Forall (box_vec k d) c -> Forall (box_vec k d) data ->
  forall n, (exists cn, iterations B64Num euclid64 par data n c cn) /\
    forall cn, iterations B64Num euclid64 par data n c cn -> length cn = length c /\ Forall (box_vec k d) cn.
Proof.
  intros par k d c data Hp Hc Hk Hn HC HD n. revert c Hc HC. induction n as [|n IH]; intros c Hc HC.
  - split; [exists c; constructor|]. intros cn H. inversion H; subst. auto.
  - destruct (step_box par k d c data Hp Hc Hk Hn HC HD) as (c1 & H1 & H2 & H3).
    assert (Hc1 : c1 <> []) by (intros ->; destruct c; [contradiction|discriminate]).
    destruct (IH c1 Hc1 H3) as [[c2 H4] H5]. split.
    + exists c2. econstructor; eassumption.
    + intros cn H. inversion H as [|? ? c1' ? Hit Hrest]; subst. rewrite H1 in Hit. injection Hit as Hit. apply map_some_inj in Hit. subst c1'.
      destruct (H5 cn Hrest) as [L B]. split; [congruence|exact B].
Qed.

Lemma float_predict_main : forall par k d (c data : list (list b64)), valid_par par -> c <> [] -> (-1074 <= k <= 970)%Z ->
  (Z.of_nat (length data) < 2 ^ 53)%Z -> Forall (box_vec k d) c -> Forall (box_vec k d) data ->
  forall n cn (x : list b64), iterations B64Num euclid64 par data n c cn -> length x = d -> Forall (fun v => is_finite v = true) x ->
  exists l cl, assign B64Num euclid64 cn x = Ok (Some cl, Z.of_nat l, sdist euclid64 x cl) /\
    first_nearest64 euclid64 cn x l cl.
Proof.
  intros par k d c data Hp Hc Hk Hn HC HD n cn x Hit Hx Hf.
  destruct (float_box_main par k d c data Hp Hc Hk Hn HC HD n) as [_ H]. destruct (H cn Hit) as [HL HB].
  apply predict_finite; [|exact Hf|].
  - intros ->. destruct c; [contradiction|discriminate].
  - apply Forall_forall. intros v Hv. rewrite Forall_forall in HB. destruct (HB v Hv) as [L B]. split; [|congruence].
    eapply Forall_impl; [|exact B]. intros a Ha. apply Ha.
Qed.

(** ** C81 *)
Lemma float_mean_main : forall par k d (c data : list (list b64)) (lab : list b64 -> Z),
  valid_par par -> c <> [] -> (-1020 <= k <= 970)%Z -> (Z.of_nat (length data) < 2 ^ 53)%Z -> Forall (box_vec k d) data ->
  (forall x, exists cl di, assign B64Num euclid64 c x = Ok (cl, lab x, di)) ->
  exists c', strategy_iterate B64Num euclid64 par c data = Ok (map Some c') /\ length c' = length c /\
    forall i ci ci', nth_error c i = Some ci -> nth_error c' i = Some ci' ->
      (members lab i data = [] -> ci' = ci) /\
      (members lab i data <> [] -> length ci' = d /\ forall j, (j < d)%nat ->
         Rabs (coord j (reals ci') - rsum (map (fun v => coord j (reals v)) (members lab i data)) / INR (length (members lab i data)))
         <= INR (length (members lab i data)) * powerRZ 2 (k - 51)).
Proof.
  intros par k d c data lab Hp Hc Hk Hn HD Hlab. pose proof (members_lab B64Num _ B64NumOrd euclid64 c lab Hlab) as Hl.
  destruct (strategy_average B64Num _ B64NumOrd euclid64 max_count _ _ (near_averages k d Hk) par c data Hp Hc HD) as (c' & H1 & H2 & H3).
  { unfold max_count. lia. }
  exists c'. split; [exact H1|]. split; [exact H2|]. intros i ci ci' Hi Hi'.
  rewrite (members_ext lab (fun x => fst (nearest B64Num euclid64 c x)) i data Hl).
  destruct (H3 i ci ci' Hi Hi') as [[Hm ->]|[Hm [Hb Hq]]]; split; intros Hm'; try contradiction; auto.
  split; [apply Hb|]. exact Hq.
Qed.

Lemma iterate_functional {E F} (N : Num F) (Sp : Space E F) par c data c1 c2 :
  strategy_iterate N Sp par c data = Ok (map Some c1) -> strategy_iterate N Sp par c data = Ok (map Some c2) -> c1 = c2.
Proof. intros H1 H2. rewrite H1 in H2. injection H2 as H2. apply map_some_inj. exact H2. Qed.

(** Sequential and parallel agree up to the rounding errors. *)
Lemma float_par_seq_main : forall degree k d (c data cs cp : list (list b64)),
  (0 < degree)%Z -> c <> [] -> (-1020 <= k <= 970)%Z -> (Z.of_nat (length data) < 2 ^ 53)%Z -> Forall (box_vec k d) data ->
  seq_iterate B64Num euclid64 c data = Ok (map Some cs) -> par_iterate B64Num euclid64 degree c data = Ok (map Some cp) ->
  length cs = length c /\ length cp = length c /\
  forall i a b, nth_error cs i = Some a -> nth_error cp i = Some b ->
    a = b \/ forall j, (j < d)%nat ->
      Rabs (coord j (reals a) - coord j (reals b)) <= INR (length data) * powerRZ 2 (k - 50).
Proof.
  intros degree k d c data cs cp Hdeg Hc Hk Hn HD Hs Hp.
  destruct (strategy_average B64Num _ B64NumOrd euclid64 max_count _ _ (near_averages k d Hk) None c data I Hc HD) as (c1 & A1 & A2 & A3);
    [unfold max_count; lia|].
  destruct (strategy_average B64Num _ B64NumOrd euclid64 max_count _ _ (near_averages k d Hk) (Some degree) c data Hdeg Hc HD) as (c2 & B1 & B2 & B3);
    [unfold max_count; lia|].
  assert (c1 = cs) by (apply (iterate_functional B64Num euclid64 None c data); assumption). subst c1.
  assert (c2 = cp) by (apply (iterate_functional B64Num euclid64 (Some degree) c data); assumption). subst c2.
  split; [exact A2|]. split; [exact B2|]. intros i a b Ha Hb.
  assert (Hlt : (i < length c)%nat) by (rewrite <- A2; apply nth_error_Some; congruence).
  destruct (nth_error c i) as [ci|] eqn:Hci; [|apply nth_error_None in Hci; lia].
  destruct (A3 i ci a Hci Ha) as [[Hm ->]|[Hm [_ Qa]]], (B3 i ci b Hci Hb) as [[Hm' ->]|[Hm' [_ Qb]]]; try contradiction; [left; reflexivity|].
  right. intros j Hj. specialize (Qa j Hj). specialize (Qb j Hj).
  set (ms := members (fun x => fst (nearest B64Num euclid64 c x)) i data) in *. set (m := mean_coord j ms) in *.
  replace (coord j (reals a) - coord j (reals b)) with ((coord j (reals a) - m) - (coord j (reals b) - m)) by ring.
  apply (Rle_trans _ _ _ (Rabs_triang _ _)). rewrite Rabs_Ropp.
  assert (Hle : INR (length ms) <= INR (length data)) by (apply le_INR; unfold ms, members; apply filter_length_le).
  assert (He : powerRZ 2 (k - 50) = 2 * powerRZ 2 (k - 51)).
  { rewrite !pow2_bpow. replace (k - 50)%Z with (1 + (k - 51))%Z by lia. rewrite bpow_plus. reflexivity. }
  assert (0 <= powerRZ 2 (k - 51)) by (rewrite pow2_bpow; apply bpow_ge_0). rewrite He. nra.
Qed.

(** ** Streaming *)
Section StreamingAverages.
Context {E F : Type} (N : Num F) (Sp : Space E F) (M : Z) (P : E -> Prop) (Q : E -> list E -> Prop) (HA : averages Sp M P Q).

Definition avg_inv (s : streaming E F) (p : list E) : Prop :=
  exists parts, Permutation (concat parts) p /\ Forall2 (fun c vs => vs <> [] /\ Q c vs) (s_clust s) parts /\
    s_cards s = map (fun vs => Z.of_nat (length vs)) parts.

Lemma concat_upd_perm {X} (parts : list (list X)) : forall i vs x, nth_error parts i = Some vs ->
  Permutation (concat (upd parts i (vs ++ [x]))) (concat parts ++ [x]).
Proof.
  induction parts as [|v parts IH]; intros [|i] vs x H; try discriminate; cbn [upd concat nth_error] in *.
  - injection H as ->. rewrite <- !app_assoc. apply Permutation_app_head. apply Permutation_app_comm.
  - rewrite <- app_assoc. apply Permutation_app_head. apply IH. exact H.
Qed.

Lemma added_avg s s' x p : P x -> avg_inv s p -> added s s' x -> avg_inv s' (p ++ [x]).
Proof.
  intros Hx (parts & H1 & H2 & H3) [A1 A2]. exists (parts ++ [[x]]). rewrite A1, A2. repeat split.
  - rewrite concat_app. cbn. apply Permutation_app_tail. exact H1.
  - apply Forall2_app; [exact H2|]. constructor; [|constructor]. split; [discriminate|]. apply (av_one HA). exact Hx.
  - rewrite map_app, H3. reflexivity.
Qed.

Lemma merged_avg s s' x l p : Forall P p -> P x -> (Z.of_nat (length p) + 1 <= M)%Z -> avg_inv s p -> merged Sp s s' x l -> avg_inv s' (p ++ [x]).
Proof.
  intros HP Hx HM (parts & H1 & H2 & H3) (c & n & Hc & Hn & A1 & A2).
  destruct (Forall2_nth _ _ _ H2 l c Hc) as (vs & Hvs & Hne & Hq).
  assert (n = Z.of_nat (length vs)).
  { rewrite H3 in Hn. rewrite (map_nth_error _ l parts Hvs) in Hn. congruence. }
  assert (HPv : Forall P vs).
  { apply Forall_forall. intros y Hy. rewrite Forall_forall in HP. apply HP. apply (Permutation_in y H1). apply in_concat.
    exists vs. split; [apply (nth_error_In _ _ Hvs)|exact Hy]. }
  assert (Hlv : (length vs <= length p)%nat).
  { rewrite <- (Permutation_length H1). apply app_length_concat. apply (nth_error_In _ _ Hvs). }
  subst n. exists (upd parts l (vs ++ [x])). rewrite A1, A2. repeat split.
  - rewrite concat_upd_perm by exact Hvs. apply Permutation_app_tail. exact H1.
  - apply Forall2_upd; [exact H2|]. split; [destruct vs; discriminate|]. change 1%Z with (Z.of_nat (length [x])).
    apply (av_combine HA); auto; [discriminate|apply (av_one HA); exact Hx|cbn [length]; lia].
  - rewrite map_upd, H3. f_equal. rewrite app_length. cbn [length]. lia.
Qed.

Lemma sexec_avg bs oa ratio s ops rs s' : sexec N Sp bs oa ratio s ops rs s' -> forall p, avg_inv s p -> Forall P p ->
  Forall P (s_queue s ++ accepted ops rs) -> (Z.of_nat (length p + taken rs) <= M)%Z ->
  avg_inv s' (p ++ firstn (taken rs) (s_queue s ++ accepted ops rs)).
Proof.
  induction 1 as [s|s o r s1 ops rs s2 H1 H2 IH]; intros p Hp HP Hd HM; [cbn; rewrite app_nil_r; exact Hp|].
  change (taken (r :: rs)) with (takes r + taken rs)%nat in *.
  pose proof (sstep_cases _ _ _ _ _ _ _ _ _ H1) as Hc. destruct o as [x| |t].
  - destruct Hc as (_ & C1 & C2 & _ & [(_ & -> & Hq)|(_ & -> & ->)]); cbn [takes accepted Nat.add] in *.
    + specialize (IH p). rewrite Hq, <- app_assoc in IH. cbn [app] in IH. apply IH; auto.
      unfold avg_inv in *. rewrite C1, C2. exact Hp.
    + apply IH; assumption.
  - destruct (s_queue s) as [|x q] eqn:Hq.
    + destruct Hc as [-> ->]. cbn [takes accepted Nat.add] in *. rewrite Hq in *. apply IH; assumption.
    + destruct Hc as (Hq1 & -> & Ha & _). cbn [takes accepted Nat.add app firstn] in *. rewrite Hq1 in *.
      inversion Hd as [|? ? Hx Hd']; subst. specialize (IH (p ++ [x])). rewrite <- app_assoc in IH. cbn [app] in IH.
      apply IH; [apply (added_avg s s1 x p Hx Hp Ha)|apply Forall_app; auto|exact Hd'|rewrite app_length; cbn [length]; lia].
  - destruct (s_queue s) as [|x q] eqn:Hq.
    + destruct Hc as [-> ->]. cbn [takes accepted Nat.add] in *. rewrite Hq in *. apply IH; assumption.
    + destruct Hc as (Hq1 & -> & Ha & _). cbn [takes accepted Nat.add app firstn] in *. rewrite Hq1 in *.
      inversion Hd as [|? ? Hx Hd']; subst. specialize (IH (p ++ [x])). rewrite <- app_assoc in IH. cbn [app] in IH.
      apply IH; [|apply Forall_app; auto|exact Hd'|rewrite app_length; cbn [length]; lia]. destruct Ha as [Ha|[l Ha]].
      * apply (added_avg s s1 x p Hx Hp Ha).
      * apply (merged_avg s s1 x l p HP Hx ltac:(lia) Hp Ha).
Qed.
End StreamingAverages.

Lemma float_streaming_main : forall k d bs oa ratio (elemts : list (list b64)) ops rs s,
  (-1020 <= k <= 970)%Z -> (Z.of_nat (taken rs) < 2 ^ 53)%Z ->
  sexec B64Num euclid64 bs oa ratio (new_streaming B64Num elemts) ops rs s ->
  Forall (box_vec k d) (elemts ++ accepted ops rs) ->
  Forall (box_vec k d) (s_clust s) /\
  exists parts,
    Permutation (concat parts) (firstn (taken rs) (elemts ++ accepted ops rs)) /\
    s_cards s = map (fun vs => Z.of_nat (length vs)) parts /\
    Forall2 (fun c vs => vs <> [] /\ forall j, (j < d)%nat ->
       Rabs (coord j (reals c) - rsum (map (fun v => coord j (reals v)) vs) / INR (length vs))
       <= INR (length vs) * powerRZ 2 (k - 51)) (s_clust s) parts.
Proof.
  intros k d bs oa ratio elemts ops rs s Hk Hn H Hd.
  destruct (sexec_avg B64Num euclid64 max_count _ _ (near_averages k d Hk) bs oa ratio _ _ _ _ H []) as (parts & H1 & H2 & H3).
  - exists []. repeat split; constructor.
  - constructor.
  - exact Hd.
  - unfold max_count. cbn [length Nat.add]. lia.
  - cbn [app] in H1. split.
    + clear -H2. induction H2 as [|c vs cs vss [_ [Hb _]] _ IH]; constructor; assumption.
    + exists parts. split; [exact H1|]. split; [exact H3|]. clear -H2. induction H2 as [|c vs cs vss [Hne [_ Hq]] _ IH]; constructor; auto.
Qed.

(** ** Witnesses of rounding *)
Definition tenth (z : Z) : list b64 := [b64_div (b64_of_Z z) (b64_of_Z 10)].

Lemma float_loss_refuted : forall pow : b64 -> b64 -> b64, (forall x, pow x (b64_of_Z 2) = b64_mul x x) ->
  exists c data c' l l', Forall (fun x => In x c) data /\
    seq_iterate B64Num euclid64 c data = Ok (map Some c') /\
    total_loss B64Num euclid64 pow c data (b64_of_Z 2) = Ok l /\
    total_loss B64Num euclid64 pow c' data (b64_of_Z 2) = Ok l' /\
    b64_eqb l (b64_of_Z 0) = true /\ b64_ltb l l' = true.
Proof.
  intros pow Hpow. set (c := [tenth 1]). set (data := [tenth 1; tenth 1; tenth 1]).
  destruct (seq_iterate_lloyd B64Num _ B64NumOrd euclid64 c data ltac:(discriminate)) as (c' & Hit & _).
  assert (Hloss : forall cs, total_loss B64Num euclid64 pow cs data (b64_of_Z 2)
     = total_loss B64Num euclid64 (fun x _ => b64_mul x x) cs data (b64_of_Z 2)).
  { intros cs. unfold total_loss.
    assert (Hadd : forall lb mn st, loss_add B64Num pow (b64_of_Z 2) lb mn st = loss_add B64Num (fun x _ => b64_mul x x) (b64_of_Z 2) lb mn st).
    { intros lb mn [ls cds]. unfold loss_add. destruct (sget cds lb); cbn [obind]; [|reflexivity].
      destruct (sset cds lb _); cbn [obind]; [|reflexivity]. destruct (sget ls lb); cbn [obind]; [|reflexivity]. rewrite Hpow. reflexivity. }
    assert (Hred : reduce_loss B64Num euclid64 pow cs data (b64_of_Z 2) = reduce_loss B64Num euclid64 (fun x _ => b64_mul x x) cs data (b64_of_Z 2)).
    { unfold reduce_loss. generalize (repeat (nof B64Num 0) (length cs), repeat 0%Z (length cs)). clear -Hadd.
      induction data as [|x l IH]; intros st; [reflexivity|]. cbn [ofold].
      destruct (nearest B64Num euclid64 cs x) as [lb mn]. rewrite Hadd.
      destruct (loss_add _ _ _ _ _ st) as [st'|]; cbn [obind]; [apply IH|reflexivity]. }
    rewrite Hred. reflexivity. }
  exists c, data, c'.
  set (c1 := match seq_iterate B64Num euclid64 c data with Ok l => map (fun o => match o with Some x => x | None => [] end) l | Panic => [] end).
  assert (Hc1 : c' = c1).
  { unfold c1. rewrite Hit, map_map. symmetry. apply map_id. }
  assert (H0 : match total_loss B64Num euclid64 (fun x _ => b64_mul x x) c data (b64_of_Z 2),
                     total_loss B64Num euclid64 (fun x _ => b64_mul x x) c1 data (b64_of_Z 2) with
               | Ok l, Ok l' => b64_eqb l (b64_of_Z 0) && b64_ltb l l' | _, _ => false end = true) by (vm_compute; reflexivity).
  rewrite <- Hc1, <- !Hloss in H0.
  destruct (total_loss B64Num euclid64 pow c data (b64_of_Z 2)) as [l|]; [|discriminate].
  destruct (total_loss B64Num euclid64 pow c' data (b64_of_Z 2)) as [l'|]; [|discriminate].
  apply andb_true_iff in H0. exists l, l'. split; [repeat constructor|]. split; [exact Hit|]. tauto.
Qed.

Definition shown64 (o : outcome (list (option (list b64)))) : option (list (option (list SpecFloat.spec_float))) :=
  match o with Ok l => Some (map (option_map (map show64)) l) | Panic => None end.

Lemma float_grouping_refuted : exists c data data' : list (list b64),
   Permutation data data' /\
  par_iterate B64Num euclid64 2 c data <> seq_iterate B64Num euclid64 c data /\
  seq_iterate B64Num euclid64 c data' <> seq_iterate B64Num euclid64 c data.
Proof.
  exists [tenth 0], [tenth 1; tenth 1; tenth 4], [tenth 4; tenth 1; tenth 1]. split; [|split].
  - apply Permutation_sym. apply (Permutation_cons_append [tenth 1; tenth 1] (tenth 4)).
  - intros H. apply (f_equal shown64) in H. vm_compute in H. discriminate.
  - intros H. apply (f_equal shown64) in H. vm_compute in H. discriminate.
Qed.

(** Small integers are in the box. *)
Lemma in_box_of_Z k z : (0 <= k)%Z -> (Z.abs z <= 2 ^ k)%Z -> (Z.abs z <= 2 ^ 53)%Z -> in_box k (b64_of_Z z).
Proof.
  intros Hk Hz H53. destruct (b64_of_Z_exact z H53) as [H1 H2]. split; [exact H2|]. rewrite H1, <- abs_IZR.
  rewrite pow2_bpow, <- (IZR_Zpower radix2 k Hk). apply IZR_le. exact Hz.
Qed.

Lemma box_of_Zs k l : (0 <= k <= 53)%Z -> forallb (fun z => (Z.abs z <=? 2 ^ k)%Z) l = true -> box_vec k (length l) (v64 l).
Proof.
  intros Hk H. rewrite forallb_forall in H. split; [apply map_length|]. apply Forall_map. apply Forall_forall. intros z Hz.
  specialize (H z Hz). apply Z.leb_le in H. pose proof (Z.pow_le_mono_r 2 k 53 ltac:(lia) ltac:(lia)).
  apply in_box_of_Z; lia.
Qed.
