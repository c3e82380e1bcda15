(** The exact loss of the float64 centroids (C85). *)
From Coq Require Import List ZArith Lia Bool Reals Lra Psatz.
From Flocq Require Import Core IEEE754.BinarySingleNaN.
From Verif Require Import Base.Go Base.Num Model.Clustering Model.Par Model.Euclid Model.Kmeans
  Spec.ClusterSpec Spec.RealSpec Spec.KmeansSpec Spec.NearestSpec Spec.FloatSpec
  Proofs.GoLemmas Proofs.NumLaws Proofs.NearestProofs Proofs.RealLemmas Proofs.ReduceMain Proofs.EuclidProofs Proofs.KmeansProofs Proofs.EuclidFloat Proofs.FloatMean Proofs.FloatKmeans Proofs.SpaceMain Proofs.AssignMain Proofs.ConfProofs Proofs.StreamingProofs Proofs.FloatDist.
Import ListNotations.
Local Open Scope R_scope.
Local Notation euclid64 := (euclid_space B64Num).

(** A point at most [e] from the mean is almost as good as any other point. *)
Lemma sum_sq_near {A} (f : A -> R) (l : list A) (m k e : R) : l <> [] -> Rabs (m - rsum (map f l) / INR (length l)) <= e ->
  rsum (map (fun x => (f x - m) * (f x - m)) l) <= rsum (map (fun x => (f x - k) * (f x - k)) l) + INR (length l) * (e * e).
Proof.
  intros Hne He. assert (Hn : 0 < INR (length l)) by (apply lt_0_INR; destruct l; [contradiction|cbn; lia]).
  set (mu := rsum (map f l) / INR (length l)) in *. assert (Hs : rsum (map f l) = INR (length l) * mu) by (unfold mu; field; lra).
  assert (H : forall z, rsum (map (fun x => (f x - z) * (f x - z)) l)
    = rsum (map (fun x => (f x - mu) * (f x - mu)) l) + INR (length l) * ((mu - z) * (mu - z))).
  { intros z. rewrite (rsum_ext (fun x => (f x - z) * (f x - z)) (fun x => (f x - mu) * (f x - mu) + ((2 * (mu - z)) * f x + (z * z - mu * mu)))) by (intros; ring).
    rewrite rsum_plus, rsum_plus, rsum_scal, rsum_const, Hs. ring. }
  rewrite (H m), (H k). assert ((mu - m) * (mu - m) <= e * e).
  { pose proof (Rabs_le_inv _ _ He) as [He1 He2]. assert (0 <= e) by lra. assert (0 <= (e - (m - mu)) * (e + (m - mu))) by (apply Rmult_le_pos; lra). nra. }
  assert (0 <= (mu - k) * (mu - k)) by apply Rle_0_sqr. nra.
Qed.

Lemma vec_near d (l : list (list R)) (m k : list R) e : l <> [] -> all_dim d l -> length m = d -> length k = d ->
  (forall j, (j < d)%nat -> Rabs (coord j m - rsum (map (coord j) l) / INR (length l)) <= e) ->
  rsum (map (fun x => sqdist x m) l) <= rsum (map (fun x => sqdist x k) l) + INR d * (INR (length l) * (e * e)).
Proof.
  intros Hne Hd Hm Hk He. unfold all_dim in Hd. rewrite Forall_forall in Hd.
  rewrite (rsum_ext _ (fun x => rsum (map (fun j => (coord j x - coord j m) * (coord j x - coord j m)) (seq 0 d)))) by (intros x Hx; apply sqdist_coords; auto).
  rewrite (rsum_ext (fun x => sqdist x k) (fun x => rsum (map (fun j => (coord j x - coord j k) * (coord j x - coord j k)) (seq 0 d)))) by (intros x Hx; apply sqdist_coords; auto).
  rewrite (rsum_swap (fun x j => (coord j x - coord j m) * (coord j x - coord j m))).
  rewrite (rsum_swap (fun x j => (coord j x - coord j k) * (coord j x - coord j k))).
  pose proof (rsum_const (INR (length l) * (e * e)) (seq 0 d)) as Hc. rewrite seq_length in Hc. rewrite <- Hc.
  rewrite <- rsum_plus. apply rsum_le. intros j Hj. apply in_seq in Hj. apply sum_sq_near; [exact Hne|]. apply He. lia.
Qed.

(** ** Accuracy of the distance and of the choice of a centroid *)
Lemma dist_main : forall k d (p1 p2 : list b64), (-500 <= k <= 480)%Z -> (Z.of_nat d <= 2 ^ 47)%Z -> box_vec k d p1 -> box_vec k d p2 ->
  exists D, point_dist B64Num p1 p2 = Ok D /\ is_finite D = true /\ Rabs (B2R D - exact_dist p1 p2) <= rel_err d * exact_dist p1 p2 + abs_err d.
Proof.
  intros k d p1 p2 Hk Hd H1 H2. destruct (dist64 k d p1 p2 Hk ltac:(lia) H1 H2) as [F E]. cbn [sdist euclid_space] in F, E.
  destruct (euclid_float_main p1 p2) as (D & HD & _).
  - eapply Forall_impl; [|apply H1]. intros a Ha. apply Ha.
  - eapply Forall_impl; [|apply H2]. intros a Ha. apply Ha.
  - destruct H1 as [-> _], H2 as [-> _]. reflexivity.
  - rewrite HD in F, E. exists D. auto.
Qed.

Lemma rel_small d : (Z.of_nat d <= 2 ^ 47)%Z -> powerRZ 2 (-50) <= rel_err d <= / 31.
Proof.
  intros Hd. unfold rel_err. rewrite !pow2_bpow. pose proof (pos_INR d). pose proof (bpow_gt_0 radix2 (-52)) as Hp. split.
  - change (-50)%Z with (2 + -52)%Z. rewrite bpow_plus. change (bpow radix2 2) with 4. nra.
  - assert (INR d <= bpow radix2 47) by (rewrite INR_IZR_INZ; change (bpow radix2 47) with (IZR (2 ^ 47)); apply IZR_le; exact Hd).
    apply Rle_trans with ((bpow radix2 47 + bpow radix2 2) * bpow radix2 (-52)); [apply Rmult_le_compat_r; [lra|]; change (bpow radix2 2) with 4; lra|].
    rewrite Rmult_plus_distr_r, <- !bpow_plus. change (bpow radix2 (47 + -52)) with (/ 32).
    assert (bpow radix2 (2 + -52) <= bpow radix2 (-10)) by (apply bpow_le; lia). change (bpow radix2 (-10)) with (/ 1024) in H1. lra.
Qed.
Lemma abs_pos d : 0 <= abs_err d.
Proof. unfold abs_err. rewrite pow2_bpow. apply Rmult_le_pos; [apply pos_INR|apply bpow_ge_0]. Qed.

Lemma leb_finite (x y : b64) : is_finite x = true -> is_finite y = true -> b64_leb x y = true -> B2R x <= B2R y.
Proof.
  intros Fx Fy H. unfold b64_leb in H. rewrite (Bleb_correct prec64 emax64 x y Fx Fy) in H. apply Rle_bool_iff. exact H.
Qed.

Lemma nearest_main : forall k d (c : list (list b64)) (x : list b64), (-500 <= k <= 480)%Z -> (Z.of_nat d <= 2 ^ 47)%Z ->
  c <> [] -> Forall (box_vec k d) c -> box_vec k d x ->
  exists l cl, assign B64Num euclid64 c x = Ok (Some cl, Z.of_nat l, sdist euclid64 x cl) /\ nth_error c l = Some cl /\
    forall y, In y c -> exact_dist x cl <= (1 + 3 * rel_err d) * exact_dist x y + 3 * abs_err d.
Proof.
  intros k d c x Hk Hd Hc HC Hx. 
  destruct (predict_finite c x Hc) as (l & cl & HA & Hl & Hb & _).
  { eapply Forall_impl; [|apply Hx]. intros a Ha. apply Ha. }
  { apply Forall_forall. intros v Hv. rewrite Forall_forall in HC. destruct (HC v Hv) as [L B]. split; [|destruct Hx; congruence].
    eapply Forall_impl; [|exact B]. intros a Ha. apply Ha. }
  exists l, cl. split; [exact HA|]. split; [exact Hl|]. intros y Hy. apply In_nth_error in Hy as [j Hj].
  rewrite Forall_forall in HC. pose proof (HC cl (nth_error_In c l Hl)) as Bl. pose proof (HC y (nth_error_In c j Hj)) as By.
  destruct (dist64 k d x cl Hk ltac:(lia) Hx Bl) as [F1 E1]. destruct (dist64 k d x y Hk ltac:(lia) Hx By) as [F2 E2].
  pose proof (leb_finite _ _ F1 F2 (Hb j y Hj)) as H. fold (exact_dist x cl) in E1. fold (exact_dist x y) in E2.
  apply Rabs_le_inv in E1 as [E1 _]. apply Rabs_le_inv in E2 as [_ E2].
  destruct (rel_small d Hd) as [Hr0 Hr]. pose proof (abs_pos d) as Ha. assert (0 <= exact_dist x cl) by apply sqrt_pos. assert (0 <= exact_dist x y) by apply sqrt_pos.
  set (r := rel_err d) in *. set (h := abs_err d) in *. set (a := exact_dist x cl) in *. set (b := exact_dist x y) in *.
  assert (0 < r) by (apply Rlt_le_trans with (2 := Hr0); rewrite pow2_bpow; apply bpow_gt_0). clear Hr0.
  assert (K : (1 - r) * a <= (1 + r) * b + 2 * h) by lra.
  apply (Rmult_le_reg_l (1 - r)); [lra|]. apply (Rle_trans _ _ _ K).
  assert (Q : 1 + r <= (1 - r) * (1 + 3 * r)) by nra. assert (2 * h <= (1 - r) * (3 * h)) by nra.
  assert ((1 + r) * b <= (1 - r) * (1 + 3 * r) * b) by (apply Rmult_le_compat_r; assumption). lra.
Qed.

(** ** The loss *)
Fixpoint argmin (f : list b64 -> R) (best : list b64) (c : list (list b64)) : list b64 :=
  match c with [] => best | y :: c' => argmin f (if Rle_dec (f best) (f y) then best else y) c' end.
Lemma argmin_spec f c : forall best, In (argmin f best c) (best :: c) /\ forall y, In y (best :: c) -> f (argmin f best c) <= f y.
Proof.
  induction c as [|z c IH]; intros best; cbn [argmin].
  - split; [left; reflexivity|]. intros y [<-|[]]. lra.
  - destruct (Rle_dec (f best) (f z)) as [H|H]; destruct (IH (if Rle_dec (f best) (f z) then best else z)) as [I1 I2].
    all: destruct (Rle_dec (f best) (f z)) as [H'|H'] in I1, I2; try contradiction.
    + split; [destruct I1; [left; assumption|right; right; assumption]|].
      intros y [<-|[<-|Hy]]; [apply I2; left; reflexivity|apply Rle_trans with (f best); [apply I2; left; reflexivity|exact H]|apply I2; right; exact Hy].
    + split; [destruct I1; [right; left; assumption|right; right; assumption]|].
      intros y [<-|[<-|Hy]]; [apply Rle_trans with (f z); [apply I2; left; reflexivity|lra]|apply I2; left; reflexivity|apply I2; right; exact Hy].
Qed.

Lemma exact_loss_exists c data : c <> [] -> exists l, exact_loss c data l /\
  forall g, (forall x, In x data -> In (g x) c) -> l <= rsum (map (fun x => sqdist (reals x) (reals (g x))) data).
Proof.
  intros Hc. destruct c as [|c0 c]; [contradiction|]. set (near := fun x => argmin (fun y => exact_dist x y) c0 c).
  exists (rsum (map (fun x => exact_dist x (near x) * exact_dist x (near x)) data)). split.
  - exists near. split; [|reflexivity]. intros x _. apply (argmin_spec (fun y => exact_dist x y) c c0).
  - intros g Hg. apply rsum_le. intros x Hx. pose proof (proj2 (argmin_spec (fun y => exact_dist x y) c c0) (g x) (Hg x Hx)) as H.
    cbn beta in H. fold (near x) in H. pose proof (sqrt_sqrt _ (sqdist_nonneg (reals x) (reals (g x)))) as Hs. fold (exact_dist x (g x)) in Hs. rewrite <- Hs.
    assert (0 <= exact_dist x (near x)) by apply sqrt_pos. nra.
Qed.

Lemma square_bound a b r h : 0 <= a -> 0 <= b -> powerRZ 2 (-50) <= r <= / 31 -> 0 <= h -> a <= (1 + 3 * r) * b + 3 * h ->
  a * a <= (1 + 8 * r) * (b * b) + powerRZ 2 55 * (h * h).
Proof.
  intros Ha Hb [Hr0 Hr] Hh H.
  assert (Hp : 0 < powerRZ 2 (-50)) by (rewrite pow2_bpow; apply bpow_gt_0).
  assert (Hinv : / r <= powerRZ 2 50).
  { apply Rle_trans with (/ powerRZ 2 (-50)); [apply Rinv_le; assumption|]. rewrite !pow2_bpow, <- bpow_opp. apply Rle_refl. }
  assert (Hr' : 0 < r) by lra.
  set (m := (1 + 3 * r) * b) in *. assert (Hm : 0 <= m) by (unfold m; nra).
  assert (H1 : a * a <= (m + 3 * h) * (m + 3 * h)) by nra.
  assert (H2 : (m + 3 * h) * (m + 3 * h) <= (1 + r) * (m * m) + (1 + / r) * ((3 * h) * (3 * h))).
  { assert (0 <= (r * m - 3 * h) * (r * m - 3 * h) * / r) by (apply Rmult_le_pos; [apply Rle_0_sqr|left; apply Rinv_0_lt_compat; exact Hr']).
    replace ((r * m - 3 * h) * (r * m - 3 * h) * / r) with (r * (m * m) - 2 * m * (3 * h) + / r * (3 * h * (3 * h))) in H0 by (field; lra). lra. }
  assert (H3 : (1 + r) * (m * m) <= (1 + 8 * r) * (b * b)).
  { unfold m. replace ((1 + r) * ((1 + 3 * r) * b * ((1 + 3 * r) * b))) with (((1 + r) * ((1 + 3 * r) * (1 + 3 * r))) * (b * b)) by ring.
    apply Rmult_le_compat_r; [apply Rle_0_sqr|]. assert (15 * r + 9 * (r * r) <= 1) by nra. nra. }
  assert (H4 : (1 + / r) * (3 * h * (3 * h)) <= powerRZ 2 55 * (h * h)).
  { replace ((1 + / r) * (3 * h * (3 * h))) with ((9 + 9 * / r) * (h * h)) by ring. apply Rmult_le_compat_r; [apply Rle_0_sqr|].
    replace (powerRZ 2 55) with (32 * powerRZ 2 50) by (rewrite !pow2_bpow; change 55%Z with (5 + 50)%Z; rewrite bpow_plus; reflexivity).
    assert (1 <= powerRZ 2 50) by (rewrite pow2_bpow; change 1 with (bpow radix2 0); apply bpow_le; lia). lra. }
  lra.
Qed.

Lemma loss_main : forall par k d (c data : list (list b64)) l, valid_par par -> c <> [] -> (-500 <= k <= 480)%Z -> (Z.of_nat d <= 2 ^ 47)%Z ->
  (Z.of_nat (length data) < 2 ^ 53)%Z -> Forall (box_vec k d) c -> Forall (box_vec k d) data -> exact_loss c data l ->
  exists c' l', strategy_iterate B64Num euclid64 par c data = Ok (map Some c') /\ length c' = length c /\ exact_loss c' data l' /\
    l' <= (1 + 8 * rel_err d) * l + INR (length data) * (INR d * (INR (length data) * powerRZ 2 (k - 51)) ^ 2 + powerRZ 2 55 * abs_err d ^ 2).
Proof.
  intros par k d c data l Hp Hc Hk Hd Hn HC HD (near & Hnear & Hl).
  set (lab := fun x => fst (nearest B64Num euclid64 c x)).
  assert (Hlab : forall x, exists cl di, assign B64Num euclid64 c x = Ok (cl, lab x, di)).
  { intros x. destruct (nearest_assign B64Num euclid64 _ B64NumOrd c x) as [cl H]. exists cl. eexists. exact H. }
  destruct (float_mean_main par k d c data lab Hp Hc ltac:(lia) Hn HD Hlab) as (c' & H1 & H2 & H3).
  assert (Hc' : c' <> []) by (intros ->; destruct c; [contradiction|discriminate]).
  destruct (exact_loss_exists c' data Hc') as (l' & H4 & H5). exists c', l'. split; [exact H1|]. split; [exact H2|]. split; [exact H4|].
  assert (Hsel : forall x, In x data -> exists i ci, lab x = Z.of_nat i /\ nth_error c i = Some ci /\ 
     forall y, In y c -> exact_dist x ci <= (1 + 3 * rel_err d) * exact_dist x y + 3 * abs_err d).
  { intros x Hx. rewrite Forall_forall in HD. destruct (nearest_main k d c x Hk Hd Hc HC (HD x Hx)) as (i & ci & A1 & A2 & A3).
    exists i, ci. split; [|split; assumption]. destruct (Hlab x) as (cl & di & A4). rewrite A1 in A4. injection A4 as _ A4 _. symmetry. exact A4. }
  assert (Hrange : Forall (fun x => (0 <= lab x < Z.of_nat (length c))%Z) data).
  { apply Forall_forall. intros x Hx. destruct (Hsel x Hx) as (i & ci & A1 & A2 & _). rewrite A1.
    assert (i < length c)%nat by (apply nth_error_Some; congruence). lia. }
  set (moved := fun x => nth (Z.to_nat (lab x)) c' []). set (sel := fun x => nth (Z.to_nat (lab x)) c []).
  set (e := INR (length data) * powerRZ 2 (k - 51)).
  assert (He : 0 <= e) by (unfold e; apply Rmult_le_pos; [apply pos_INR|rewrite pow2_bpow; apply bpow_ge_0]).
  apply Rle_trans with (rsum (map (fun x => sqdist (reals x) (reals (moved x))) data)).
  { apply H5. intros x Hx. unfold moved. apply nth_In. rewrite Forall_forall in Hrange. specialize (Hrange x Hx). lia. }
  apply Rle_trans with (rsum (map (fun x => sqdist (reals x) (reals (sel x)) + INR d * (e * e)) data)).
  - rewrite <- (rsum_partition (fun x => sqdist (reals x) (reals (moved x))) lab (length c) data Hrange).
    rewrite <- (rsum_partition (fun x => sqdist (reals x) (reals (sel x)) + INR d * (e * e)) lab (length c) data Hrange).
    apply rsum_le. intros i Hi. apply in_seq in Hi. change (filter _ data) with (members lab i data).
    destruct (nth_error c i) as [ci|] eqn:Hci; [|apply nth_error_None in Hci; lia].
    destruct (nth_error c' i) as [ci'|] eqn:Hci'; [|apply nth_error_None in Hci'; lia].
    rewrite (rsum_ext (fun x => sqdist (reals x) (reals (moved x))) (fun x => sqdist (reals x) (reals ci'))).
    2: { intros x Hx. apply filter_In in Hx as [_ Hx]. apply Z.eqb_eq in Hx. unfold moved. rewrite Hx, Nat2Z.id, (nth_error_nth c' i [] Hci'). reflexivity. }
    rewrite (rsum_ext (fun x => sqdist (reals x) (reals (sel x)) + INR d * (e * e)) (fun x => sqdist (reals x) (reals ci) + INR d * (e * e))).
    2: { intros x Hx. apply filter_In in Hx as [_ Hx]. apply Z.eqb_eq in Hx. unfold sel. rewrite Hx, Nat2Z.id, (nth_error_nth c i [] Hci). reflexivity. }
    rewrite rsum_plus, rsum_const. destruct (H3 i ci ci' Hci Hci') as [A1 A2].
    destruct (members lab i data) as [|x0 xs] eqn:Hm; [cbn; lra|]. rewrite <- Hm in *.
    assert (Hne : members lab i data <> []) by (rewrite Hm; discriminate). destruct (A2 Hne) as [A3 A4].
    assert (Hlen : INR (length (members lab i data)) <= INR (length data)) by (apply le_INR; unfold members; clear; induction data as [|a l IH]; cbn; [lia|destruct (_ =? _)%Z; cbn; lia]).
    pose proof (vec_near d (map reals (members lab i data)) (reals ci') (reals ci) e) as V. rewrite map_length, !map_map in V.
    replace (INR (length (members lab i data)) * (INR d * (e * e))) with (INR d * (INR (length (members lab i data)) * (e * e))) by ring.
    apply V.
    + intros X. apply map_eq_nil in X. contradiction.
    + apply Forall_map, Forall_forall. intros x Hx. unfold reals. rewrite map_length. apply filter_In in Hx as [Hx _]. rewrite Forall_forall in HD. apply (HD x Hx).
    + unfold reals. rewrite map_length. exact A3.
    + unfold reals. rewrite map_length. rewrite Forall_forall in HC. apply (HC ci (nth_error_In c i Hci)).
    + intros j Hj. rewrite map_map. apply (Rle_trans _ _ _ (A4 j Hj)). unfold e. apply Rmult_le_compat_r; [rewrite pow2_bpow; apply bpow_ge_0|exact Hlen].
  - rewrite rsum_plus, rsum_const. apply Rle_trans with
      (rsum (map (fun x => (1 + 8 * rel_err d) * (exact_dist x (near x) * exact_dist x (near x)) + powerRZ 2 55 * (abs_err d * abs_err d)) data) + INR (length data) * (INR d * (e * e))).
    + apply Rplus_le_compat_r. apply rsum_le. intros x Hx. destruct (Hsel x Hx) as (i & ci & B1 & B2 & B3).
      unfold sel. rewrite B1, Nat2Z.id, (nth_error_nth c i [] B2). rewrite <- (sqrt_sqrt _ (sqdist_nonneg (reals x) (reals ci))). fold (exact_dist x ci).
      apply square_bound; try apply sqrt_pos; [apply rel_small; exact Hd|apply abs_pos|]. apply B3. apply Hnear. exact Hx.
    + rewrite rsum_plus, rsum_const, rsum_scal, <- Hl. fold e. right. ring.
Qed.

Lemma loss_case : let c := [v64 [0]; v64 [9]]%Z in let data := [v64 [0]; v64 [0]; v64 [1]]%Z in
  valid_par None /\ c <> [] /\ (-500 <= 4 <= 480)%Z /\ (Z.of_nat 1 <= 2 ^ 47)%Z /\ Forall (box_vec 4 1) c /\ Forall (box_vec 4 1) data /\ exact_loss c data 1.
Proof.
  cbv zeta. split; [exact I|]. split; [discriminate|]. split; [lia|]. split; [lia|].
  split; [repeat (apply Forall_cons; [apply (box_of_Zs 4); (lia || reflexivity)|]); apply Forall_nil|].
  split; [repeat (apply Forall_cons; [apply (box_of_Zs 4); (lia || reflexivity)|]); apply Forall_nil|].
  assert (V : forall z, (Z.abs z <= 2 ^ 53)%Z -> reals (v64 [z]) = [IZR z]) by (intros z Hz; unfold reals, v64; cbn [map]; rewrite (proj1 (b64_of_Z_exact z Hz)); reflexivity).
  assert (D : forall a b, (Z.abs a <= 2 ^ 53)%Z -> (Z.abs b <= 2 ^ 53)%Z -> exact_dist (v64 [a]) (v64 [b]) = Rabs (IZR a - IZR b)).
  { intros a b Ha Hb. unfold exact_dist. rewrite (V a Ha), (V b Hb). rewrite <- sqrt_Rsqr_abs. f_equal. unfold sqdist, Rsqr. cbn. ring. }
  exists (fun _ => v64 [0]%Z). split.
  - intros x [<-|[<-|[<-|[]]]]; (split; [left; reflexivity|]); intros y [<-|[<-|[]]]; rewrite !D by (cbn; lia); unfold Rabs; repeat destruct Rcase_abs; lra.
  - cbn [map rsum]. rewrite !D by (cbn; lia). rewrite !Rminus_0_r, Rabs_R0, Rabs_R1. unfold rsum; cbn. ring.
Qed.
