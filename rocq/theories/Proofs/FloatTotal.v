(** Total losses in binary64 against the exact ones (C114). *)
From Coq Require Import List ZArith Lia Bool Reals Lra Psatz Permutation.
From Flocq Require Import Core IEEE754.BinarySingleNaN.
From Verif Require Import Base.Go Base.Num Model.Clustering Model.Par Model.Euclid Model.Kmeans
  Spec.ClusterSpec Spec.RealSpec Spec.KmeansSpec Spec.NearestSpec Spec.FloatSpec Spec.FloatTotalSpec
  Proofs.GoLemmas Proofs.NumLaws Proofs.NearestProofs Proofs.RealLemmas Proofs.ReduceProofs Proofs.ParReduceProofs Proofs.ReduceMain Proofs.EuclidProofs Proofs.KmeansProofs Proofs.EuclidFloat
  Proofs.FloatMean Proofs.FloatKmeans Proofs.SpaceMain Proofs.AssignMain Proofs.ConfProofs Proofs.StreamingProofs Proofs.FloatDist Proofs.FloatLoss Proofs.FloatDtw.
Import ListNotations.
Local Open Scope R_scope.
Local Notation euclid64 := (euclid_space B64Num).

#[local] Existing Instance prec64_gt_0.
#[local] Existing Instance prec64_lt_emax.
#[local] Instance exp64t : Valid_exp (SpecFloat.fexp prec64 emax64) := fexp_correct prec64 emax64 prec64_gt_0.
#[local] Instance rnd64t : Valid_rnd (round_mode mode_NE) := valid_rnd_round_mode mode_NE.

(** ** Sums in any order. [s] is a sum of [w] nonnegative terms at most [B] with exact sum [T]. *)
Definition acc (B w T : R) (s : b64) : Prop :=
  is_finite s = true /\ (w = 0 \/ 1 <= w) /\ 0 <= T <= w * B /\ Rabs (B2R s - T) <= w * bpow radix2 (-52) * T.

Lemma acc_zero B : acc B 0 0 (b64_of_Z 0).
Proof.
  destruct (b64_of_Z_exact 0 ltac:(lia)) as [E F]. split; [exact F|]. split; [left; reflexivity|]. split; [lra|]. rewrite E. cbn [IZR].
  replace (0 - 0) with 0 by ring. rewrite Rabs_R0. lra.
Qed.

Lemma acc_one B (x : b64) : is_finite x = true -> 0 <= B2R x <= B -> acc B 1 (B2R x) x.
Proof.
  intros F H. split; [exact F|]. split; [right; lra|]. split; [lra|]. replace (B2R x - B2R x) with 0 by ring. rewrite Rabs_R0.
  pose proof (bpow_ge_0 radix2 (-52)). nra.
Qed.

Lemma acc_add B w1 T1 s1 w2 T2 s2 : 0 <= B <= bpow radix2 960 -> (w1 + w2) * bpow radix2 (-52) <= / 2 ->
  acc B w1 T1 s1 -> acc B w2 T2 s2 -> acc B (w1 + w2) (T1 + T2) (b64_add s1 s2).
Proof.
  intros HB Hw (F1 & W1 & R1 & E1) (F2 & W2 & R2 & E2).
  assert (H52 : bpow radix2 (-52) = 2 * uu) by (change (-52)%Z with (1 + -53)%Z; rewrite bpow_plus; reflexivity).
  rewrite H52 in *. pose proof uu_small as Hu. pose proof (plus_err (B2R s1) (B2R s2) (fmt_B2R s1) (fmt_B2R s2)) as Hp. set (u := uu) in *.
  assert (Hw1 : 0 <= w1) by lra. assert (Hw2 : 0 <= w2) by lra.
  assert (Z1 : w1 = 0 -> T1 = 0 /\ B2R s1 = 0).
  { intros Hz. rewrite Hz in R1, E1. assert (T1 = 0) by lra. split; [assumption|]. subst T1. rewrite Rmult_0_r in E1. apply Rabs_le_inv in E1. lra. }
  assert (Z2 : w2 = 0 -> T2 = 0 /\ B2R s2 = 0).
  { intros Hz. rewrite Hz in R2, E2. assert (T2 = 0) by lra. split; [assumption|]. subst T2. rewrite Rmult_0_r in E2. apply Rabs_le_inv in E2. lra. }
  apply Rabs_le_inv in E1. apply Rabs_le_inv in E2.
  assert (P1 : w1 * (2 * u) * T1 <= / 2 * T1) by (apply Rmult_le_compat_r; [lra|]; nra).
  assert (P2 : w2 * (2 * u) * T2 <= / 2 * T2) by (apply Rmult_le_compat_r; [lra|]; nra).
  assert (Hs : 0 <= B2R s1 + B2R s2 <= 2 * (T1 + T2)) by lra.
  rewrite (Rabs_right (B2R s1 + B2R s2)) in Hp by lra.
  assert (Bnd : Rabs (rnd (B2R s1 + B2R s2)) < bpow radix2 emax64).
  { apply Rle_lt_trans with (bpow radix2 1020); [|apply bpow_lt; reflexivity]. apply rnd_le; [apply pow_format; lia|]. rewrite Rabs_right by lra.
    assert (Jb : w1 + w2 <= bpow radix2 52). { assert (Q1 : bpow radix2 52 * (2 * u) = 1) by (rewrite <- H52, <- bpow_plus; reflexivity). apply Rmult_le_reg_r with (2 * u); [lra|]. rewrite Q1. lra. }
    apply Rle_trans with (2 * ((w1 + w2) * B)); [nra|]. apply Rle_trans with (bpow radix2 1 * (bpow radix2 52 * bpow radix2 960)).
    - change (bpow radix2 1) with 2. apply Rmult_le_compat_l; [lra|]. apply Rmult_le_compat; lra.
    - rewrite <- !bpow_plus. apply bpow_le. lia. }
  pose proof (Bplus_correct prec64 emax64 _ _ mode_NE s1 s2 F1 F2) as HA. fold (b64_add s1 s2) in HA. rewrite Rlt_bool_true in HA by exact Bnd. destruct HA as (V & F & _).
  split; [exact F|]. split; [lra|]. split; [lra|]. rewrite V, H52. apply Rabs_le.
  destruct W1 as [W1|W1].
  { destruct (Z1 W1) as [-> ->]. rewrite W1, !Rplus_0_l. rewrite round_generic; [lra| |apply fmt_B2R]. auto with typeclass_instances. }
  destruct W2 as [W2|W2].
  { destruct (Z2 W2) as [-> ->]. rewrite W2, !Rplus_0_r. rewrite round_generic; [lra| |apply fmt_B2R]. auto with typeclass_instances. }
  apply Rabs_le_inv in Hp.
  assert (u * (B2R s1 + B2R s2) <= u * (2 * (T1 + T2))) by (apply Rmult_le_compat_l; lra).
  assert (0 <= u * T1) by nra. assert (0 <= u * T2) by nra. assert (0 <= w2 * (u * T1) - u * T1) by nra. assert (0 <= w1 * (u * T2) - u * T2) by nra.
  split; nra.
Qed.

Lemma summed_acc B (l : list b64) s : 0 <= B <= bpow radix2 960 -> summed l s ->
  forall wt, Forall2 (fun x a => acc B (fst a) (snd a) x) l wt -> rsum (map fst wt) * bpow radix2 (-52) <= / 2 ->
  acc B (rsum (map fst wt)) (rsum (map snd wt)) s.
Proof.
  intros HB H. induction H as [|x|l l1 l2 a b HP _ IH1 _ IH2]; intros wt HF Hw.
  - inversion HF. cbn. apply acc_zero.
  - inversion HF as [|? ? ? ? H1 H2]; subst. inversion H2; subst. cbn. rewrite !Rplus_0_r. exact H1.
  - destruct (Permutation_Forall2 HP HF) as (wt' & HP' & HF'). rewrite (rsum_perm _ _ (Permutation_map fst HP')) in *. rewrite (rsum_perm _ _ (Permutation_map snd HP')) in *.
    apply Forall2_app_inv_l in HF' as (v1 & v2 & G1 & G2 & ->). rewrite !map_app, !rsum_app in *.
    assert (Pos : forall l v, Forall2 (fun (x : b64) a => acc B (fst a) (snd a) x) l v -> 0 <= rsum (map fst v)).
    { clear. intros l v H. induction H as [|x a l v H _ IH]; [cbn; lra|]. cbn [map]. rewrite rsum_cons. destruct H as (_ & H & _). lra. }
    pose proof (Pos _ _ G1) as Q1. pose proof (Pos _ _ G2) as Q2. pose proof (bpow_ge_0 radix2 (-52)) as Hb.
    apply acc_add; [exact HB|exact Hw|apply IH1; [exact G1|nra]|apply IH2; [exact G2|nra]].
Qed.

(** ** Losses of the clusters *)
Lemma skipn_next {A} k : forall (l : list A) x r, skipn k l = x :: r -> skipn (S k) l = r.
Proof. induction k as [|k IH]; intros l x r H; [cbn in H; rewrite H; reflexivity|]. destruct l as [|y l]; [discriminate H|]. exact (IH l x r H). Qed.

Section Terms.
Variables (pow : b64 -> b64 -> b64) (c : list (list b64)) (B : R).
Hypothesis HB : 0 <= B <= bpow radix2 960.
Let lab x := fst (nearest B64Num euclid64 c x).
Let dis x := snd (nearest B64Num euclid64 c x).
Let term x := pow (dis x) (b64_of_Z 2).
Let good x := is_finite (term x) = true /\ 0 <= B2R (term x) <= B.
Let one := fun _ : list b64 => 1.
Let sumt l := rsum (map (fun x => B2R (term x)) l).

Lemma fold_acc l : forall w T s, acc B w T s -> Forall good l -> (w + rsum (map one l)) * bpow radix2 (-52) <= / 2 ->
  acc B (w + rsum (map one l)) (T + sumt l) (fold_left (fun a d => nadd B64Num a (pow d (b64_of_Z 2))) (map dis l) s).
Proof.
  induction l as [|x l IH]; intros w T s H HF Hw; cbn [map fold_left]; unfold sumt; cbn [map].
  - cbn. rewrite !Rplus_0_r. exact H.
  - cbn [map] in Hw. rewrite !rsum_cons in *. inversion HF as [|? ? [F1 F2] HF']; subst. rewrite <- !Rplus_assoc. change (one x) with 1 in *. fold (sumt l).
    assert (0 <= rsum (map one l)) by (apply rsum_nonneg; apply Forall_forall; intros y Hy; apply in_map_iff in Hy as (? & <- & _); unfold one; lra).
    pose proof (bpow_ge_0 radix2 (-52)) as Hb. apply IH; [|exact HF'|rewrite Rplus_assoc; exact Hw].
    apply (acc_add B w T s 1 (B2R (term x)) (term x)); [exact HB|apply Rle_trans with (2 := Hw); apply Rmult_le_compat_r; [exact Hb|lra]|exact H|]. apply acc_one; assumption.
Qed.

Lemma loss_acc l : Forall good l -> rsum (map one l) * bpow radix2 (-52) <= / 2 ->
  acc B (rsum (map one l)) (sumt l) (loss_of B64Num pow (b64_of_Z 2) (map dis l)).
Proof.
  intros HF Hw. pose proof (fold_acc l 0 0 (b64_of_Z 0) (acc_zero B) HF) as H. rewrite !Rplus_0_l in H. apply H. exact Hw.
Qed.

Lemma one_nonneg l : 0 <= rsum (map one l).
Proof. apply rsum_nonneg. apply Forall_forall. intros y Hy. apply in_map_iff in Hy as (? & <- & _). unfold one. lra. Qed.
Lemma one_members i l : rsum (map one (members lab i l)) <= rsum (map one l).
Proof.
  induction l as [|x l IH]; cbn [members filter map]; [lra|]. fold (members lab i l). rewrite rsum_cons. unfold one at 2.
  destruct (_ =? _)%Z; cbn [map]; [rewrite rsum_cons; unfold one at 1; lra|lra].
Qed.
Lemma good_members i l : Forall good l -> Forall good (members lab i l).
Proof. rewrite !Forall_forall. intros H x Hx. apply H. apply filter_In in Hx. apply Hx. Qed.

Lemma chunks_acc i chunks : forall w T s, acc B w T s -> Forall good (concat chunks) -> (w + rsum (map one (members lab i (concat chunks)))) * bpow radix2 (-52) <= / 2 ->
  acc B (w + rsum (map one (members lab i (concat chunks)))) (T + sumt (members lab i (concat chunks)))
    (fold_left (nadd B64Num) (map (fun chunk => loss_of B64Num pow (b64_of_Z 2) (map dis (members lab i chunk))) chunks) s).
Proof.
  induction chunks as [|ch chunks IH]; intros w T s H HF Hw; cbn [concat map fold_left] in *.
  - unfold sumt. cbn. rewrite !Rplus_0_r. exact H.
  - apply Forall_app in HF as [HF1 HF2]. unfold sumt in *. unfold members in *. rewrite filter_app in *. rewrite !map_app, !rsum_app in *. fold (members lab i ch) in *. fold (members lab i (concat chunks)) in *.
    rewrite <- !Rplus_assoc in *. pose proof (one_nonneg (members lab i ch)) as Q1. pose proof (one_nonneg (members lab i (concat chunks))) as Q2. pose proof (bpow_ge_0 radix2 (-52)) as Hb.
    apply IH; [|exact HF2|exact Hw]. assert (0 <= w) by (destruct H as (_ & [?|?] & _); lra).
    apply (acc_add B w T s (rsum (map one (members lab i ch))) (sumt (members lab i ch))); [exact HB|apply Rle_trans with (2 := Hw); apply Rmult_le_compat_r; [exact Hb|lra]|exact H|].
    apply loss_acc; [apply good_members; exact HF1|]. apply Rle_trans with (2 := Hw); apply Rmult_le_compat_r; [exact Hb|lra].
Qed.

(** The losses of the clusters, sequential or parallel, are sums of the terms of the members. *)
Definition part_acc (data : list (list b64)) (losses : list b64) : Prop :=
  length losses = length c /\
  forall i, (i < length c)%nat -> acc B (rsum (map one (members lab i data))) (sumt (members lab i data)) (nth i losses (b64_of_Z 0)).

Lemma seq_acc data : c <> [] -> Forall good data -> rsum (map one data) * bpow radix2 (-52) <= / 2 ->
  exists losses cards, reduce_loss B64Num euclid64 pow c data (b64_of_Z 2) = Ok (losses, cards) /\ part_acc data losses.
Proof.
  intros Hc HF Hw. destruct (reduce_loss_result B64Num euclid64 pow c data (b64_of_Z 2) Hc (leb_m1_0 B64Num _ B64NumOrd)) as (losses & cards & H & H1 & _ & H3).
  exists losses, cards. split; [exact H|]. split; [exact H1|]. intros i Hi. destruct (H3 i Hi) as [E _]. cbv zeta in E. change (nof B64Num 0) with (b64_of_Z 0) in E. rewrite E.
  apply loss_acc; [apply good_members; exact HF|]. apply Rle_trans with (2 := Hw). apply Rmult_le_compat_r; [apply bpow_ge_0|apply one_members].
Qed.

Lemma par_acc data degree : c <> [] -> (0 < degree)%Z -> Forall good data -> rsum (map one data) * bpow radix2 (-52) <= / 2 ->
  exists losses cards, par_reduce_loss B64Num euclid64 pow c data (b64_of_Z 2) degree = Ok (losses, cards) /\ part_acc data losses.
Proof.
  intros Hc Hd HF Hw. destruct (par_reduce_loss_result B64Num euclid64 pow (leb_m1_0 B64Num _ B64NumOrd) c data (b64_of_Z 2) degree Hc Hd) as (chunks & losses & cards & Hcat & Hlen & H & H1 & _ & H3).
  exists losses, cards. split; [exact H|]. split; [exact H1|]. intros i Hi. destruct (H3 i Hi) as [E _]. cbv zeta in E. change (nof B64Num 0) with (b64_of_Z 0) in E. rewrite E.
  assert (Hm : rsum (map one (members lab i data)) * bpow radix2 (-52) <= / 2) by (apply Rle_trans with (2 := Hw); apply Rmult_le_compat_r; [apply bpow_ge_0|apply one_members]).
  destruct chunks as [|ch chunks]; [cbn in Hlen; lia|]. cbn [map sum_parts]. subst data. cbn [concat] in *.
  unfold sumt, members in *. rewrite filter_app in *. rewrite !map_app, !rsum_app in *. fold (members lab i ch) in *. fold (members lab i (concat chunks)) in *.
  apply Forall_app in HF as [HF1 HF2]. apply chunks_acc; [|exact HF2|exact Hm].
  apply loss_acc; [apply good_members; exact HF1|].
  pose proof (one_nonneg (members lab i (concat chunks))) as Q2. pose proof (bpow_ge_0 radix2 (-52)) as Hb. 
  apply Rle_trans with (2 := Hm). apply Rmult_le_compat_r; [exact Hb|].
  change (rsum (map one (members lab i ch)) <= rsum (map one (members lab i ch)) + rsum (map one (members lab i (concat chunks)))). lra.
Qed.

Lemma total_acc data losses s : c <> [] -> part_acc data losses -> rsum (map one data) * bpow radix2 (-52) <= / 2 -> summed losses s ->
  acc B (rsum (map one data)) (sumt data) s.
Proof.
  intros Hc [HL HP] Hw HS.
  assert (Hr : Forall (fun x => (0 <= lab x < Z.of_nat (length c))%Z) data).
  { apply Forall_forall. intros x _. pose proof (nearest_in_range B64Num euclid64 c x Hc (leb_m1_0 B64Num _ B64NumOrd)) as R. unfold in_range in R. fold (lab x) in R. exact R. }
  rewrite <- (rsum_partition one lab (length c) data Hr) in *. unfold sumt. rewrite <- (rsum_partition (fun x => B2R (term x)) lab (length c) data Hr).
  set (wt := map (fun i => (rsum (map one (members lab i data)), sumt (members lab i data))) (seq 0 (length c))).
  assert (E1 : rsum (map (fun i => rsum (map one (filter (fun x => (lab x =? Z.of_nat i)%Z) data))) (seq 0 (length c))) = rsum (map fst wt)) by (unfold wt; rewrite map_map; reflexivity).
  assert (E2 : rsum (map (fun i => rsum (map (fun x => B2R (term x)) (filter (fun x => (lab x =? Z.of_nat i)%Z) data))) (seq 0 (length c))) = rsum (map snd wt)) by (unfold wt; rewrite map_map; reflexivity).
  rewrite E1, E2 in *. apply (summed_acc B losses); [exact HB|exact HS| |exact Hw].
  unfold wt. clear - HL HP. assert (G : forall n k, (k + n = length c)%nat -> Forall2 (fun x a => acc B (fst a) (snd a) x) (skipn k losses)
    (map (fun i => (rsum (map one (members lab i data)), sumt (members lab i data))) (seq k n))).
  { induction n as [|n IH]; intros k Hk; cbn [seq map].
    - rewrite skipn_all2 by lia. constructor.
    - destruct (skipn k losses) as [|x r] eqn:Es; [apply (f_equal (@length _)) in Es; rewrite skipn_length in Es; cbn in Es; lia|].
      assert (Ex : nth k losses (b64_of_Z 0) = x).
      { rewrite <- (firstn_skipn k losses), Es. rewrite app_nth2; rewrite firstn_length_le by lia; [|lia]. rewrite Nat.sub_diag. reflexivity. }
      assert (Er : skipn (S k) losses = r).
      { exact (skipn_next k losses x r Es). }
      constructor; [rewrite <- Ex; apply HP; lia|]. rewrite <- Er. apply IH. lia. }
  exact (G (length c) 0%nat ltac:(lia)).
Qed.
End Terms.

(** ** The term of an element *)
Lemma square_near a D r h : 0 <= D -> powerRZ 2 (-50) <= r <= / 31 -> 0 <= h -> (1 - r) * D - h <= a <= (1 + r) * D + h ->
  Rabs (a * a - D * D) <= 4 * r * (D * D) + powerRZ 2 51 * (h * h).
Proof.
  intros HD [Hr0 Hr] Hh [L U]. assert (Hp : 0 < powerRZ 2 (-50)) by (rewrite pow2_bpow; apply bpow_gt_0). assert (Hr' : 0 < r) by lra.
  assert (Hinv : / r <= powerRZ 2 50).
  { apply Rle_trans with (/ powerRZ 2 (-50)); [apply Rinv_le; assumption|]. rewrite !pow2_bpow, <- bpow_opp. apply Rle_refl. }
  assert (H51 : powerRZ 2 51 = 2 * powerRZ 2 50) by (rewrite !pow2_bpow; change 51%Z with (1 + 50)%Z; rewrite bpow_plus; reflexivity).
  assert (H50 : 1024 <= powerRZ 2 50) by (rewrite pow2_bpow; change 1024 with (bpow radix2 10); apply bpow_le; lia).
  assert (AM : 2 * (D * h) <= r * (D * D) + / r * (h * h)).
  { assert (0 <= / r * ((r * D - h) * (r * D - h))) by (apply Rmult_le_pos; [left; apply Rinv_0_lt_compat; exact Hr'|apply Rle_0_sqr]).
    replace (/ r * ((r * D - h) * (r * D - h))) with (r * (D * D) - 2 * (D * h) + / r * (h * h)) in H by (field; lra). lra. }
  set (K := powerRZ 2 50) in *. assert (HDD : 0 <= D * D) by nra. assert (Hhh : 0 <= h * h) by nra. assert (HDh : 0 <= D * h) by nra.
  assert (AM' : 2 * (D * h) <= r * (D * D) + K * (h * h)) by (assert (/ r * (h * h) <= K * (h * h)) by (apply Rmult_le_compat_r; assumption); lra). clear AM.
  assert (Hrr : r * (D * D) * r <= / 31 * (r * (D * D))) by (assert (0 <= r * (D * D)) by nra; nra).
  assert (HKh : 1024 * (h * h) <= K * (h * h)) by nra. rewrite H51. apply Rabs_le. split.
  - destruct (Rle_lt_dec h ((1 - r) * D)) as [C|C].
    + assert (((1 - r) * D - h) * ((1 - r) * D - h) <= a * a) by nra. nra.
    + assert (/ 2 * D <= h) by nra. assert (D * D <= 4 * (h * h)) by nra. assert (0 <= a * a) by apply Rle_0_sqr. nra.
  - assert (Rabs a <= (1 + r) * D + h) by (apply Rabs_le; nra).
    assert (a * a <= ((1 + r) * D + h) * ((1 + r) * D + h)). { assert (0 <= ((1 + r) * D + h - a) * ((1 + r) * D + h + a)) by (apply Rmult_le_pos; nra). nra. }
    assert (r * (2 * (D * h)) <= r * (D * D) * r + r * (K * (h * h))) by nra. assert (0 <= K * (h * h)) by nra. nra.
Qed.

Lemma term_near pow k d c x D : squares pow -> (-500 <= k <= 450)%Z -> (Z.of_nat d <= 2 ^ 47)%Z -> c <> [] -> Forall (box_vec k d) c -> box_vec k d x ->
  (exists y, In y c /\ exact_dist x y = D) -> (forall y, In y c -> D <= exact_dist x y) ->
  let t := pow (snd (nearest B64Num euclid64 c x)) (b64_of_Z 2) in
  is_finite t = true /\ 0 <= B2R t <= bpow radix2 960 /\ Rabs (B2R t - D * D) <= 5 * rel_err d * (D * D) + (powerRZ 2 52 * (abs_err d * abs_err d) + powerRZ 2 (-1074)).
Proof.
  intros HP Hk Hd Hc HC Hx (y & Hy & HD) Hmin. cbv zeta.
  destruct (predict_finite c x Hc) as (l & cl & HA & Hl & Hb & _).
  { eapply Forall_impl; [|apply Hx]. intros a Ha. apply Ha. }
  { apply Forall_forall. intros v Hv. rewrite Forall_forall in HC. destruct (HC v Hv) as [L B]. split; [|destruct Hx; congruence].
    eapply Forall_impl; [|exact B]. intros a Ha. apply Ha. }
  destruct (nearest_assign B64Num euclid64 _ B64NumOrd c x) as [cl' HA']. rewrite HA in HA'. injection HA' as <- _ Hdis. rewrite <- Hdis.
  rewrite Forall_forall in HC. pose proof (HC cl (nth_error_In c l Hl)) as Bl. pose proof (HC y Hy) as By. destruct (In_nth_error _ _ Hy) as [j Hj].
  destruct (dist64 k d x cl ltac:(lia) ltac:(lia) Hx Bl) as [F1 E1]. destruct (dist64 k d x y ltac:(lia) ltac:(lia) Hx By) as [F2 E2].
  pose proof (leb_finite _ _ F1 F2 (Hb j y Hj)) as H. fold (exact_dist x cl) in E1. fold (exact_dist x y) in E2. rewrite HD in E2.
  pose proof (Hmin cl (nth_error_In c l Hl)) as Hcl. assert (D0 : 0 <= D) by (rewrite <- HD; apply sqrt_pos).
  set (dd := sdist euclid64 x cl) in *. change (match point_dist B64Num x cl with Ok d0 => d0 | Panic => B754_zero false end) with dd. apply Rabs_le_inv in E1 as [E1 _]. apply Rabs_le_inv in E2 as [_ E2].
  destruct (rel_small d Hd) as [Hr0 Hr]. pose proof (abs_pos d) as Ha.
  assert (Hsq : D * D <= bpow radix2 949).
  { rewrite <- HD. unfold exact_dist. destruct (sqdist_box k d x y Hx By) as [S0 S1]. rewrite sqrt_sqrt by exact S0. apply (Rle_trans _ _ _ S1).
    apply Rle_trans with (bpow radix2 47 * bpow radix2 902).
    - apply Rmult_le_compat; [apply pos_INR|apply bpow_ge_0| |apply bpow_le; lia].
      rewrite INR_IZR_INZ. change (bpow radix2 47) with (IZR (2 ^ 47)). apply IZR_le. exact Hd.
    - rewrite <- bpow_plus. apply Rle_refl. }
  assert (Hh : powerRZ 2 52 * (abs_err d * abs_err d) <= 1).
  { unfold abs_err. rewrite !pow2_bpow. assert (Q : INR d <= bpow radix2 47) by (rewrite INR_IZR_INZ; change (bpow radix2 47) with (IZR (2 ^ 47)); apply IZR_le; exact Hd).
    pose proof (pos_INR d) as Q0. assert (Q1 : INR d * bpow radix2 (-536) <= bpow radix2 (-489)).
    { apply Rle_trans with (bpow radix2 47 * bpow radix2 (-536)); [apply Rmult_le_compat_r; [apply bpow_ge_0|exact Q]|]. rewrite <- bpow_plus. apply Rle_refl. }
    assert (Q2 : 0 <= INR d * bpow radix2 (-536)) by (apply Rmult_le_pos; [exact Q0|apply bpow_ge_0]).
    apply Rle_trans with (bpow radix2 52 * (bpow radix2 (-489) * bpow radix2 (-489))).
    - apply Rmult_le_compat_l; [apply bpow_ge_0|]. apply Rmult_le_compat; assumption.
    - rewrite <- !bpow_plus. change 1 with (bpow radix2 0). apply bpow_le. lia. }
  assert (Hp : 0 < powerRZ 2 (-50)) by (rewrite pow2_bpow; apply bpow_gt_0).
  assert (Hb1 : (1 - rel_err d) * D - abs_err d <= B2R dd <= (1 + rel_err d) * D + abs_err d).
  { split; [|lra]. apply Rle_trans with ((1 - rel_err d) * exact_dist x cl - abs_err d); [|lra]. assert ((1 - rel_err d) * D <= (1 - rel_err d) * exact_dist x cl) by (apply Rmult_le_compat_l; lra). lra. }
  pose proof (square_near (B2R dd) D (rel_err d) (abs_err d) D0 (conj Hr0 Hr) Ha Hb1) as HS.
  assert (H52 : powerRZ 2 52 = 2 * powerRZ 2 51) by (rewrite !pow2_bpow; change 52%Z with (1 + 51)%Z; rewrite bpow_plus; reflexivity).
  assert (Hm52 : powerRZ 2 (-50) = 4 * powerRZ 2 (-52)) by (rewrite !pow2_bpow; change (-50)%Z with (2 + -52)%Z; rewrite bpow_plus; reflexivity).
  assert (Hm1074 : 0 < powerRZ 2 (-1074) <= 1) by (rewrite pow2_bpow; split; [apply bpow_gt_0|change 1 with (bpow radix2 0); apply bpow_le; lia]).
  assert (H949 : 1 <= bpow radix2 949) by (change 1 with (bpow radix2 0); apply bpow_le; lia).
  apply Rabs_le_inv in HS. set (A := B2R dd) in *. set (r := rel_err d) in *. set (h := abs_err d) in *. set (X := powerRZ 2 51 * (h * h)) in *.
  assert (HX : 0 <= X) by (unfold X; rewrite pow2_bpow; apply Rmult_le_pos; [apply bpow_ge_0|nra]). rewrite H52 in *.
  replace (2 * powerRZ 2 51 * (h * h)) with (2 * X) in * by (unfold X; ring). set (Q := D * D) in *. assert (HQ : 0 <= Q) by (unfold Q; nra).
  assert (HrQ : r * Q <= / 31 * Q) by (apply Rmult_le_compat_r; assumption). assert (HrQ0 : 0 <= r * Q) by nra.
  assert (HAA : A * A <= 2 * bpow radix2 949) by lra. assert (HA0 : 0 <= A * A) by apply Rle_0_sqr.
  assert (HAb : Rabs A <= powerRZ 2 511).
  { rewrite pow2_bpow. apply Rsqr_incr_0; [|apply Rabs_pos|apply bpow_ge_0]. rewrite <- Rsqr_abs. unfold Rsqr. apply (Rle_trans _ _ _ HAA). rewrite <- bpow_plus.
    change 2 with (bpow radix2 1). rewrite <- bpow_plus. apply bpow_le. lia. }
  destruct (HP dd F1 HAb) as (FP & P0 & PE). fold A in PE. cbn zeta in *. split; [exact FP|]. apply Rabs_le_inv in PE.
  assert (H52s : powerRZ 2 (-52) <= / 124) by lra. assert (H52p : 0 < powerRZ 2 (-52)) by lra.
  assert (HPA : powerRZ 2 (-52) * (A * A) <= r / 4 * (2 * Q) + / 124 * X).
  { assert (A * A <= 2 * Q + X) by lra. apply Rle_trans with (powerRZ 2 (-52) * (2 * Q + X)); [apply Rmult_le_compat_l; lra|]. nra. }
  split.
  - split; [exact P0|]. apply Rle_trans with (4 * bpow radix2 949).
    + assert (powerRZ 2 (-52) * (A * A) <= / 124 * (A * A)) by (apply Rmult_le_compat_r; assumption). lra.
    + change 4 with (bpow radix2 2). rewrite <- bpow_plus. apply bpow_le. lia.
  - apply Rabs_le. lra.
Qed.

(** ** The total *)
Lemma total_near (n : nat) (T L r A s : R) : 0 <= L -> 0 <= A -> 0 <= r <= / 31 -> INR n * bpow radix2 (-52) <= / 2 -> 0 <= T ->
  Rabs (T - L) <= 5 * r * L + INR n * A -> Rabs (s - T) <= INR n * bpow radix2 (-52) * T ->
  Rabs (s - L) <= (5 * r + INR n * bpow radix2 (-51)) * L + 2 * INR n * A.
Proof.
  intros HL HA Hr Hn HT H1 H2. assert (H51 : bpow radix2 (-51) = 2 * bpow radix2 (-52)) by (change (-51)%Z with (1 + -52)%Z; rewrite bpow_plus; reflexivity).
  rewrite H51. pose proof (bpow_ge_0 radix2 (-52)) as Hb. pose proof (pos_INR n) as Hn0. set (b := bpow radix2 (-52)) in *. set (N := INR n) in *.
  apply Rabs_le_inv in H1. apply Rabs_le_inv in H2. assert (HNA : 0 <= N * A) by nra.
  assert (HrL : r * L <= / 31 * L) by (apply Rmult_le_compat_r; lra). assert (T <= 2 * L + N * A) by lra.
  assert (Hx : 0 <= N * b) by nra. assert (N * b * T <= N * b * (2 * L + N * A)) by (apply Rmult_le_compat_l; assumption).
  assert (N * b * (N * A) <= / 2 * (N * A)) by (apply Rmult_le_compat_r; assumption).
  apply Rabs_le. split; nra.
Qed.

Lemma loss_total : forall pow k d (c data : list (list b64)) L, squares pow -> c <> [] -> (-500 <= k <= 450)%Z -> (Z.of_nat d <= 2 ^ 47)%Z -> (Z.of_nat (length data) <= 2 ^ 50)%Z ->
  Forall (box_vec k d) c -> Forall (box_vec k d) data -> exact_loss c data L ->
  (exists losses cards, reduce_loss B64Num euclid64 pow c data (b64_of_Z 2) = Ok (losses, cards) /\ close_total d (length data) L losses) /\
  forall degree, (0 < degree)%Z -> exists losses cards, par_reduce_loss B64Num euclid64 pow c data (b64_of_Z 2) degree = Ok (losses, cards) /\ close_total d (length data) L losses.
Proof.
  intros pow k d c data L HP Hc Hk Hd Hn HC HD (near & Hnear & HL).
  set (term := fun x => pow (snd (nearest B64Num euclid64 c x)) (b64_of_Z 2)). set (B := bpow radix2 960).
  assert (HB : 0 <= B <= bpow radix2 960) by (unfold B; split; [apply bpow_ge_0|apply Rle_refl]).
  assert (HT : forall x, In x data -> is_finite (term x) = true /\ 0 <= B2R (term x) <= B /\
    Rabs (B2R (term x) - exact_dist x (near x) * exact_dist x (near x)) <= 5 * rel_err d * (exact_dist x (near x) * exact_dist x (near x)) + (powerRZ 2 52 * (abs_err d * abs_err d) + powerRZ 2 (-1074))).
  { intros x Hx. destruct (Hnear x Hx) as [H1 H2]. rewrite Forall_forall in HD. apply (term_near pow k d c x); auto. exists (near x). auto. }
  assert (HG : Forall (fun x => is_finite (term x) = true /\ 0 <= B2R (term x) <= B) data) by (apply Forall_forall; intros x Hx; destruct (HT x Hx) as (? & ? & _); split; assumption).
  assert (Hone : rsum (map (fun _ : list b64 => 1) data) = INR (length data)) by (rewrite rsum_const; ring).
  assert (Hw : INR (length data) * bpow radix2 (-52) <= / 2).
  { apply Rle_trans with (bpow radix2 50 * bpow radix2 (-52)); [|rewrite <- bpow_plus; change (bpow radix2 (50 + -52)) with (/ 4); lra].
    apply Rmult_le_compat_r; [apply bpow_ge_0|]. rewrite INR_IZR_INZ. change (bpow radix2 50) with (IZR (2 ^ 50)). apply IZR_le. exact Hn. }
  destruct (rel_small d Hd) as [Hr0 Hr]. assert (Hp : 0 < powerRZ 2 (-50)) by (rewrite pow2_bpow; apply bpow_gt_0).
  set (A := powerRZ 2 52 * (abs_err d * abs_err d) + powerRZ 2 (-1074)) in *.
  assert (HA : 0 <= A). { unfold A. rewrite !pow2_bpow. pose proof (bpow_ge_0 radix2 52). pose proof (bpow_ge_0 radix2 (-1074)). pose proof (abs_pos d). assert (0 <= abs_err d * abs_err d) by nra. nra. }
  assert (HL0 : 0 <= L). { rewrite HL. apply rsum_nonneg. apply Forall_forall. intros z Hz. apply in_map_iff in Hz as (x & <- & _). apply Rle_0_sqr. }
  assert (HTL : Rabs (rsum (map (fun x => B2R (term x)) data) - L) <= 5 * rel_err d * L + INR (length data) * A).
  { rewrite HL. clear - HT. revert HT. generalize (rel_err d). intros r HT. induction data as [|x l IH]; [cbn; rewrite Rminus_0_r, Rabs_R0; lra|].
    cbn [map length]. rewrite !rsum_cons, S_INR. destruct (HT x ltac:(left; reflexivity)) as (_ & _ & H). specialize (IH (fun y Hy => HT y (or_intror Hy))).
    apply Rabs_le_inv in H. apply Rabs_le_inv in IH. apply Rabs_le. lra. }
  assert (Close : forall losses, part_acc pow c B data losses -> close_total d (length data) L losses).
  { intros losses HPA s HS. destruct (total_acc pow c B HB data losses s Hc HPA) as (F & _ & [R0 _] & E); [rewrite Hone; exact Hw|exact HS|].
    rewrite Hone in E. split; [exact F|]. unfold loss_rel, loss_abs. rewrite (pow2_bpow (-51)). fold A. apply total_near with (T := rsum (map (fun x => B2R (term x)) data)); auto; lra. }
  split.
  - destruct (seq_acc pow c B HB data Hc HG) as (losses & cards & H & HPA); [rewrite Hone; exact Hw|]. exists losses, cards. auto.
  - intros degree Hdg. destruct (par_acc pow c B HB data degree Hc Hdg HG) as (losses & cards & H & HPA); [rewrite Hone; exact Hw|]. exists losses, cards. auto.
Qed.

Lemma fsum_summed l : forall pre s, summed pre s -> summed (pre ++ l) (fold_left (nadd B64Num) l s).
Proof.
  induction l as [|x l IH]; intros pre s H; cbn [fold_left]; [rewrite app_nil_r; exact H|].
  replace (pre ++ x :: l) with ((pre ++ [x]) ++ l) by (rewrite <- app_assoc; reflexivity). apply IH.
  apply (summed_add _ pre [x]); [apply Permutation_refl|exact H|constructor].
Qed.

Lemma total_values : forall pow k d (c data : list (list b64)) L degree, squares pow -> c <> [] -> (-500 <= k <= 450)%Z -> (Z.of_nat d <= 2 ^ 47)%Z -> (Z.of_nat (length data) <= 2 ^ 50)%Z ->
  Forall (box_vec k d) c -> Forall (box_vec k d) data -> exact_loss c data L -> (0 < degree)%Z ->
  exists s p, total_loss B64Num euclid64 pow c data (b64_of_Z 2) = Ok s /\ par_total_loss B64Num euclid64 pow c data (b64_of_Z 2) degree = Ok p /\
    is_finite s = true /\ is_finite p = true /\
    Rabs (B2R s - L) <= loss_rel d (length data) * L + loss_abs d (length data) /\
    Rabs (B2R p - L) <= loss_rel d (length data) * L + loss_abs d (length data).
Proof.
  intros pow k d c data L degree HP Hc Hk Hd Hn HC HD HL Hdg.
  destruct (loss_total pow k d c data L HP Hc Hk Hd Hn HC HD HL) as [(l1 & n1 & E1 & C1) H2]. destruct (H2 degree Hdg) as (l2 & n2 & E2 & C2).
  exists (fsum B64Num l1), (fsum B64Num l2). unfold total_loss, par_total_loss. rewrite E1, E2. cbn.
  destruct (C1 _ (fsum_summed l1 [] _ summed_none)) as [F1 B1]. destruct (C2 _ (fsum_summed l2 [] _ summed_none)) as [F2 B2].
  repeat split; assumption.
Qed.

(** Multiplication squares. *)
Lemma mul_squares : squares (fun x _ => b64_mul x x).
Proof.
  intros x F H. cbv zeta. rewrite !pow2_bpow in *.
  assert (Hx : 0 <= B2R x * B2R x <= bpow radix2 1022).
  { split; [apply Rle_0_sqr|]. change 1022%Z with (511 + 511)%Z. rewrite bpow_plus. apply Rabs_le_inv in H. set (b := bpow radix2 511) in *. nra. }
  assert (Bnd : Rabs (rnd (B2R x * B2R x)) < bpow radix2 emax64).
  { apply Rle_lt_trans with (bpow radix2 1022); [|apply bpow_lt; reflexivity]. apply rnd_le; [apply pow_format; lia|]. rewrite Rabs_right by lra. apply Hx. }
  pose proof (Bmult_correct prec64 emax64 _ _ mode_NE x x) as HA. fold (b64_mul x x) in HA. rewrite Rlt_bool_true in HA by exact Bnd. destruct HA as (V & FF & _).
  rewrite F in FF. split; [exact FF|]. rewrite V. split.
  - rewrite <- (round_0 radix2 (SpecFloat.fexp prec64 emax64) (round_mode mode_NE)). apply round_le; auto with typeclass_instances. apply Hx.
  - pose proof (rnd_err (B2R x * B2R x)) as E. rewrite (Rabs_right (B2R x * B2R x)) in E by lra. apply (Rle_trans _ _ _ E). apply Rplus_le_compat.
    + apply Rmult_le_compat_r; [apply Hx|apply bpow_le; lia].
    + apply bpow_le. lia.
Qed.

(** The hypotheses can be met. *)
Lemma total_case : let c := [v64 [0]; v64 [9]]%Z in let data := [v64 [0]; v64 [0]; v64 [1]]%Z in
  squares (fun x _ => b64_mul x x) /\ c <> [] /\ (-500 <= 4 <= 450)%Z /\ (Z.of_nat 1 <= 2 ^ 47)%Z /\ (Z.of_nat (length data) <= 2 ^ 50)%Z /\
  Forall (box_vec 4 1) c /\ Forall (box_vec 4 1) data /\ exact_loss c data 1 /\ (0 < 2)%Z.
Proof.
  cbv zeta. destruct loss_case as (_ & H1 & _ & H2 & H3 & H4 & H5). split; [exact mul_squares|]. split; [exact H1|]. split; [lia|]. split; [exact H2|]. split; [cbn; lia|].
  split; [exact H3|]. split; [exact H4|]. split; [exact H5|lia].
Qed.
