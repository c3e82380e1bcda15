(** Euclidean space: exact arithmetic, panics. *)
From Coq Require Import List ZArith Lia Bool Reals Lra Psatz.
From Verif Require Import Base.Go Base.Num Model.Clustering Model.Euclid Model.Cosinus Spec.ClusterSpec Spec.RealSpec Spec.SpaceSpec
  Proofs.GoLemmas Proofs.NumLaws Proofs.RealLemmas Proofs.ReduceProofs Proofs.ParReduceProofs.
Import ListNotations.

(** ** Panics (C16), any number system *)
Section Panics.
Context {F : Type} (N : Num F).

Lemma sqsum_loop_ok p1 : forall p2 s, length p1 <= length p2 -> exists r, sqsum_loop N p1 p2 s = Ok r.
Proof.
  induction p1 as [|x p1 IH]; intros [|y p2] s H; cbn in *; eauto; [lia|]. apply IH. lia.
Qed.
Lemma sqsum_loop_panic p1 : forall p2 s, length p2 < length p1 -> sqsum_loop N p1 p2 s = Panic.
Proof. induction p1 as [|x p1 IH]; intros [|y p2] s H; cbn in *; try lia; auto. apply IH. lia. Qed.

Lemma sqsum_loop_firstn p1 : forall p2 s, sqsum_loop N p1 p2 s = sqsum_loop N p1 (firstn (length p1) p2) s
  \/ length p2 < length p1.
Proof.
  induction p1 as [|x p1 IH]; intros [|y p2] s; cbn [sqsum_loop length firstn]; auto.
  destruct (IH p2 (nadd N s (nmul N (nsub N x y) (nsub N x y)))) as [H|H]; [left; exact H|right; lia].
Qed.

Lemma combine_loop_ok p1 : forall w1 p2 w2 t, length p1 <= length p2 ->
  combine_loop N p1 w1 p2 w2 t =
  Ok (map (fun xy => ndiv N (nadd N (nmul N (fst xy) w1) (nmul N (snd xy) w2)) t) (combine p1 p2)).
Proof.
  induction p1 as [|x p1 IH]; intros w1 [|y p2] w2 t H; cbn [combine_loop length combine map] in *; auto; [lia|].
  rewrite IH by lia. reflexivity.
Qed.
Lemma combine_loop_panic p1 : forall w1 p2 w2 t, length p2 < length p1 -> combine_loop N p1 w1 p2 w2 t = Panic.
Proof.
  induction p1 as [|x p1 IH]; intros w1 [|y p2] w2 t H; cbn in *; try lia; auto.
  rewrite IH by lia. reflexivity.
Qed.

Lemma scalar_loop_ok v1 : forall v2 s, length v1 <= length v2 -> exists r, scalar_loop N v1 v2 s = Ok r.
Proof.
  induction v1 as [|x v1 IH]; intros [|y v2] s H; cbn in *; eauto; [lia|]. apply IH. lia.
Qed.
Lemma scalar_loop_panic v1 : forall v2 s, length v2 < length v1 -> scalar_loop N v1 v2 s = Panic.
Proof. induction v1 as [|x v1 IH]; intros [|y v2] s H; cbn in *; try lia; auto. apply IH. lia. Qed.

(** Main statement of C16 for Euclid. *)
Lemma euclid_panics (p1 p2 : list F) w1 w2 :
  (length p2 < length p1 -> point_dist N p1 p2 = Panic /\ point_combine N p1 w1 p2 w2 = Panic) /\
  (length p1 <= length p2 ->
     (exists d, point_dist N p1 p2 = Ok d /\ point_dist N p1 (firstn (length p1) p2) = Ok d) /\
     (exists r, point_combine N p1 w1 p2 w2 = Ok r /\ length r = length p1 /\
                point_combine N p1 w1 (firstn (length p1) p2) w2 = Ok r)).
Proof.
  split; intros H.
  - unfold point_dist, point_combine. rewrite sqsum_loop_panic, combine_loop_panic by assumption. auto.
  - split.
    + unfold point_dist. destruct (sqsum_loop_ok p1 p2 (nof N 0) H) as [r Hr].
      destruct (sqsum_loop_firstn p1 p2 (nof N 0)) as [He|Hlt]; [|lia].
      rewrite <- He, Hr. cbn [obind]. eauto.
    + unfold point_combine. rewrite !combine_loop_ok; [|rewrite firstn_length; lia|assumption].
      eexists. split; [reflexivity|]. split.
      * rewrite map_length, combine_length. lia.
      * f_equal. f_equal. clear. revert p2. induction p1 as [|x p1 IH]; intros [|y p2]; cbn; auto. f_equal. apply IH.
Qed.

Lemma cosinus_panics (p1 p2 : list F) :
  (length p2 < length p1 -> cos_dist N p1 p2 = Panic) /\
  (length p1 <= length p2 -> exists d, cos_dist N p1 p2 = Ok d).
Proof.
  unfold cos_dist, cosinus, norm, scalar_product. split; intros H.
  - rewrite scalar_loop_panic by assumption. reflexivity.
  - destruct (scalar_loop_ok p1 p2 (nof N 0) H) as [r1 ->].
    destruct (scalar_loop_ok p1 p1 (nof N 0) (le_n _)) as [r2 ->].
    destruct (scalar_loop_ok p2 p2 (nof N 0) (le_n _)) as [r3 ->]. cbn [obind]. eauto.
Qed.
End Panics.

Local Open Scope R_scope.

(** ** Exact arithmetic *)
Lemma sqsum_loop_R p1 : forall p2 s, (length p1 <= length p2)%nat ->
  sqsum_loop RNum p1 p2 s = Ok (s + sqdist p1 p2).
Proof.
  unfold sqdist. induction p1 as [|x p1 IH]; intros [|y p2] s H; cbn [sqsum_loop length combine map] in *; try lia.
  - f_equal. cbn. lra.
  - f_equal. cbn. lra.
  - rewrite IH by lia. rewrite rsum_cons. cbn [fst snd nsub nmul nadd RNum]. f_equal. lra.
Qed.

Lemma point_dist_R p1 p2 : (length p1 <= length p2)%nat -> point_dist RNum p1 p2 = Ok (sqrt (sqdist p1 p2)).
Proof.
  intros H. unfold point_dist. rewrite sqsum_loop_R by assumption. cbn [obind nsqrt RNum nof]. f_equal. f_equal. lra.
Qed.

Lemma euclid_dist_R p1 p2 : (length p1 <= length p2)%nat -> sdist (euclid_space RNum) p1 p2 = sqrt (sqdist p1 p2).
Proof. intros H. cbn [sdist euclid_space]. rewrite point_dist_R by assumption. reflexivity. Qed.

Lemma sq_nonneg x : 0 <= x * x.
Proof. nra. Qed.

Lemma sqdist_nonneg a b : 0 <= sqdist a b.
Proof.
  unfold sqdist. apply rsum_nonneg. apply Forall_forall. intros z Hz. apply in_map_iff in Hz.
  destruct Hz as (p & <- & _). apply sq_nonneg.
Qed.

Lemma sqdist_cons x a y b : sqdist (x :: a) (y :: b) = (x - y) * (x - y) + sqdist a b.
Proof. reflexivity. Qed.

Lemma sqdist_sym a : forall b, sqdist a b = sqdist b a.
Proof.
  induction a as [|x a IH]; intros [|y b]; try reflexivity. rewrite !sqdist_cons, IH. ring.
Qed.

Lemma sqdist_zero a : forall b, length a = length b -> (sqdist a b = 0 <-> a = b).
Proof.
  induction a as [|x a IH]; intros [|y b] H; cbn in H; try discriminate; [split; reflexivity|].
  rewrite sqdist_cons. pose proof (sqdist_nonneg a b). pose proof (sq_nonneg (x - y)). split.
  - intros Hz. assert (Hz1 : (x - y) * (x - y) = 0) by lra. assert (Hz2 : sqdist a b = 0) by lra.
    f_equal; [nra|]. apply IH; [lia|exact Hz2].
  - intros [= -> ->]. rewrite (proj2 (IH b ltac:(lia)) eq_refl). ring.
Qed.

(** Cauchy-Schwarz *)
Lemma dot_cons x a y b : dot (x :: a) (y :: b) = x * y + dot a b.
Proof. reflexivity. Qed.

Lemma dot_nonneg a : 0 <= dot a a.
Proof. induction a as [|x a IH]; [cbn; lra|]. rewrite dot_cons. nra. Qed.

Lemma cs_step A B C x y : 0 <= A -> 0 <= B -> C * C <= A * B ->
  (x * y + C) * (x * y + C) <= (x * x + A) * (y * y + B).
Proof.
  intros HA HB HC.
  assert (H : 2 * (C * (x * y)) <= A * (y * y) + B * (x * x)).
  { set (L := C * (x * y)). set (U := A * (y * y) + B * (x * x)).
    assert (HU : 0 <= U) by (unfold U; pose proof (sq_nonneg x); pose proof (sq_nonneg y); nra).
    assert (HLU : (2 * L) * (2 * L) <= U * U).
    { unfold L, U. pose proof (sq_nonneg (A * (y * y) - B * (x * x))).
      pose proof (sq_nonneg (x * y)).
      assert (4 * ((C * C) * ((x * y) * (x * y))) <= 4 * ((A * B) * ((x * y) * (x * y)))) by nra. nra. }
    nra. }
  nra.
Qed.

Lemma cauchy_schwarz a : forall b, length a = length b -> dot a b * dot a b <= dot a a * dot b b.
Proof.
  induction a as [|x a IH]; intros [|y b] H; cbn in H; try discriminate; [cbn; lra|].
  rewrite !dot_cons. apply cs_step; [apply dot_nonneg|apply dot_nonneg|apply IH; lia].
Qed.

Definition vdiff (a b : list R) : list R := map (fun p => fst p - snd p) (combine a b).

Lemma sqdist_dot a : forall b, sqdist a b = dot (vdiff a b) (vdiff a b).
Proof.
  induction a as [|x a IH]; intros [|y b]; try reflexivity.
  rewrite sqdist_cons. change (vdiff (x :: a) (y :: b)) with ((x - y) :: vdiff a b).
  rewrite dot_cons, IH. reflexivity.
Qed.

Lemma vdiff_length a b : length a = length b -> length (vdiff a b) = length a.
Proof. intros H. unfold vdiff. rewrite map_length, combine_length. lia. Qed.

Lemma sqdist_triangle_expand a : forall b c, length a = length b -> length b = length c ->
  sqdist a c = sqdist a b + 2 * dot (vdiff a b) (vdiff b c) + sqdist b c.
Proof.
  induction a as [|x a IH]; intros [|y b] [|z c] H1 H2; cbn in H1, H2; try discriminate; [cbn; lra|].
  rewrite !sqdist_cons. change (vdiff (x :: a) (y :: b)) with ((x - y) :: vdiff a b).
  change (vdiff (y :: b) (z :: c)) with ((y - z) :: vdiff b c). rewrite dot_cons, (IH b c) by lia. ring.
Qed.

Lemma sqdist_triangle a b c : length a = length b -> length b = length c ->
  sqrt (sqdist a c) <= sqrt (sqdist a b) + sqrt (sqdist b c).
Proof.
  intros H1 H2. pose proof (sqdist_nonneg a b) as PA. pose proof (sqdist_nonneg b c) as PB.
  pose proof (sqrt_pos (sqdist a b)) as SA. pose proof (sqrt_pos (sqdist b c)) as SB.
  apply Rsqr_incr_0_var; [|lra]. rewrite Rsqr_sqrt by apply sqdist_nonneg.
  rewrite (sqdist_triangle_expand a b c H1 H2).
  assert (HC : dot (vdiff a b) (vdiff b c) <= sqrt (sqdist a b) * sqrt (sqdist b c)).
  { rewrite <- sqrt_mult by assumption. rewrite (sqdist_dot a b), (sqdist_dot b c).
    apply Rsqr_incr_0_var; [|apply sqrt_pos].
    rewrite Rsqr_sqrt.
    - unfold Rsqr. apply cauchy_schwarz. rewrite !vdiff_length; congruence.
    - pose proof (dot_nonneg (vdiff a b)). pose proof (dot_nonneg (vdiff b c)). nra. }
  pose proof (Rsqr_sqrt _ PA) as QA. pose proof (Rsqr_sqrt _ PB) as QB. unfold Rsqr in *. nra.
Qed.

Lemma euclid_metric : forall a b c : list R, length a = length b -> length b = length c ->
  let d x y := sdist (euclid_space RNum) x y in
  0 <= d a b /\ (d a b = 0 <-> a = b) /\ d a b = d b a /\ d a c <= d a b + d b c.
Proof.
  intros a b c H1 H2. cbn zeta. rewrite !euclid_dist_R by lia.
  split; [apply sqrt_pos|]. split; [|split].
  - split.
    + intros H. apply (sqdist_zero a b H1). apply sqrt_eq_0; [apply sqdist_nonneg|exact H].
    + intros H. apply (sqdist_zero a b H1) in H. rewrite H. apply sqrt_0.
  - rewrite sqdist_sym. reflexivity.
  - apply sqdist_triangle; assumption.
Qed.

(** ** Combine *)
Lemma euclid_combine_R a wa b wb : (length a <= length b)%nat ->
  scombine (euclid_space RNum) a wa b wb =
  map (fun xy => (fst xy * IZR wa + snd xy * IZR wb) / (IZR wa + IZR wb)) (combine a b).
Proof.
  intros H. cbn [scombine euclid_space]. unfold point_combine. rewrite combine_loop_ok by assumption. reflexivity.
Qed.

Lemma euclid_combine_length a wa b wb : length a = length b ->
  length (scombine (euclid_space RNum) a wa b wb) = length a.
Proof. intros H. rewrite euclid_combine_R by lia. rewrite map_length, combine_length. lia. Qed.

Lemma euclid_combine_coord a wa b wb j : length a = length b -> (j < length a)%nat ->
  coord j (scombine (euclid_space RNum) a wa b wb)
  = (coord j a * IZR wa + coord j b * IZR wb) / (IZR wa + IZR wb).
Proof.
  intros H Hj. rewrite euclid_combine_R by lia. unfold coord.
  set (f := fun xy : R * R => (fst xy * IZR wa + snd xy * IZR wb) / (IZR wa + IZR wb)).
  rewrite (nth_indep _ 0 (f (0, 0))) by (rewrite map_length, combine_length; lia).
  rewrite map_nth, combine_nth by assumption. reflexivity.
Qed.

Lemma coord_ext d u v : length u = d -> length v = d -> (forall j, (j < d)%nat -> coord j u = coord j v) -> u = v.
Proof. intros H1 H2 H. apply (nth_ext _ _ 0 0); [congruence|]. intros j Hj. apply H. lia. Qed.

Lemma IZR_pos z : (0 < z)%Z -> 0 < IZR z.
Proof. apply IZR_lt. Qed.

Lemma euclid_mean_space d : mean_space (euclid_space RNum) (fun v => length v = d).
Proof.
  split.
  - intros a wa b wb Ha Hb _ _. rewrite euclid_combine_length; congruence.
  - intros a Ha. exact Ha.
  - reflexivity.
  - intros a wa b wb c wc Ha Hb Hc Hwa Hwb Hwc.
    apply (coord_ext d).
    + rewrite !euclid_combine_length; try assumption; try congruence. rewrite !euclid_combine_length; congruence.
    + rewrite !euclid_combine_length; try assumption. rewrite ?euclid_combine_length; congruence.
    + intros j Hj. rewrite !euclid_combine_coord by (rewrite ?euclid_combine_length; try lia; congruence).
      rewrite !plus_IZR. apply IZR_pos in Hwa, Hwb, Hwc. field. lra.
Qed.

Lemma euclid_barycentre : forall (a b c : list R) wa wb wc,
  length a = length b -> length b = length c -> (0 < wa)%Z -> (0 < wb)%Z -> (0 < wc)%Z ->
  let cmb := scombine (euclid_space RNum) in
  length (cmb a wa b wb) = length a /\
  (forall j, (j < length a)%nat ->
     coord j (cmb a wa b wb) = (IZR wa * coord j a + IZR wb * coord j b) / (IZR wa + IZR wb) /\
     Rmin (coord j a) (coord j b) <= coord j (cmb a wa b wb) <= Rmax (coord j a) (coord j b)) /\
  cmb a wa b wb = cmb b wb a wa /\
  cmb (cmb a wa b wb) (wa + wb)%Z c wc = cmb a wa (cmb b wb c wc) (wb + wc)%Z.
Proof.
  intros a b c wa wb wc H1 H2 Hwa Hwb Hwc. cbn zeta. split; [apply euclid_combine_length; assumption|].
  split; [|split].
  - intros j Hj. rewrite euclid_combine_coord by assumption. pose proof (IZR_pos _ Hwa). pose proof (IZR_pos _ Hwb).
    split; [f_equal; ring|].
    set (x := coord j a). set (y := coord j b). unfold Rmin, Rmax. destruct (Rle_dec x y) as [Hle|Hgt].
    + split; (apply (Rmult_le_reg_r (IZR wa + IZR wb)); [lra|]); unfold Rdiv;
        rewrite Rmult_assoc, Rinv_l by lra; nra.
    + split; (apply (Rmult_le_reg_r (IZR wa + IZR wb)); [lra|]); unfold Rdiv;
        rewrite Rmult_assoc, Rinv_l by lra; nra.
  - apply (coord_ext (length a)); [apply euclid_combine_length; lia|rewrite euclid_combine_length; lia|].
    intros j Hj. rewrite !euclid_combine_coord by lia. pose proof (IZR_pos _ Hwa). pose proof (IZR_pos _ Hwb).
    field. lra.
  - apply (ms_assoc (euclid_mean_space (length a))); auto; congruence.
Qed.

(** ** DBA = mean *)
Lemma dba_is_mean d vs m :
  all_dim d vs -> dba (euclid_space RNum) vs = Some m -> is_mean d m vs.
Proof.
  revert m. induction vs as [|v vs IH] using rev_ind; intros m HF Hm; [discriminate|].
  apply Forall_app in HF. destruct HF as [HF Hv]. inversion Hv as [|? ? Hv' _]; subst.
  destruct vs as [|v0 vs].
  - cbn in Hm. injection Hm as <-. split; [reflexivity|]. intros j Hj. cbn. unfold point_copy. field.
  - destruct (dba_nonempty (euclid_space RNum) (v0 :: vs) ltac:(discriminate)) as [b Hb].
    rewrite (dba_snoc _ _ v b Hb) in Hm.
    assert (Hm' : m = scombine (euclid_space RNum) b (Z.of_nat (length (v0 :: vs))) v 1) by congruence.
    clear Hm. subst m. destruct (IH b HF Hb) as [Hl Hc]. split.
    + rewrite euclid_combine_length; congruence.
    + intros j Hj. rewrite euclid_combine_coord by congruence. rewrite (Hc j Hj).
      rewrite map_app, rsum_app, app_length, plus_INR. cbn [map rsum fold_right].
      rewrite <- INR_IZR_INZ. change (INR (length [v])) with 1.
      assert (0 < INR (length (v0 :: vs))) by (apply lt_0_INR; cbn; lia).
      unfold rsum. field. lra.
Qed.

Lemma rsum_app_map {A} (f : A -> R) l1 l2 : rsum (map f (l1 ++ l2)) = rsum (map f l1) + rsum (map f l2).
Proof. rewrite map_app. apply rsum_app. Qed.

(** Weighted DBA as a fold over (element, weight) pairs. *)
Definition wstep {E F} (Sp : Space E F) (s : E * Z) (p : E * Z) : E * Z :=
  (scombine Sp (fst s) (snd s) (fst p) (snd p), (snd s + snd p)%Z).

Lemma weighted_fold {E F} (Sp : Space E F) weights xs : forall n m w,
  (n + length xs <= length weights)%nat ->
  ofold (fun st y => let '(i, m, w) := st in
           let* wi := sget weights i in Ok ((i + 1)%Z, scombine Sp m w y wi, (w + wi)%Z)) xs (Z.of_nat n, m, w)
  = Ok (Z.of_nat (n + length xs),
        fst (fold_left (wstep Sp) (combine xs (skipn n weights)) (m, w)),
        snd (fold_left (wstep Sp) (combine xs (skipn n weights)) (m, w))).
Proof.
  induction xs as [|x xs IH]; intros n m w H; cbn [ofold combine fold_left length] in *.
  - rewrite Nat.add_0_r. reflexivity.
  - rewrite (sget_nth weights n 0%Z) by lia. cbn [obind].
    replace (Z.of_nat n + 1)%Z with (Z.of_nat (S n)) by lia. rewrite IH by lia.
    rewrite (skipn_nth weights n 0%Z) by lia. cbn [combine fold_left].
    change (wstep Sp (m, w) (x, nth n weights 0%Z)) with (scombine Sp m w x (nth n weights 0%Z), (w + nth n weights 0%Z)%Z).
    do 3 f_equal. lia.
Qed.

Lemma weighted_dba_short {E F} (Sp : Space E F) weights xs : forall n m w,
  (length weights < n + length xs)%nat -> (n <= length weights)%nat ->
  ofold (fun st y => let '(i, m, w) := st in
           let* wi := sget weights i in Ok ((i + 1)%Z, scombine Sp m w y wi, (w + wi)%Z)) xs (Z.of_nat n, m, w)
  = Panic.
Proof.
  induction xs as [|x xs IH]; intros n m w H H'; cbn [ofold length] in *; [lia|].
  rewrite sget_nat. destruct (nth_error weights n) as [wi|] eqn:Hw; cbn [obind]; [|reflexivity].
  assert (n < length weights)%nat by (apply nth_error_Some; congruence).
  replace (Z.of_nat n + 1)%Z with (Z.of_nat (S n)) by lia. apply IH; lia.
Qed.

Lemma wfold_mean d : forall (ps : list (list R * Z)) m w pre,
  pre <> [] -> Forall (fun p => length (fst p) = d /\ (0 < snd p)%Z) (pre ++ ps) ->
  length m = d -> IZR w = rsum (map (fun p => IZR (snd p)) pre) ->
  (forall j, (j < d)%nat -> coord j m * IZR w = rsum (map (fun p => coord j (fst p) * IZR (snd p)) pre)) ->
  let r := fold_left (wstep (euclid_space RNum)) ps (m, w) in
  length (fst r) = d /\ IZR (snd r) = rsum (map (fun p => IZR (snd p)) (pre ++ ps)) /\
  forall j, (j < d)%nat -> coord j (fst r) * IZR (snd r)
    = rsum (map (fun p => coord j (fst p) * IZR (snd p)) (pre ++ ps)).
Proof.
  induction ps as [|[v wv] ps IH]; intros m w pre Hne HF Hm Hw Hj; cbn zeta; cbn [fold_left].
  - rewrite app_nil_r in *. auto.
  - change (wstep (euclid_space RNum) (m, w) (v, wv)) with (scombine (euclid_space RNum) m w v wv, (w + wv)%Z).
    assert (HF' := HF). apply Forall_app in HF'. destruct HF' as [Hpre Hps]. inversion Hps as [|? ? [Hv Hwv] Hps']; subst.
    cbn [fst snd] in *.
    assert (Hwpos : 0 < IZR w).
    { rewrite Hw. destruct pre as [|p0 pre]; [contradiction|]. inversion Hpre as [|? ? [_ Hp0] Hpre']; subst.
      cbn [map]. rewrite rsum_cons. apply IZR_pos in Hp0.
      assert (0 <= rsum (map (fun p : list R * Z => IZR (snd p)) pre)).
      { apply rsum_nonneg. apply Forall_forall. intros z Hz. apply in_map_iff in Hz. destruct Hz as (p & <- & Hp).
        rewrite Forall_forall in Hpre'. destruct (Hpre' p Hp) as [_ H]. apply IZR_pos in H. lra. }
      lra. }
    replace (pre ++ (v, wv) :: ps) with ((pre ++ [(v, wv)]) ++ ps) in * by (rewrite <- app_assoc; reflexivity).
    apply IH.
    + destruct pre; discriminate.
    + exact HF.
    + rewrite euclid_combine_length; congruence.
    + rewrite rsum_app_map, plus_IZR, Hw. cbn. lra.
    + intros j Hlt. rewrite euclid_combine_coord by congruence. rewrite rsum_app_map, <- (Hj j Hlt), plus_IZR.
      cbn [map rsum fold_right fst snd]. apply IZR_pos in Hwv. field. lra.
Qed.

Lemma weighted_dba_main : forall d (vs : list (list R)) (ws : list Z),
  (vs = [] -> weighted_dba (euclid_space RNum) vs ws = Ok None) /\
  (vs <> [] -> (length ws < length vs)%nat -> weighted_dba (euclid_space RNum) vs ws = Panic) /\
  (vs <> [] -> length ws = length vs -> all_dim d vs -> Forall (fun w => (0 < w)%Z) ws ->
   exists m, weighted_dba (euclid_space RNum) vs ws = Ok (Some m) /\ is_weighted_mean d m vs ws).
Proof.
  intros d vs ws. split; [intros ->; reflexivity|]. split.
  - intros Hne Hlt. destruct vs as [|v vs]; [contradiction|]. unfold weighted_dba.
    destruct ws as [|w0 ws]; [reflexivity|]. cbn [sget Z.ltb Z.compare Z.to_nat nth_error obind].
    change (sget (w0 :: ws) 0) with (Ok w0). cbn [obind].
    rewrite (weighted_dba_short (euclid_space RNum) (w0 :: ws) vs 1); cbn [length] in *; try lia. reflexivity.
  - intros Hne Hlen Hdim Hpos. destruct vs as [|v vs]; [contradiction|]. destruct ws as [|w0 ws]; [discriminate|].
    unfold weighted_dba. change (sget (w0 :: ws) 0) with (Ok w0). cbn [obind].
    rewrite (weighted_fold (euclid_space RNum) (w0 :: ws) vs 1); cbn [length] in *; try lia. cbn [obind skipn].
    eexists. split; [reflexivity|].
    inversion Hdim as [|? ? Hv Hdim']; subst. inversion Hpos as [|? ? Hw0 Hpos']; subst.
    destruct (wfold_mean (length v) (combine vs ws) v w0 [(v, w0)]) as (R1 & R2 & R3).
    + discriminate.
    + cbn [app]. constructor; [auto|]. apply Forall_forall. intros [x w] Hxw. cbn [fst snd].
      split; [apply in_combine_l in Hxw|apply in_combine_r in Hxw].
      * unfold all_dim in Hdim'. rewrite Forall_forall in Hdim'. apply Hdim'. exact Hxw.
      * rewrite Forall_forall in Hpos'. apply Hpos'. exact Hxw.
    + reflexivity.
    + cbn. lra.
    + intros j Hj. cbn [map rsum fold_right fst snd]. lra.
    + cbn [scopy euclid_space]. unfold point_copy. split; [exact R1|]. intros j Hj. specialize (R3 j Hj).
      cbn [app] in R2, R3. change ((v, w0) :: combine vs ws) with (combine (v :: vs) (w0 :: ws)) in R2, R3.
      rewrite <- R3. rewrite R2.
      assert (Hws : map (fun p : list R * Z => IZR (snd p)) (combine (v :: vs) (w0 :: ws)) = map IZR (w0 :: ws)).
      { rewrite <- (map_map snd IZR). f_equal. cbn [combine map snd]. f_equal.
        clear -Hlen. revert vs Hlen. induction ws as [|w ws IH]; intros [|x vs] H; cbn in *; try discriminate; auto.
        f_equal. apply IH. lia. }
      rewrite Hws in *.
      assert (0 < rsum (map IZR (w0 :: ws))).
      { cbn [map]. rewrite rsum_cons. apply IZR_pos in Hw0.
        assert (0 <= rsum (map IZR ws)).
        { apply rsum_nonneg. apply Forall_forall. intros z Hz. apply in_map_iff in Hz. destruct Hz as (w & <- & Hw).
          rewrite Forall_forall in Hpos'. specialize (Hpos' w Hw). apply IZR_pos in Hpos'. lra. }
        lra. }
      field. lra.
Qed.

Lemma dba_main : forall d (vs : list (list R)),
  (vs = [] <-> dba (euclid_space RNum) vs = None) /\
  (vs <> [] -> all_dim d vs -> exists m, dba (euclid_space RNum) vs = Some m /\ is_mean d m vs).
Proof.
  intros d vs. split; [destruct vs; split; intros; auto; discriminate|].
  intros Hne Hdim. destruct (dba_nonempty (euclid_space RNum) vs Hne) as [m Hm].
  exists m. split; [exact Hm|]. apply dba_is_mean; assumption.
Qed.

Lemma dba_order : forall d (vs vs' : list (list R)),
  Permutation.Permutation vs vs' -> all_dim d vs ->
  dba (euclid_space RNum) vs = dba (euclid_space RNum) vs'.
Proof.
  intros d vs vs' Hp Hdim.
  assert (Hdim' : all_dim d vs').
  { unfold all_dim in *. rewrite Forall_forall in *. intros v Hv. apply Hdim.
    apply (Permutation.Permutation_in v (Permutation.Permutation_sym Hp)). exact Hv. }
  destruct vs as [|v vs].
  - apply Permutation.Permutation_nil in Hp. subst. reflexivity.
  - assert (Hne : vs' <> []) by (intros ->; apply Permutation.Permutation_sym, Permutation.Permutation_nil in Hp; discriminate).
    destruct (dba_nonempty (euclid_space RNum) (v :: vs) ltac:(discriminate)) as [m Hm].
    destruct (dba_nonempty (euclid_space RNum) vs' Hne) as [m' Hm'].
    rewrite Hm, Hm'. f_equal.
    destruct (dba_is_mean d _ _ Hdim Hm) as [L1 C1], (dba_is_mean d _ _ Hdim' Hm') as [L2 C2].
    apply (coord_ext d); auto. intros j Hj. rewrite (C1 j Hj), (C2 j Hj).
    rewrite (Permutation.Permutation_length Hp). f_equal. apply rsum_perm. apply Permutation.Permutation_map. exact Hp.
Qed.
