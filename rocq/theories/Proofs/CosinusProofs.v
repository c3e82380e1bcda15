(** Cosinus distance (C14, C15). *)
From Coq Require Import List ZArith Lia Bool Reals Lra Psatz.
From Verif Require Import Base.Go Base.Num Model.Clustering Model.Euclid Model.Cosinus Spec.RealSpec Spec.NearestSpec
  Proofs.GoLemmas Proofs.NumLaws Proofs.NearestProofs Proofs.RealLemmas Proofs.EuclidProofs.
Import ListNotations.
Local Open Scope R_scope.

Lemma scalar_loop_R v1 : forall v2 s, (length v1 <= length v2)%nat -> scalar_loop RNum v1 v2 s = Ok (s + dot v1 v2).
Proof.
  induction v1 as [|x v1 IH]; intros [|y v2] s H; cbn [scalar_loop length] in *; try lia.
  - f_equal. cbn. lra.
  - f_equal. cbn. lra.
  - rewrite IH by lia. rewrite dot_cons. cbn [nadd nmul RNum]. f_equal. lra.
Qed.

Lemma cos_dist_R a b : (length a <= length b)%nat ->
  cos_dist RNum a b = Ok (1 - dot a b / sqrt (dot a a) / sqrt (dot b b)).
Proof.
  intros H. unfold cos_dist, cosinus, norm, scalar_product.
  rewrite !scalar_loop_R by lia. cbn [obind nof nsqrt ndiv nsub RNum]. rewrite !Rplus_0_l. reflexivity.
Qed.

Lemma dot_sym a : forall b, dot a b = dot b a.
Proof. induction a as [|x a IH]; intros [|y b]; try reflexivity. rewrite !dot_cons, IH. ring. Qed.

Lemma dot_pos a : Exists (fun x => x <> 0) a -> 0 < dot a a.
Proof.
  induction 1 as [x a Hx|x a _ IH]; rewrite dot_cons.
  - pose proof (dot_nonneg a). pose proof (Rsqr_pos_lt x Hx) as H1. unfold Rsqr in H1. lra.
  - pose proof (sq_nonneg x). lra.
Qed.

Definition scale (k : R) (v : list R) : list R := map (Rmult k) v.

Lemma dot_scale_l k a : forall b, dot (scale k a) b = k * dot a b.
Proof.
  induction a as [|x a IH]; intros [|y b]; cbn [scale map]; try (cbn; lra).
  rewrite !dot_cons. fold (scale k a). rewrite IH. ring.
Qed.

Lemma cs_bound a b : length a = length b -> 0 < dot a a -> 0 < dot b b ->
  -1 <= dot a b / sqrt (dot a a) / sqrt (dot b b) <= 1.
Proof.
  intros Hl Ha Hb. pose proof (sqrt_lt_R0 _ Ha) as Sa. pose proof (sqrt_lt_R0 _ Hb) as Sb.
  pose proof (cauchy_schwarz a b Hl) as CS.
  pose proof (Rsqr_sqrt _ (Rlt_le _ _ Ha)) as Qa. pose proof (Rsqr_sqrt _ (Rlt_le _ _ Hb)) as Qb. unfold Rsqr in *.
  set (na := sqrt (dot a a)) in *. set (nb := sqrt (dot b b)) in *. set (p := dot a b) in *.
  assert (Hp : Rabs p <= na * nb).
  { rewrite <- (Rabs_pos_eq (na * nb)) by nra. apply Rsqr_le_abs_0. unfold Rsqr. rewrite <- Qa, <- Qb in CS. nra. }
  assert (Hp2 : - (na * nb) <= p <= na * nb) by (unfold Rabs in Hp; destruct (Rcase_abs p); lra).
  assert (E : p / na / nb * (na * nb) = p) by (field; lra).
  assert (0 < na * nb) by nra. split; nra.
Qed.

Lemma sqdist_expand a : forall b, length a = length b -> sqdist a b = dot a a - 2 * dot a b + dot b b.
Proof.
  induction a as [|x a IH]; intros [|y b] H; cbn in H; try discriminate; [cbn; lra|].
  rewrite sqdist_cons, !dot_cons, IH by lia. ring.
Qed.

Lemma cosinus_main : forall a b : list R, length a = length b ->
  Exists (fun x => x <> 0) a -> Exists (fun x => x <> 0) b ->
  exists d, cos_dist RNum a b = Ok d /\ 0 <= d <= 2 /\
    cos_dist RNum b a = Ok d /\
    (forall k, 0 < k -> cos_dist RNum (map (Rmult k) a) b = Ok d /\ cos_dist RNum a (map (Rmult k) b) = Ok d) /\
    (d = 0 <-> exists k, 0 < k /\ a = map (Rmult k) b).
Proof.
  intros a b Hl Na Nb. apply dot_pos in Na, Nb.
  pose proof (cs_bound a b Hl Na Nb) as HB.
  pose proof (sqrt_lt_R0 _ Na) as Sa. pose proof (sqrt_lt_R0 _ Nb) as Sb.
  pose proof (Rsqr_sqrt _ (Rlt_le _ _ Na)) as Qa. pose proof (Rsqr_sqrt _ (Rlt_le _ _ Nb)) as Qb. unfold Rsqr in Qa, Qb.
  exists (1 - dot a b / sqrt (dot a a) / sqrt (dot b b)).
  split; [apply cos_dist_R; lia|]. split; [lra|]. split; [|split].
  - rewrite cos_dist_R by lia. f_equal. rewrite (dot_sym b a). field. lra.
  - assert (Hnorm : forall k v, 0 < k -> 0 < dot v v -> sqrt (dot (scale k v) (scale k v)) = k * sqrt (dot v v)).
    { intros k v Hk Hv. rewrite dot_scale_l, dot_sym, dot_scale_l, <- Rmult_assoc, sqrt_mult by nra.
      rewrite sqrt_square by lra. reflexivity. }
    intros k Hk. fold (scale k a) (scale k b). split.
    + rewrite cos_dist_R by (unfold scale; rewrite map_length; lia). rewrite Hnorm, dot_scale_l by assumption.
      f_equal. field. lra.
    + rewrite cos_dist_R by (unfold scale; rewrite map_length; lia). rewrite Hnorm by assumption.
      rewrite (dot_sym a (scale k b)), dot_scale_l, (dot_sym b a). f_equal. field. lra.
  - split.
    + intros Hd.
      assert (Hp : dot a b = sqrt (dot a a) * sqrt (dot b b)).
      { assert (H1 : dot a b / sqrt (dot a a) / sqrt (dot b b) = 1) by lra.
        replace (dot a b) with (dot a b / sqrt (dot a a) / sqrt (dot b b) * (sqrt (dot a a) * sqrt (dot b b))) by (field; lra).
        rewrite H1. ring. }
      exists (sqrt (dot a a) / sqrt (dot b b)). split; [apply Rdiv_lt_0_compat; lra|].
      fold (scale (sqrt (dot a a) / sqrt (dot b b)) b).
      apply sqdist_zero; [unfold scale; rewrite map_length; exact Hl|].
      rewrite sqdist_expand by (unfold scale; rewrite map_length; exact Hl).
      rewrite (dot_sym a (scale _ b)), !dot_scale_l, (dot_sym b (scale _ b)), dot_scale_l, (dot_sym b a), Hp.
      set (na := sqrt (dot a a)) in *. set (nb := sqrt (dot b b)) in *. rewrite <- Qa, <- Qb. field. lra.
    + intros (k & Hk & ->). fold (scale k b). rewrite !dot_scale_l, (dot_sym b (scale k b)), dot_scale_l.
      rewrite <- Rmult_assoc, sqrt_mult by nra. rewrite sqrt_square by lra.
      set (nb := sqrt (dot b b)) in *. rewrite <- Qb. field. lra.
Qed.

(** C15: rounding makes the distance of (1,1,1) to itself negative, and Assign then prefers the
    second centroid, which is farther. *)
Lemma cosinus_refuted :
  exists (c : list (list b64)) (x : list b64) l cl d,
    (forall y, In y c -> not_nan64 (sdist (cosinus_space B64Num) x y)) /\
    assign B64Num (cosinus_space B64Num) c x = Ok (Some cl, l, d) /\
    exists y, In y c /\ b64_ltb (sdist (cosinus_space B64Num) x y) d = true.
Proof.
  set (c := [v64 [1; 1; 1]%Z; v64 [0; 1; 0]%Z]). set (x := v64 [1; 1; 1]%Z).
  destruct (nearest_valid B64Num (cosinus_space B64Num) c x) as (l & cl & Hn & Hl).
  { exact (leb_m1_0 B64Num _ B64NumOrd). }
  { discriminate. }
  assert (Hl1 : Z.of_nat l = 1%Z).
  { transitivity (fst (nearest B64Num (cosinus_space B64Num) c x)); [rewrite Hn; reflexivity|].
    vm_compute. reflexivity. }
  assert (l = 1%nat) by lia. subst l. cbn in Hl. injection Hl as <-.
  exists c, x, 1%Z, (v64 [0; 1; 0]%Z), (sdist (cosinus_space B64Num) x (v64 [0; 1; 0]%Z)).
  split; [|split].
  - intros y [<-|[<-|[]]]; vm_compute; reflexivity.
  - rewrite (assign_nearest B64Num (cosinus_space B64Num) c x 1 (v64 [0; 1; 0]%Z) Hn); reflexivity.
  - exists (v64 [1; 1; 1]%Z). split; [left; reflexivity|]. vm_compute. reflexivity.
Qed.
