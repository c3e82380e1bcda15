(** Sums of reals. *)
From Coq Require Import List ZArith Reals Lra Lia Permutation.
From Verif Require Import Base.Go Base.Num Spec.RealSpec.
Import ListNotations.
Local Open Scope R_scope.

Lemma rsum_app l1 l2 : rsum (l1 ++ l2) = rsum l1 + rsum l2.
Proof. induction l1 as [|x l1 IH]; cbn [app rsum fold_right]; [unfold rsum; lra|]. unfold rsum in *. rewrite IH. lra. Qed.

Lemma rsum_perm l1 l2 : Permutation l1 l2 -> rsum l1 = rsum l2.
Proof. induction 1; cbn [rsum fold_right] in *; unfold rsum in *; lra. Qed.

Lemma rsum_cons x l : rsum (x :: l) = x + rsum l.
Proof. reflexivity. Qed.

Lemma rsum_nonneg l : Forall (fun x => 0 <= x) l -> 0 <= rsum l.
Proof. induction 1; [cbn; lra|]. rewrite rsum_cons. lra. Qed.

Lemma rsum_le {A} (f g : A -> R) l : (forall x, In x l -> f x <= g x) -> rsum (map f l) <= rsum (map g l).
Proof.
  induction l as [|x l IH]; intros H; cbn [map]; [lra|]. rewrite !rsum_cons.
  apply Rplus_le_compat; [apply H; left; reflexivity|apply IH; intros y Hy; apply H; right; exact Hy].
Qed.

Lemma rsum_ext {A} (f g : A -> R) l : (forall x, In x l -> f x = g x) -> rsum (map f l) = rsum (map g l).
Proof. intros H. f_equal. apply map_ext_in. exact H. Qed.

Lemma rsum_plus {A} (f g : A -> R) l : rsum (map (fun x => f x + g x) l) = rsum (map f l) + rsum (map g l).
Proof. induction l as [|x l IH]; cbn [map]; [cbn; lra|]. rewrite !rsum_cons, IH. lra. Qed.

Lemma rsum_scal {A} (f : A -> R) k l : rsum (map (fun x => k * f x) l) = k * rsum (map f l).
Proof. induction l as [|x l IH]; cbn [map]; [cbn; lra|]. rewrite !rsum_cons, IH. lra. Qed.

Lemma rsum_const {A} (k : R) (l : list A) : rsum (map (fun _ => k) l) = INR (length l) * k.
Proof. induction l as [|x l IH]; cbn [map length]; [cbn; lra|]. rewrite rsum_cons, IH, S_INR. lra. Qed.

Lemma rsum_zero_iff l : Forall (fun x => 0 <= x) l -> (rsum l = 0 <-> Forall (fun x => x = 0) l).
Proof.
  induction 1 as [|x l Hx Hl IH]; [split; [constructor|reflexivity]|]. rewrite rsum_cons.
  pose proof (rsum_nonneg l Hl) as Hn. split.
  - intros H. assert (x = 0) by lra. assert (rsum l = 0) by lra. constructor; [assumption|]. apply IH. assumption.
  - intros H. inversion H; subst. rewrite (proj2 IH) by assumption. lra.
Qed.

Lemma fold_left_rplus l : forall a, fold_left Rplus l a = a + rsum l.
Proof. induction l as [|x l IH]; intros a; cbn [fold_left]; [cbn; lra|]. rewrite IH, rsum_cons. lra. Qed.

(** Partition of a sum by label. *)
Lemma rsum_partition {A} (f : A -> R) (lab : A -> Z) k l :
  Forall (fun x => (0 <= lab x < Z.of_nat k)%Z) l ->
  rsum (map (fun i => rsum (map f (filter (fun x => Z.eqb (lab x) (Z.of_nat i)) l))) (seq 0 k)) = rsum (map f l).
Proof.
  induction 1 as [|x l Hx Hl IH].
  - cbn [filter map]. rewrite rsum_const. cbn. lra.
  - cbn [map]. rewrite rsum_cons, <- IH. clear IH.
    assert (H : forall s n, (Z.of_nat s <= lab x < Z.of_nat (s + n))%Z ->
      rsum (map (fun i => rsum (map f (filter (fun x => Z.eqb (lab x) (Z.of_nat i)) (x :: l)))) (seq s n))
      = f x + rsum (map (fun i => rsum (map f (filter (fun x => Z.eqb (lab x) (Z.of_nat i)) l))) (seq s n))).
    { intros s n. revert s. induction n as [|n IHn]; intros s Hr; [lia|].
      cbn [seq map]. rewrite !rsum_cons. cbn [filter].
      destruct (Z.eqb_spec (lab x) (Z.of_nat s)) as [He|Hne].
      - assert (Hrest : forall s' n', (s < s')%nat ->
          rsum (map (fun i => rsum (map f (if Z.eqb (lab x) (Z.of_nat i)
                     then x :: filter (fun x => Z.eqb (lab x) (Z.of_nat i)) l
                     else filter (fun x => Z.eqb (lab x) (Z.of_nat i)) l))) (seq s' n'))
          = rsum (map (fun i => rsum (map f (filter (fun x => Z.eqb (lab x) (Z.of_nat i)) l))) (seq s' n'))).
        { intros s' n' Hs. apply rsum_ext. intros i Hi. apply in_seq in Hi.
          destruct (Z.eqb_spec (lab x) (Z.of_nat i)); [lia|reflexivity]. }
        rewrite Hrest by lia. cbn [map]. rewrite rsum_cons. lra.
      - cbn [filter] in IHn. rewrite IHn by lia. lra. }
    apply H. lia.
Qed.
