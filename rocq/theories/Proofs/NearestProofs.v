(** Proofs about nearest / Assign (core/clustering.go). *)
From Coq Require Import List ZArith Lia Bool.
From Verif Require Import Base.Go Base.Num Model.Clustering Proofs.GoLemmas Proofs.NumLaws.
Import ListNotations.

Section Nearest.
Context {E F : Type} (N : Num F) (Sp : Space E F).

Lemma nth_error_snoc_lt {A} (p : list A) (a : A) j b :
  nth_error (p ++ [a]) j = Some b -> nth_error p j = Some b \/ (j = length p /\ b = a).
Proof.
  intros H. destruct (Nat.lt_ge_cases j (length p)) as [Hj|Hj].
  - left. rewrite nth_error_app1 in H by assumption. exact H.
  - right. rewrite nth_error_app2 in H by assumption.
    destruct (j - length p) as [|n] eqn:Hd; simpl in H.
    + injection H as <-. split; [lia|reflexivity].
    + destruct n; discriminate.
Qed.

(** Whatever the distances, the label is the position of a centroid and the distance is its own. *)
Lemma nearest_loop_valid (x : E) (cs p : list E) (label : Z) (min : F) :
  (exists l cl, label = Z.of_nat l /\ nth_error p l = Some cl /\ min = sdist Sp x cl) ->
  exists l cl,
    nearest_loop N Sp cs x (Z.of_nat (length p)) label min = (Z.of_nat l, sdist Sp x cl) /\
    nth_error (p ++ cs) l = Some cl.
Proof.
  revert p label min. induction cs as [|c cs IH]; intros p label min (l & cl & -> & Hl & ->); simpl.
  - exists l, cl. rewrite app_nil_r. auto.
  - replace (Z.of_nat (length p) + 1)%Z with (Z.of_nat (length (p ++ [c])))
      by (rewrite app_length; simpl; lia).
    replace (p ++ c :: cs) with ((p ++ [c]) ++ cs) by (rewrite <- app_assoc; reflexivity).
    destruct (nltb N (sdist Sp x cl) (nof N 0) || nltb N (sdist Sp x c) (sdist Sp x cl)).
    + apply IH. exists (length p), c. rewrite nth_error_app2, Nat.sub_diag by lia. auto.
    + apply IH. exists l, cl. rewrite nth_error_app1; auto.
      apply nth_error_Some; congruence.
Qed.

Lemma nearest_valid (c : list E) (x : E) :
  nltb N (nof N (-1)) (nof N 0) = true -> c <> [] ->
  exists l cl, nearest N Sp c x = (Z.of_nat l, sdist Sp x cl) /\ nth_error c l = Some cl.
Proof.
  intros Hm Hc. destruct c as [|c0 cs]; [contradiction|]. unfold nearest; simpl. rewrite Hm. simpl.
  apply (nearest_loop_valid x cs [c0] 0%Z (sdist Sp x c0)). exists 0, c0. auto.
Qed.

Lemma nearest_empty (x : E) : nearest N Sp [] x = ((-1)%Z, nof N (-1)).
Proof. reflexivity. Qed.

Context (good : F -> Prop) (HN : NumOrd N good).

(** Best centroid of a non-empty prefix. *)
Definition best (x : E) (p : list E) (l : nat) (cl : E) : Prop :=
  nth_error p l = Some cl /\
  (forall j cj, nth_error p j = Some cj -> nleb N (sdist Sp x cl) (sdist Sp x cj) = true) /\
  (forall j cj, nth_error p j = Some cj -> j < l -> nltb N (sdist Sp x cl) (sdist Sp x cj) = true).

Definition usable (x : E) (p : list E) : Prop :=
  forall y, In y p -> good (sdist Sp x y) /\ nleb N (nof N 0) (sdist Sp x y) = true.

Lemma nearest_loop_best (x : E) (cs p : list E) (l : nat) (cl : E) :
  usable x (p ++ cs) -> best x p l cl ->
  exists l' cl',
    nearest_loop N Sp cs x (Z.of_nat (length p)) (Z.of_nat l) (sdist Sp x cl)
      = (Z.of_nat l', sdist Sp x cl') /\ best x (p ++ cs) l' cl'.
Proof.
  revert p l cl. induction cs as [|c cs IH]; intros p l cl Hu Hb; simpl.
  - exists l, cl. rewrite app_nil_r. auto.
  - assert (Hin : In cl (p ++ c :: cs)).
    { apply in_or_app; left. destruct Hb as [Hn _]. apply nth_error_In in Hn. exact Hn. }
    assert (Hcl := Hu _ Hin). destruct Hcl as [Gcl Pcl].
    assert (Hcc : In c (p ++ c :: cs)) by (apply in_or_app; right; left; reflexivity).
    destruct (Hu _ Hcc) as [Gc Pc].
    assert (Hg : forall j cj, nth_error p j = Some cj -> good (sdist Sp x cj)).
    { intros j cj Hj. apply Hu. apply in_or_app; left. apply nth_error_In in Hj; exact Hj. }
    assert (Hneg : nltb N (sdist Sp x cl) (nof N 0) = false).
    { rewrite (ltb_nleb N good HN) by (auto; apply (good_of N good HN)). rewrite Pcl; reflexivity. }
    rewrite Hneg; simpl.
    replace (Z.of_nat (length p) + 1)%Z with (Z.of_nat (length (p ++ [c])))
      by (rewrite app_length; simpl; lia).
    replace (p ++ c :: cs) with ((p ++ [c]) ++ cs) in * by (rewrite <- app_assoc; reflexivity).
    destruct Hb as (Hn & Hmin & Hfst).
    assert (Hlt : l < length p) by (apply nth_error_Some; congruence).
    destruct (nltb N (sdist Sp x c) (sdist Sp x cl)) eqn:Hlt2; simpl.
    + apply IH; [exact Hu|]. split; [|split].
      * rewrite nth_error_app2, Nat.sub_diag by lia; reflexivity.
      * intros j cj Hj. apply nth_error_snoc_lt in Hj. destruct Hj as [Hj|[-> ->]].
        -- apply (ltb_true_leb N good HN); [assumption|eauto|].
           eapply (ltb_leb_trans N good HN); [exact Gc|exact Gcl|eauto|exact Hlt2|eauto].
        -- apply (leb_refl N good HN); assumption.
      * intros j cj Hj Hjl. rewrite nth_error_app1 in Hj by lia.
        eapply (ltb_leb_trans N good HN); [exact Gc|exact Gcl|eauto|exact Hlt2|eauto].
    + apply IH; [exact Hu|]. split; [|split].
      * rewrite nth_error_app1; assumption.
      * intros j cj Hj. apply nth_error_snoc_lt in Hj. destruct Hj as [Hj|[-> ->]]; [eauto|].
        apply (ltb_false_leb N good HN); assumption.
      * intros j cj Hj Hjl. rewrite nth_error_app1 in Hj by lia. eauto.
Qed.

Lemma nearest_best (c : list E) (x : E) :
  c <> [] -> usable x c ->
  exists l cl, nearest N Sp c x = (Z.of_nat l, sdist Sp x cl) /\ best x c l cl.
Proof.
  intros Hc Hu. destruct c as [|c0 cs]; [contradiction|]. unfold nearest; simpl.
  rewrite (leb_m1_0 N good HN). simpl.
  apply (nearest_loop_best x cs [c0] 0 c0 Hu).
  destruct (Hu c0 (or_introl eq_refl)) as [G P]. split; [reflexivity|split].
  - intros [|[|j]] cj Hj; simpl in Hj; try discriminate. injection Hj as <-.
    apply (leb_refl N good HN); assumption.
  - intros j cj Hj Hjl. lia.
Qed.

Lemma assign_nearest (c : list E) (x : E) l cl :
  nearest N Sp c x = (Z.of_nat l, sdist Sp x cl) -> nth_error c l = Some cl ->
  assign N Sp c x = Ok (Some cl, Z.of_nat l, sdist Sp x cl).
Proof.
  intros H Hn. unfold assign. rewrite H. destruct (Z.leb_spec 0 (Z.of_nat l)); [|lia].
  rewrite sget_nat, Hn. reflexivity.
Qed.

Lemma assign_best (c : list E) (x : E) :
  c <> [] -> usable x c ->
  exists l cl, assign N Sp c x = Ok (Some cl, Z.of_nat l, sdist Sp x cl) /\ best x c l cl.
Proof.
  intros Hc Hu. destruct (nearest_best c x Hc Hu) as (l & cl & H & Hb).
  exists l, cl. split; [|exact Hb]. apply assign_nearest; [exact H|apply Hb].
Qed.

Lemma assign_valid (c : list E) (x : E) :
  c <> [] ->
  exists l cl, assign N Sp c x = Ok (Some cl, Z.of_nat l, sdist Sp x cl) /\ nth_error c l = Some cl.
Proof.
  intros Hc. destruct (nearest_valid c x (leb_m1_0 N good HN) Hc) as (l & cl & H & Hn).
  exists l, cl. split; [|exact Hn]. apply assign_nearest; assumption.
Qed.

End Nearest.
