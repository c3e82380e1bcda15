(** Proofs about the k-means iterations: C17-C20. *)
From Coq Require Import List ZArith Lia Bool Reals Lra.
From Verif Require Import Base.Go Base.Num Model.Clustering Model.Par Model.Euclid Model.Buffer Model.Kmeans
  Spec.ClusterSpec Spec.RealSpec Spec.SpaceSpec Spec.NearestSpec Spec.BufferSpec Spec.KmeansSpec
  Proofs.GoLemmas Proofs.NumLaws Proofs.NearestProofs Proofs.ReduceProofs Proofs.ParProofs
  Proofs.ParReduceProofs Proofs.RealLemmas Proofs.AssignMain Proofs.ReduceMain Proofs.EuclidProofs
  Proofs.BufferProofs.
Import ListNotations.

Section Strategy.
Context {E F : Type} (N : Num F) (good : F -> Prop) (HN : NumOrd N good) (Sp : Space E F).

Definition fill (c : E) (r : option E) : E := match r with Some m => m | None => c end.

Lemma upd_app_mid {A} (p : list A) a q b : upd (p ++ a :: q) (length p) b = p ++ b :: q.
Proof. induction p as [|x p IH]; cbn [app length upd]; [reflexivity|]. rewrite IH. reflexivity. Qed.

Lemma sget_app_mid {A} (p : list A) a q : sget (p ++ a :: q) (Z.of_nat (length p)) = Ok a.
Proof. rewrite sget_nat, nth_error_app2, Nat.sub_diag by lia. reflexivity. Qed.

Lemma seq_build_loop : forall (rs : list (option E)) (cs : list E) done cdone,
  length rs = length cs -> length done = length cdone ->
  ofold (fun result i =>
           let* r := sget result i in
           match r with
           | None => let* c := sget (cdone ++ cs) i in sset result i (Some c)
           | Some _ => Ok result
           end)
        (map Z.of_nat (seq (length done) (length rs))) (done ++ rs)
  = Ok (done ++ map Some (map (fun p => fill (fst p) (snd p)) (combine cs rs))).
Proof.
  induction rs as [|r rs IH]; intros cs done cdone Hl Hd; destruct cs as [|c cs]; try discriminate;
    cbn [length seq map ofold combine]; [reflexivity|].
  cbn [length] in Hl. rewrite sget_app_mid. cbn [obind].
  assert (Hstep : match r with
                  | Some _ => Ok (done ++ r :: rs)
                  | None => let* c0 := sget (cdone ++ c :: cs) (Z.of_nat (length done)) in
                            sset (done ++ r :: rs) (Z.of_nat (length done)) (Some c0)
                  end = Ok (done ++ Some (fill c r) :: rs)).
  { destruct r as [m|]; [reflexivity|]. rewrite Hd, sget_app_mid. cbn [obind]. rewrite <- Hd.
    rewrite sset_nat by (rewrite app_length; cbn; lia). rewrite upd_app_mid. reflexivity. }
  rewrite Hstep. cbn [obind]. replace (cdone ++ c :: cs) with ((cdone ++ [c]) ++ cs) by (rewrite <- app_assoc; reflexivity).
  replace (done ++ Some (fill c r) :: rs) with ((done ++ [Some (fill c r)]) ++ rs) by (rewrite <- app_assoc; reflexivity).
  replace (S (length done)) with (length (done ++ [Some (fill c r)])) by (rewrite app_length; cbn; lia).
  rewrite IH; [|lia|rewrite !app_length; cbn; lia].
  cbn [fst snd]. rewrite <- app_assoc. reflexivity.
Qed.

Lemma nth_error_fill (cs : list E) (rs : list (option E)) i c :
  length rs = length cs -> nth_error cs i = Some c ->
  nth_error (map (fun p => fill (fst p) (snd p)) (combine cs rs)) i = Some (fill c (nth i rs None)).
Proof.
  revert cs i. induction rs as [|r rs IH]; intros [|c0 cs] i Hl Hi; try discriminate; [destruct i; discriminate|].
  destruct i as [|i]; cbn in Hi |- *; [injection Hi as ->; reflexivity|]. apply IH; [cbn in Hl; lia|exact Hi].
Qed.

(** New centroids: mean of the cluster, previous centroid when the cluster is empty. *)
Definition lloyd (lab : E -> Z) (c : list E) (data : list E) (c' : list E) : Prop :=
  length c' = length c /\
  forall i ci, nth_error c i = Some ci ->
    nth_error c' i = Some (match dba Sp (members lab i data) with Some m => m | None => ci end).

Lemma lloyd_unique lab c data c1 c2 : lloyd lab c data c1 -> lloyd lab c data c2 -> c1 = c2.
Proof.
  intros [L1 H1] [L2 H2]. apply list_ext; [congruence|]. intros i Hi.
  destruct (nth_error c i) as [ci|] eqn:Hc; [|apply nth_error_None in Hc; lia].
  rewrite (H1 i ci Hc), (H2 i ci Hc). reflexivity.
Qed.

Lemma seq_iterate_lloyd c data : c <> [] ->
  exists c', seq_iterate N Sp c data = Ok (map Some c') /\ lloyd (fun x => fst (nearest N Sp c x)) c data c'.
Proof.
  intros Hc. destruct (reduce_dba_result N Sp c data Hc (leb_m1_0 N good HN)) as (means & cards & H & H1 & H2 & H3).
  unfold seq_iterate. rewrite H. cbn [obind fst]. unfold seq_build_result.
  pose proof (seq_build_loop means c [] [] H1 eq_refl) as Hb. cbn [app length] in Hb. rewrite Hb.
  eexists. split; [reflexivity|]. split.
  - rewrite map_length, combine_length. lia.
  - intros i ci Hi. rewrite (nth_error_fill c means i ci H1 Hi).
    assert (Hlt : i < length c) by (apply nth_error_Some; congruence).
    destruct (H3 i Hlt) as [-> _]. reflexivity.
Qed.

Lemma par_iterate_lloyd (P : E -> Prop) (HM : mean_space Sp P) degree c data : c <> [] -> (0 < degree)%Z -> Forall P data ->
  exists c', par_iterate N Sp degree c data = Ok (map Some c') /\ lloyd (fun x => fst (nearest N Sp c x)) c data c'.
Proof.
  intros Hc Hd HP. pose proof (leb_m1_0 N good HN) as Hm.
  destruct (par_reduce_dba_result N Sp P HM Hm c data degree Hc Hd HP) as (means & cards & res & H1 & H2 & H3 & H4).
  destruct (reduce_dba_result N Sp c data Hc Hm) as (means' & cards' & H1' & M1 & M2 & M3).
  rewrite H1 in H1'. injection H1' as <- <-.
  unfold par_iterate. rewrite H2. cbn [obind fst].
  exists (map (fun p => fill (fst p) (snd p)) (combine c means)). split.
  - f_equal. apply list_ext.
    + rewrite !map_length, combine_length. lia.
    + intros i Hi. rewrite H3 in Hi. destruct (nth_error c i) as [ci|] eqn:Hci; [|apply nth_error_None in Hci; lia].
      rewrite nth_error_map, (nth_error_fill c means i ci M1 Hci). cbn [option_map].
      rewrite (nth_error_nth' res None) by lia. rewrite (H4 i ci Hci). destruct (M3 i Hi) as [Q1 Q2]. rewrite Q1, Q2.
      destruct (members (fun x => fst (nearest N Sp c x)) i data) as [|y ys] eqn:Hmem; [reflexivity|].
      destruct (Z.ltb_spec 0 (Z.of_nat (length (y :: ys)))); [|cbn [length] in *; lia].
      destruct (dba_nonempty Sp (y :: ys) ltac:(discriminate)) as [m ->]. reflexivity.
  - split.
    + rewrite map_length, combine_length. lia.
    + intros i ci Hi. rewrite (nth_error_fill c means i ci M1 Hi).
      assert (Hlt : i < length c) by (apply nth_error_Some; congruence).
      destruct (M3 i Hlt) as [-> _]. reflexivity.
Qed.

End Strategy.

(** ** C18 *)
Lemma members_lab {E F} (N : Num F) good (HN : NumOrd N good) (Sp : Space E F) c (lab : E -> Z) :
  (forall x, exists cl d, assign N Sp c x = Ok (cl, lab x, d)) -> forall x, lab x = fst (nearest N Sp c x).
Proof.
  intros H x. destruct (H x) as (cl & d & Hx). destruct (nearest_assign N Sp good HN c x) as [cl' Hx'].
  rewrite Hx in Hx'. injection Hx' as _ -> _. reflexivity.
Qed.

Lemma lloyd_main : forall E F (N : Num F) good, NumOrd N good ->
  forall (Sp : Space E F) (c data : list E) (lab : E -> Z),
  (forall x, exists cl d, assign N Sp c x = Ok (cl, lab x, d)) -> c <> [] ->
  exists c', seq_iterate N Sp c data = Ok (map Some c') /\
    length c' = length c /\
    (forall i ci, nth_error c i = Some ci ->
       (members lab i data = [] -> nth_error c' i = Some ci) /\
       (members lab i data <> [] -> exists m, dba Sp (members lab i data) = Some m /\ nth_error c' i = Some m)) /\
    (forall P degree, mean_space Sp P -> Forall P data -> (0 < degree)%Z ->
       par_iterate N Sp degree c data = seq_iterate N Sp c data).
Proof.
  intros E F N good HN Sp c data lab Hlab Hc. pose proof (members_lab N good HN Sp c lab Hlab) as Hl.
  destruct (seq_iterate_lloyd N good HN Sp c data Hc) as (c' & H1 & [H2 H3]).
  exists c'. split; [exact H1|]. split; [exact H2|]. split.
  - intros i ci Hi. specialize (H3 i ci Hi).
    rewrite (members_ext lab (fun x => fst (nearest N Sp c x)) i data Hl). split; intros Hm.
    + rewrite Hm in H3. exact H3.
    + destruct (dba_nonempty Sp _ Hm) as [m Hd]. exists m. rewrite Hd in H3. auto.
  - intros P degree HM HP Hd. destruct (par_iterate_lloyd N good HN Sp P HM degree c data Hc Hd HP) as (c2 & Hp & Hll).
    rewrite Hp, H1. do 2 f_equal. apply (lloyd_unique Sp _ c data c2 c' Hll). split; assumption.
Qed.

(** ** C17 *)
Local Open Scope R_scope.

Lemma sum_sq_mean {A} (f : A -> R) (l : list A) (m k : R) :
  l <> [] -> m = rsum (map f l) / INR (length l) ->
  rsum (map (fun x => (f x - m) * (f x - m)) l) <= rsum (map (fun x => (f x - k) * (f x - k)) l).
Proof.
  intros Hne Hm.
  assert (Hn : 0 < INR (length l)) by (apply lt_0_INR; destruct l; [contradiction|cbn; lia]).
  assert (Hs : rsum (map f l) = INR (length l) * m) by (rewrite Hm; field; lra).
  assert (He : rsum (map (fun x => (f x - k) * (f x - k)) l)
    = rsum (map (fun x => (f x - m) * (f x - m)) l) + INR (length l) * ((m - k) * (m - k))).
  { rewrite (rsum_ext _ (fun x => (f x - m) * (f x - m) + ((2 * (m - k)) * f x + (k * k - m * m))))
      by (intros; ring).
    rewrite rsum_plus, rsum_plus, rsum_scal, rsum_const, Hs. ring. }
  rewrite He. pose proof (sq_nonneg (m - k)). nra.
Qed.

Lemma sqdist_coords d : forall a b, length a = d -> length b = d ->
  sqdist a b = rsum (map (fun j => (coord j a - coord j b) * (coord j a - coord j b)) (seq 0 d)).
Proof.
  induction d as [|d IH]; intros [|x a] [|y b] Ha Hb; try discriminate; [reflexivity|].
  rewrite sqdist_cons. cbn [seq map]. rewrite rsum_cons. cbn [coord nth]. f_equal.
  rewrite <- seq_shift, map_map. cbn in Ha, Hb. rewrite (IH a b) by lia. reflexivity.
Qed.

Lemma rsum_swap {A B} (f : A -> B -> R) l1 l2 :
  rsum (map (fun a => rsum (map (f a) l2)) l1) = rsum (map (fun b => rsum (map (fun a => f a b) l1)) l2).
Proof.
  induction l1 as [|a l1 IH]; cbn [map].
  - rewrite (rsum_ext (fun b => rsum []) (fun _ => 0)) by reflexivity. rewrite rsum_const. cbn. lra.
  - rewrite rsum_cons, IH. rewrite <- rsum_plus. apply rsum_ext. intros b _. rewrite rsum_cons. reflexivity.
Qed.

Lemma mean_minimises d m vs k : all_dim d vs -> vs <> [] -> is_mean d m vs -> length k = d ->
  rsum (map (fun x => sqdist x m) vs) <= rsum (map (fun x => sqdist x k) vs).
Proof.
  intros Hdim Hne [Hl Hm] Hk. unfold all_dim in Hdim. rewrite Forall_forall in Hdim.
  rewrite (rsum_ext _ (fun x => rsum (map (fun j => (coord j x - coord j m) * (coord j x - coord j m)) (seq 0 d))))
    by (intros x Hx; apply sqdist_coords; auto).
  rewrite (rsum_ext (fun x => sqdist x k) (fun x => rsum (map (fun j => (coord j x - coord j k) * (coord j x - coord j k)) (seq 0 d))))
    by (intros x Hx; apply sqdist_coords; auto).
  rewrite (rsum_swap (fun x j => (coord j x - coord j m) * (coord j x - coord j m))).
  rewrite (rsum_swap (fun x j => (coord j x - coord j k) * (coord j x - coord j k))).
  apply rsum_le. intros j Hj. apply in_seq in Hj. apply sum_sq_mean; [exact Hne|]. apply Hm. lia.
Qed.

Notation euclid := (euclid_space RNum).

Lemma all_dim_members d (lab : list R -> Z) i data : all_dim d data -> all_dim d (members lab i data).
Proof.
  unfold all_dim, members. rewrite !Forall_forall. intros H x Hx. apply filter_In in Hx. apply H, Hx.
Qed.

Lemma lloyd_dim d lab c data c' : all_dim d c -> all_dim d data -> lloyd euclid lab c data c' -> all_dim d c'.
Proof.
  intros Hc Hdata [Hl H]. unfold all_dim. apply Forall_forall. intros y Hy. apply In_nth_error in Hy. destruct Hy as [i Hi].
  assert (Hlt : (i < length c)%nat) by (rewrite <- Hl; apply nth_error_Some; congruence).
  destruct (nth_error c i) as [ci|] eqn:Hci; [|apply nth_error_None in Hci; lia].
  rewrite (H i ci Hci) in Hi. injection Hi as <-.
  destruct (dba euclid (members lab i data)) as [m|] eqn:Hd.
  - apply (dba_is_mean d _ _ (all_dim_members d lab i data Hdata) Hd).
  - unfold all_dim in Hc. rewrite Forall_forall in Hc. apply Hc. apply (nth_error_In c i Hci).
Qed.

(** Loss of [c] on [data]: sum of the squared distances to the nearest centroid. *)
Lemma loss_value (pow : R -> R -> R) (Hpow : forall x, 0 <= x -> pow x 2 = x * x) d c data :
  c <> [] -> all_dim d c -> all_dim d data ->
  exists l (near : list R -> list R), total_loss RNum euclid pow c data 2 = Ok l /\
    l = rsum (map (fun x => sqdist x (near x)) data) /\
    (forall x, In x data -> exists i, fst (nearest RNum euclid c x) = Z.of_nat i /\ nth_error c i = Some (near x)) /\
    (forall x y, In x data -> In y c -> sqdist x (near x) <= sqdist x y).
Proof.
  intros Hc Hdc Hdd.
  assert (Hbest : forall x, exists i cl, nearest RNum euclid c x = (Z.of_nat i, sdist euclid x cl) /\ nth_error c i = Some cl /\
     (forall y, In y c -> length x = d -> sqdist x cl <= sqdist x y)).
  { intros x. destruct (nearest_best RNum euclid (fun _ => True) RNumOrd c x Hc) as (i & cl & H1 & H2 & H3 & _).
    - intros y Hy. split; [exact I|]. cbn. apply Rleb_true. destruct (point_dist RNum x y) as [z|] eqn:Hz; [|lra].
      unfold point_dist in Hz. destruct (sqsum_loop RNum x y _); cbn in Hz; [|discriminate]. injection Hz as <-. apply sqrt_pos.
    - exists i, cl. split; [exact H1|]. split; [exact H2|]. intros y Hy Hx.
      apply In_nth_error in Hy. destruct Hy as [j Hj]. pose proof (proj1 (Rleb_true _ _) (H3 j y Hj)) as Hle.
      unfold all_dim in Hdc. rewrite Forall_forall in Hdc.
      assert (length cl = d) by (apply Hdc; apply (nth_error_In c i H2)).
      assert (length y = d) by (apply Hdc; apply (nth_error_In c j Hj)).
      rewrite !euclid_dist_R in Hle by lia. apply sqrt_le_0; [apply sqdist_nonneg|apply sqdist_nonneg|exact Hle]. }
  set (near := fun x => nth (Z.to_nat (fst (nearest RNum euclid c x))) c []).
  assert (Hnear : forall x i cl, nearest RNum euclid c x = (Z.of_nat i, sdist euclid x cl) -> nth_error c i = Some cl -> near x = cl).
  { intros x i cl H1 H2. unfold near. rewrite H1. cbn [fst]. rewrite Nat2Z.id. apply nth_error_nth. exact H2. }
  exists (rsum (map (fun x => sqdist x (near x)) data)), near. split; [|split; [reflexivity|split]].
  - rewrite (total_loss_main _ euclid pow c data 2 (fun x => fst (nearest RNum euclid c x)) (fun x => snd (nearest RNum euclid c x)));
      [|intros x; apply (nearest_assign RNum euclid _ RNumOrd)|exact Hc].
    f_equal. apply rsum_ext. intros x Hx. destruct (Hbest x) as (i & cl & H1 & H2 & H3).
    rewrite (Hnear x i cl H1 H2), H1. cbn [snd].
    assert (length x = d) by (unfold all_dim in Hdd; rewrite Forall_forall in Hdd; auto).
    assert (length cl = d) by (unfold all_dim in Hdc; rewrite Forall_forall in Hdc; apply Hdc; apply (nth_error_In c i H2)).
    rewrite euclid_dist_R by lia. rewrite Hpow by apply sqrt_pos. apply sqrt_sqrt. apply sqdist_nonneg.
  - intros x Hx. destruct (Hbest x) as (i & cl & H1 & H2 & H3). exists i. rewrite (Hnear x i cl H1 H2), H1. auto.
  - intros x y Hx Hy. destruct (Hbest x) as (i & cl & H1 & H2 & H3). rewrite (Hnear x i cl H1 H2). apply H3; [exact Hy|].
    unfold all_dim in Hdd. rewrite Forall_forall in Hdd. auto.
Qed.

Lemma lloyd_decreases (pow : R -> R -> R) (Hpow : forall x, 0 <= x -> pow x 2 = x * x) d c data c' :
  c <> [] -> all_dim d c -> all_dim d data ->
  lloyd euclid (fun x => fst (nearest RNum euclid c x)) c data c' ->
  exists l l', total_loss RNum euclid pow c data 2 = Ok l /\ total_loss RNum euclid pow c' data 2 = Ok l' /\ l' <= l.
Proof.
  intros Hc Hdc Hdd Hll. pose proof (lloyd_dim d _ c data c' Hdc Hdd Hll) as Hdc'. destruct Hll as [Hlen Hll].
  assert (Hc' : c' <> []) by (intros ->; destruct c; [contradiction|discriminate]).
  destruct (loss_value pow Hpow d c data Hc Hdc Hdd) as (l & near & H1 & H2 & H3 & H4).
  destruct (loss_value pow Hpow d c' data Hc' Hdc' Hdd) as (l' & near' & K1 & K2 & K3 & K4).
  exists l, l'. split; [exact H1|]. split; [exact K1|]. subst l l'.
  set (lab := fun x => fst (nearest RNum euclid c x)) in *.
  assert (Hlab : Forall (fun x => (0 <= lab x < Z.of_nat (length c))%Z) data).
  { apply Forall_forall. intros x Hx. destruct (H3 x Hx) as (i & Hi & Hn). fold (lab x) in Hi. rewrite Hi.
    assert (i < length c)%nat by (apply nth_error_Some; congruence). lia. }
  (* every element at the distance of the new centroid of its old cluster *)
  set (moved := fun x => nth (Z.to_nat (lab x)) c' []).
  apply Rle_trans with (rsum (map (fun x => sqdist x (moved x)) data)).
  - apply rsum_le. intros x Hx. apply K4; [exact Hx|]. unfold moved. apply nth_In.
    rewrite Forall_forall in Hlab. specialize (Hlab x Hx). lia.
  - rewrite <- (rsum_partition (fun x => sqdist x (moved x)) lab (length c) data Hlab).
    rewrite <- (rsum_partition (fun x => sqdist x (near x)) lab (length c) data Hlab).
    apply rsum_le. intros i Hi. apply in_seq in Hi. change (filter _ data) with (members lab i data).
    destruct (nth_error c i) as [ci|] eqn:Hci; [|apply nth_error_None in Hci; lia].
    pose proof (Hll i ci Hci) as Hi'.
    rewrite (rsum_ext (fun x => sqdist x (near x)) (fun x => sqdist x ci)).
    2:{ intros x Hx. apply filter_In in Hx. destruct Hx as [Hx He]. apply Z.eqb_eq in He.
        destruct (H3 x Hx) as (k & Hk & Hn). fold (lab x) in Hk. assert (k = i) by lia. subst k. congruence. }
    destruct (members lab i data) as [|x0 xs] eqn:Hm; [cbn; lra|]. rewrite <- Hm.
    destruct (dba_nonempty euclid (members lab i data)) as [m Hd]; [rewrite Hm; discriminate|].
    rewrite <- Hm in Hi'. rewrite Hd in Hi'.
    rewrite (rsum_ext (fun x => sqdist x (moved x)) (fun x => sqdist x m)).
    2:{ intros x Hx. apply filter_In in Hx. destruct Hx as [Hx He]. apply Z.eqb_eq in He.
        unfold moved. rewrite He, Nat2Z.id. rewrite (nth_error_nth c' i [] Hi'). reflexivity. }
    apply (mean_minimises d).
    + apply all_dim_members. exact Hdd.
    + rewrite Hm. discriminate.
    + apply dba_is_mean; [apply all_dim_members; exact Hdd|exact Hd].
    + unfold all_dim in Hdc. rewrite Forall_forall in Hdc. apply Hdc. apply (nth_error_In c i Hci).
Qed.

(** Strategies in the Euclidean space. *)

Lemma strategy_lloyd par d c data c' : valid_par par -> c <> [] -> all_dim d data ->
  strategy_iterate RNum euclid par c data = Ok (map Some c') ->
  lloyd euclid (fun x => fst (nearest RNum euclid c x)) c data c'.
Proof.
  intros Hp Hc Hd Hit. assert (Hinj : forall (l1 l2 : list (list R)), map Some l1 = map Some l2 -> l1 = l2).
  { induction l1 as [|a l1 IH]; intros [|b l2] H; try discriminate; [reflexivity|]. cbn in H. injection H as -> H. f_equal. auto. }
  destruct par as [degree|]; cbn in Hit, Hp.
  - destruct (par_iterate_lloyd RNum _ RNumOrd euclid _ (euclid_mean_space d) degree c data Hc Hp Hd) as (c2 & H1 & H2).
    rewrite H1 in Hit. injection Hit as Hit. apply Hinj in Hit. subst. exact H2.
  - destruct (seq_iterate_lloyd RNum _ RNumOrd euclid c data Hc) as (c2 & H1 & H2).
    rewrite H1 in Hit. injection Hit as Hit. apply Hinj in Hit. subst. exact H2.
Qed.

Lemma strategy_runs par d c data : valid_par par -> c <> [] -> all_dim d data ->
  exists c', strategy_iterate RNum euclid par c data = Ok (map Some c').
Proof.
  intros Hp Hc Hd. destruct par as [degree|]; cbn in *.
  - destruct (par_iterate_lloyd RNum _ RNumOrd euclid _ (euclid_mean_space d) degree c data Hc Hp Hd) as (c2 & H1 & H2). eauto.
  - destruct (seq_iterate_lloyd RNum _ RNumOrd euclid c data Hc) as (c2 & H1 & H2). eauto.
Qed.

Lemma iteration_loss_main : forall (pow : R -> R -> R), (forall x, 0 <= x -> pow x 2 = x * x) ->
  forall par d (c data : list (list R)), valid_par par -> c <> [] -> all_dim d c -> all_dim d data ->
  forall n, exists cn ln l0,
    iterations RNum euclid par data n c cn /\ length cn = length c /\
    total_loss RNum euclid pow c data 2 = Ok l0 /\
    total_loss RNum euclid pow cn data 2 = Ok ln /\
    ln <= l0 /\
    exists cn' ln', iterations RNum euclid par data (S n) c cn' /\
      total_loss RNum euclid pow cn' data 2 = Ok ln' /\ ln' <= ln.
Proof.
  intros pow Hpow par d c data Hp Hc Hdc Hdd n. revert c Hc Hdc. induction n as [|n IH]; intros c Hc Hdc.
  - destruct (strategy_runs par d c data Hp Hc Hdd) as (c' & Hit).
    destruct (lloyd_decreases pow Hpow d c data c' Hc Hdc Hdd (strategy_lloyd par d c data c' Hp Hc Hdd Hit)) as (l & l' & H1 & H2 & H3).
    exists c, l, l. split; [constructor|]. split; [reflexivity|]. split; [exact H1|]. split; [exact H1|]. split; [lra|].
    exists c', l'. split; [econstructor; [exact Hit|constructor]|]. auto.
  - destruct (strategy_runs par d c data Hp Hc Hdd) as (c' & Hit).
    pose proof (strategy_lloyd par d c data c' Hp Hc Hdd Hit) as Hll.
    destruct (lloyd_decreases pow Hpow d c data c' Hc Hdc Hdd Hll) as (l & l' & H1 & H2 & H3).
    assert (Hc' : c' <> []) by (destruct Hll as [Hlen _]; intros ->; destruct c; [contradiction|discriminate]).
    destruct (IH c' Hc' (lloyd_dim d _ c data c' Hdc Hdd Hll)) as (cn & ln & l0 & K1 & K2 & K3 & K4 & K5 & cn' & ln' & K6 & K7 & K8).
    exists cn, ln, l. split; [econstructor; eassumption|]. split; [rewrite K2; apply Hll|]. split; [exact H1|].
    split; [exact K4|]. assert (l0 = l') by congruence. split; [lra|].
    exists cn', ln'. split; [econstructor; eassumption|]. auto.
Qed.

(** ** C19 *)
Lemma mean_in_box {A} (f : A -> R) (l : list A) lo hi : l <> [] -> (forall x, In x l -> lo <= f x <= hi) ->
  lo <= rsum (map f l) / INR (length l) <= hi.
Proof.
  intros Hne H. assert (Hn : 0 < INR (length l)) by (apply lt_0_INR; destruct l; [contradiction|cbn; lia]).
  assert (H1 : INR (length l) * lo <= rsum (map f l)) by (rewrite <- (rsum_const lo l); apply rsum_le; intros; apply H; assumption).
  assert (H2 : rsum (map f l) <= INR (length l) * hi) by (rewrite <- (rsum_const hi l); apply rsum_le; intros; apply H; assumption).
  split; (apply (Rmult_le_reg_l (INR (length l))); [exact Hn|]);
    (replace (INR (length l) * (rsum (map f l) / INR (length l))) with (rsum (map f l)) by (field; lra)); lra.
Qed.

Lemma box_main : forall par d (c data : list (list R)), valid_par par -> c <> [] -> all_dim d c -> all_dim d data ->
  forall n cn, iterations RNum euclid par data n c cn ->
  forall j lo hi, (j < d)%nat ->
  (forall v, In v (data ++ c) -> lo <= coord j v <= hi) ->
  forall v, In v cn -> lo <= coord j v <= hi.
Proof.
  intros par d c data Hp Hc Hdc Hdd n cn H. revert Hc Hdc. induction H as [c|n c c1 c2 Hit H IH]; intros Hc Hdc j lo hi Hj Hbox v Hv.
  - apply Hbox. apply in_or_app. right. exact Hv.
  - pose proof (strategy_lloyd par d c data c1 Hp Hc Hdd Hit) as Hll.
    assert (Hc1 : c1 <> []) by (destruct Hll as [Hlen _]; intros ->; destruct c; [contradiction|discriminate]).
    apply (IH Hc1 (lloyd_dim d _ c data c1 Hdc Hdd Hll) j lo hi Hj); [|exact Hv].
    intros u Hu. apply in_app_or in Hu. destruct Hu as [Hu|Hu]; [apply Hbox; apply in_or_app; left; exact Hu|].
    destruct Hll as [Hlen Hll]. apply In_nth_error in Hu. destruct Hu as [i Hi].
    assert (Hlt : (i < length c)%nat) by (rewrite <- Hlen; apply nth_error_Some; congruence).
    destruct (nth_error c i) as [ci|] eqn:Hci; [|apply nth_error_None in Hci; lia].
    rewrite (Hll i ci Hci) in Hi. injection Hi as <-.
    destruct (dba euclid _) as [m|] eqn:Hd.
    + destruct (dba_is_mean d _ _ (all_dim_members d _ i data Hdd) Hd) as [_ Hm]. rewrite (Hm j Hj).
      apply mean_in_box.
      * intros Hnil. rewrite Hnil in Hd. discriminate.
      * intros x Hx. apply filter_In in Hx. apply Hbox. apply in_or_app. left. apply Hx.
    + apply Hbox. apply in_or_app. right. apply (nth_error_In c i Hci).
Qed.

Lemma lloyd_mean_main : forall par d (c data : list (list R)) (lab : list R -> Z),
  valid_par par -> c <> [] -> all_dim d data ->
  (forall x, exists cl di, assign RNum euclid c x = Ok (cl, lab x, di)) ->
  exists c', strategy_iterate RNum euclid par c data = Ok (map Some c') /\ length c' = length c /\
    forall i ci ci', nth_error c i = Some ci -> nth_error c' i = Some ci' ->
      (members lab i data = [] -> ci' = ci) /\
      (members lab i data <> [] -> is_mean d ci' (members lab i data)).
Proof.
  intros par d c data lab Hp Hc Hdd Hlab. pose proof (members_lab RNum _ RNumOrd euclid c lab Hlab) as Hl.
  destruct (strategy_runs par d c data Hp Hc Hdd) as (c' & Hit).
  destruct (strategy_lloyd par d c data c' Hp Hc Hdd Hit) as [Hlen Hll].
  exists c'. split; [exact Hit|]. split; [exact Hlen|]. intros i ci ci' Hi Hi'. specialize (Hll i ci Hi).
  rewrite (members_ext lab (fun x => fst (nearest RNum euclid c x)) i data Hl). rewrite Hi' in Hll. injection Hll as ->.
  split; intros Hm.
  - rewrite Hm. reflexivity.
  - destruct (dba_nonempty euclid _ Hm) as [m Hd]. rewrite Hd.
    apply (dba_is_mean d _ _ (all_dim_members d _ i data Hdd) Hd).
Qed.

(** ** C20 *)
Section Data.
Context {E C : Type} (initializer : list E -> C) (iterate : C -> list E -> C).

Lemma push_calls_steps ps : forall b cs us b2 size all,
  brepr size all b -> calls initializer iterate b (push_calls ps ++ cs) us b2 ->
  exists b1, brepr size (all ++ while_not_alive ps) b1 /\ bpipe b1 = bpipe b ++ while_alive ps /\
    calls initializer iterate b1 cs us b2.
Proof.
  induction ps as [|[x alive] ps IH]; intros b cs us b2 size all Hb H; cbn [push_calls map app fst snd] in H.
  - exists b. unfold while_alive, while_not_alive. cbn. rewrite !app_nil_r. auto.
  - inversion H as [|? ? ? b1 ? ? ? Hp Hr| |]; subst. unfold impl_push in Hp. destruct alive; cbn in Hp.
    + destruct (slen (bpipe b) <? pipe_size)%Z; [|discriminate]. injection Hp as <-.
      destruct (IH (mkBuffer (bpipe b ++ [x]) (bdata b) (bstrategy b)) cs us b2 size all Hb Hr) as (b3 & R1 & R2 & R3). exists b3. cbn [bpipe] in R2. rewrite <- app_assoc in R2. auto.
    + destruct (store_repr size all b x Hb) as (b1' & Hst & Hb1 & Hpipe). rewrite Hst in Hp. injection Hp as ->.
      destruct (IH _ cs us b2 size _ Hb1 Hr) as (b3 & R1 & R2 & R3). exists b3. rewrite Hpipe in R2. rewrite <- app_assoc in R1. auto.
Qed.

(** The data [d] shown by the buffer for the stored elements [all]. *)
Definition shown (size : Z) (all d : list E) : Prop :=
  ((size <= 0)%Z -> d = all) /\ ((0 < size)%Z -> rotation d (last_n (Z.to_nat size) all)).

Lemma shown_repr size all b : brepr size all b -> shown size all (bdata b).
Proof. intros H. destruct (repr_data _ _ _ _ H) as [H1 H2]. split; [exact H1|]. intros Hs. apply H2. exact Hs. Qed.

Lemma rounds_used size (rounds : list (list (E * bool) * round_end C)) : forall b us b2 all,
  brepr size all b -> bpipe b = [] -> calls initializer iterate b (rounds_calls rounds) us b2 ->
  length us = length rounds /\
  (forall k r, nth_error rounds k = Some r -> exists u, nth_error us k = Some u /\
     shown size (all ++ concat (map round_data (firstn k rounds)) ++
       match snd r with EndInit => round_data r | EndIterate _ => while_not_alive (fst r) end) (used_data u) /\
     used_result u = match snd r with EndInit => initializer (used_data u) | EndIterate c => iterate c (used_data u) end) /\
  brepr size (all ++ concat (map round_data rounds)) b2 /\ bpipe b2 = [].
Proof.
  induction rounds as [|[ps e] rounds IH]; intros b us b2 all Hb Hp H.
  - inversion H; subst. split; [reflexivity|]. split; [intros [|k] r Hr; discriminate|]. cbn. rewrite app_nil_r. auto.
  - unfold rounds_calls in H. cbn [map concat fst snd] in H. rewrite <- app_assoc in H.
    destruct (push_calls_steps ps b _ us b2 size all Hb H) as (b1 & R1 & R2 & R3). rewrite Hp in R2. cbn [app] in R2, R3.
    assert (Hstep : exists b3 u us', us = u :: us' /\ buffer_apply b1 = Ok b3 /\
       calls initializer iterate b3 (rounds_calls rounds) us' b2 /\
       used_data u = match e with EndInit => bdata b3 | EndIterate _ => bdata b1 end /\
       used_result u = match e with EndInit => initializer (used_data u) | EndIterate c => iterate c (used_data u) end).
    { destruct e as [|c]; cbn [call_of] in R3; inversion R3 as [| |? b3 u ? us' ? Hi Hr|? ? b3 u ? us' ? Hi Hr]; subst.
      - unfold impl_init in Hi. destruct (buffer_apply b1) as [b3'|] eqn:Ha; [|discriminate]. cbn in Hi.
        injection Hi as -> <-. exists b3, (mkUsed (bdata b3) (initializer (bdata b3))), us'. auto.
      - unfold impl_iterate in Hi. destruct (buffer_apply b1) as [b3'|] eqn:Ha; [|discriminate]. cbn in Hi.
        injection Hi as -> <-. exists b3, (mkUsed (bdata b1) (iterate c (bdata b1))), us'. auto. }
    destruct Hstep as (b3 & u & us' & -> & Ha & Hr & Hu1 & Hu2).
    destruct (buffer_apply_repr size _ b1 R1) as (b3' & Ha' & Hb3 & Hp3). rewrite Ha in Ha'. injection Ha' as <-.
    rewrite R2 in Hb3. destruct (IH b3 us' b2 _ Hb3 Hp3 Hr) as (I1 & I2 & I3 & I4).
    split; [cbn; lia|]. split; [|split; [|exact I4]].
    + intros [|k] r Hk; cbn [nth_error] in Hk |- *.
      * injection Hk as <-. exists u. split; [reflexivity|]. cbn [snd fst]. split; [|exact Hu2].
        cbn [firstn map concat app]. rewrite Hu1. destruct e as [|c].
        -- unfold round_data. cbn [fst]. rewrite app_assoc. apply shown_repr. exact Hb3.
        -- apply shown_repr. exact R1.
      * destruct (I2 k r Hk) as (u' & K1 & K2 & K3). exists u'. split; [exact K1|]. split; [|exact K3].
        cbn [firstn map concat]. unfold round_data at 1. cbn [fst]. repeat rewrite <- app_assoc in K2. repeat rewrite <- app_assoc. exact K2.
    + cbn [map concat]. unfold round_data at 1. cbn [fst]. repeat rewrite <- app_assoc in I3. repeat rewrite <- app_assoc. exact I3.
Qed.

Lemma data_used_main : forall (initial : list E) size (rounds : list (list (E * bool) * round_end C)) b0 us b,
  new_data_buffer initial size = Ok b0 -> calls initializer iterate b0 (rounds_calls rounds) us b ->
  forall before r after, rounds = before ++ r :: after ->
  exists u, nth_error us (length before) = Some u /\
    ((size <= 0)%Z -> used_data u = expected_data initial before r) /\
    ((0 < size)%Z -> rotation (used_data u) (last_n (Z.to_nat size) (expected_data initial before r))) /\
    used_result u = match snd r with EndInit => initializer (used_data u) | EndIterate c => iterate c (used_data u) end.
Proof.
  intros initial size rounds b0 us b Hn Hc before r after ->.
  destruct (new_data_buffer_repr size initial) as (b0' & Hn' & Hb & Hp). rewrite Hn' in Hn. injection Hn as ->.
  destruct (rounds_used size _ b0 us b initial Hb Hp Hc) as (_ & H & _ & _).
  destruct (H (length before) r) as (u & H1 & [H2 H3] & H4).
  { rewrite nth_error_app2, Nat.sub_diag by lia. reflexivity. }
  exists u. rewrite firstn_app, Nat.sub_diag, firstn_all, firstn_O, app_nil_r in H2, H3. auto.
Qed.

End Data.

(** An element pushed when the algorithm is alive but between two iterations is ignored by the
    iteration that follows. *)
Lemma next_iteration_refuted : exists (b0 b : buffer Z) us u,
  new_data_buffer [1%Z] 0 = Ok b0 /\
  calls (fun d => d) (fun c d => c) b0 [CallInit; CallPush 2%Z true; CallIterate [1%Z]] us b /\
  nth_error us 1 = Some u /\ ~ In 2%Z (used_data u).
Proof.
  do 4 eexists. split; [reflexivity|]. split.
  - eapply c_init; [reflexivity|]. eapply c_push; [reflexivity|]. eapply c_iter; [reflexivity|]. apply c_nil.
  - split; [reflexivity|]. vm_compute. intuition discriminate.
Qed.
