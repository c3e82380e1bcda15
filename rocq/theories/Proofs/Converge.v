(** k-means over the reals: convergence (C82) and independence of the order of the data (C83). *)
From Coq Require Import List ZArith Lia Bool Reals Lra Psatz Permutation Classical.
From Verif Require Import Base.Go Base.Num Model.Clustering Model.Par Model.Euclid Model.Kmeans
  Spec.ClusterSpec Spec.RealSpec Spec.KmeansSpec
  Proofs.GoLemmas Proofs.NumLaws Proofs.NearestProofs Proofs.RealLemmas Proofs.ReduceMain Proofs.ParReduceProofs Proofs.EuclidProofs
  Proofs.KmeansProofs.
Import ListNotations.
Local Open Scope R_scope.
Notation euclid := (euclid_space RNum).

(** ** Strict decrease *)
Lemma sum_sq_strict {A} (f : A -> R) (l : list A) (m k : R) :
  l <> [] -> m = rsum (map f l) / INR (length l) -> m <> k ->
  rsum (map (fun x => (f x - m) * (f x - m)) l) < rsum (map (fun x => (f x - k) * (f x - k)) l).
Proof.
  intros Hne Hm Hk.
  assert (Hn : 0 < INR (length l)) by (apply lt_0_INR; destruct l; [contradiction|cbn; lia]).
  assert (Hs : rsum (map f l) = INR (length l) * m) by (rewrite Hm; field; lra).
  assert (He : rsum (map (fun x => (f x - k) * (f x - k)) l)
    = rsum (map (fun x => (f x - m) * (f x - m)) l) + INR (length l) * ((m - k) * (m - k))).
  { rewrite (rsum_ext _ (fun x => (f x - m) * (f x - m) + ((2 * (m - k)) * f x + (k * k - m * m))))
      by (intros; ring).
    rewrite rsum_plus, rsum_plus, rsum_scal, rsum_const, Hs. ring. }
  rewrite He. assert (0 < (m - k) * (m - k)) by (apply Rsqr_pos_lt; lra). nra.
Qed.

Lemma rsum_lt {A} (f g : A -> R) l a : In a l -> (forall x, In x l -> f x <= g x) -> f a < g a -> rsum (map f l) < rsum (map g l).
Proof.
  induction l as [|x l IH]; intros Hin Hle Hlt; [destruct Hin|]. cbn [map]. rewrite !rsum_cons. destruct Hin as [->|Hin].
  - assert (rsum (map f l) <= rsum (map g l)) by (apply rsum_le; intros y Hy; apply Hle; right; exact Hy). lra.
  - assert (f x <= g x) by (apply Hle; left; reflexivity).
    assert (rsum (map f l) < rsum (map g l)) by (apply IH; auto; intros y Hy; apply Hle; right; exact Hy). lra.
Qed.

Lemma mean_strict d m vs k : all_dim d vs -> vs <> [] -> is_mean d m vs -> length k = d -> m <> k ->
  rsum (map (fun x => sqdist x m) vs) < rsum (map (fun x => sqdist x k) vs).
Proof.
  intros Hdim Hne [Hl Hm] Hk Hneq. unfold all_dim in Hdim. rewrite Forall_forall in Hdim.
  assert (Hj : exists j, (j < d)%nat /\ coord j m <> coord j k).
  { apply NNPP. intros Hno. apply Hneq. apply (coord_ext d); auto. intros j Hj. apply NNPP. intros H. apply Hno. eauto. }
  destruct Hj as (j & Hj & Hjne).
  rewrite (rsum_ext _ (fun x => rsum (map (fun j => (coord j x - coord j m) * (coord j x - coord j m)) (seq 0 d))))
    by (intros x Hx; apply sqdist_coords; auto).
  rewrite (rsum_ext (fun x => sqdist x k) (fun x => rsum (map (fun j => (coord j x - coord j k) * (coord j x - coord j k)) (seq 0 d))))
    by (intros x Hx; apply sqdist_coords; auto).
  rewrite (rsum_swap (fun x j => (coord j x - coord j m) * (coord j x - coord j m))).
  rewrite (rsum_swap (fun x j => (coord j x - coord j k) * (coord j x - coord j k))).
  apply rsum_lt with (a := j).
  - apply in_seq. lia.
  - intros i Hi. apply in_seq in Hi. apply sum_sq_mean; [exact Hne|]. apply Hm. lia.
  - apply sum_sq_strict; [exact Hne|apply Hm; exact Hj|exact Hjne].
Qed.

Definition sq_pow (x y : R) : R := x * x.

Lemma lloyd_strict (pow : R -> R -> R) (Hpow : forall x, 0 <= x -> pow x 2 = x * x) d c data c' :
  c <> [] -> all_dim d c -> all_dim d data ->
  lloyd euclid (fun x => fst (nearest RNum euclid c x)) c data c' -> c' <> c ->
  exists l l', total_loss RNum euclid pow c data 2 = Ok l /\ total_loss RNum euclid pow c' data 2 = Ok l' /\ l' < l.
Proof.
  intros Hc Hdc Hdd Hll Hdiff. pose proof (lloyd_dim d _ c data c' Hdc Hdd Hll) as Hdc'. destruct Hll as [Hlen Hll].
  assert (Hc' : c' <> []) by (intros ->; destruct c; [contradiction|discriminate]).
  destruct (loss_value pow Hpow d c data Hc Hdc Hdd) as (l & near & H1 & H2 & H3 & H4).
  destruct (loss_value pow Hpow d c' data Hc' Hdc' Hdd) as (l' & near' & K1 & K2 & K3 & K4).
  exists l, l'. split; [exact H1|]. split; [exact K1|]. subst l l'.
  set (lab := fun x => fst (nearest RNum euclid c x)) in *.
  assert (Hlab : Forall (fun x => (0 <= lab x < Z.of_nat (length c))%Z) data).
  { apply Forall_forall. intros x Hx. destruct (H3 x Hx) as (i & Hi & Hn). fold (lab x) in Hi. rewrite Hi.
    assert (i < length c)%nat by (apply nth_error_Some; congruence). lia. }
  set (moved := fun x => nth (Z.to_nat (lab x)) c' []).
  (* a centroid that moved *)
  assert (Hi0 : exists i ci ci', nth_error c i = Some ci /\ nth_error c' i = Some ci' /\ ci' <> ci).
  { apply NNPP. intros Hno. apply Hdiff. apply list_ext; [exact Hlen|]. intros i Hi.
    destruct (nth_error c i) as [ci|] eqn:Hci; [|apply nth_error_None in Hci; lia].
    destruct (nth_error c' i) as [ci'|] eqn:Hci'; [|apply nth_error_None in Hci'; lia].
    f_equal. apply NNPP. intros H. apply Hno. exists i, ci, ci'. auto. }
  destruct Hi0 as (i0 & ci0 & ci0' & Hi0 & Hi0' & Hne0).
  assert (Hcluster : forall i ci, nth_error c i = Some ci -> 
     rsum (map (fun x => sqdist x (near x)) (members lab i data)) = rsum (map (fun x => sqdist x ci) (members lab i data)) /\
     forall ci', nth_error c' i = Some ci' -> rsum (map (fun x => sqdist x (moved x)) (members lab i data)) = rsum (map (fun x => sqdist x ci') (members lab i data))).
  { intros i ci Hci. split.
    - apply rsum_ext. intros x Hx. apply filter_In in Hx. destruct Hx as [Hx He]. apply Z.eqb_eq in He.
      destruct (H3 x Hx) as (k & Hk & Hn). fold (lab x) in Hk. assert (k = i) by lia. subst k. congruence.
    - intros ci' Hci'. apply rsum_ext. intros x Hx. apply filter_In in Hx. destruct Hx as [Hx He]. apply Z.eqb_eq in He.
      unfold moved. rewrite He, Nat2Z.id. rewrite (nth_error_nth c' i [] Hci'). reflexivity. }
  assert (Hdimc : forall i ci, nth_error c i = Some ci -> length ci = d).
  { intros i ci Hi. unfold all_dim in Hdc. rewrite Forall_forall in Hdc. apply Hdc. apply (nth_error_In c i Hi). }
  apply Rle_lt_trans with (rsum (map (fun x => sqdist x (moved x)) data)).
  - apply rsum_le. intros x Hx. apply K4; [exact Hx|]. unfold moved. apply nth_In.
    rewrite Forall_forall in Hlab. specialize (Hlab x Hx). lia.
  - rewrite <- (rsum_partition (fun x => sqdist x (moved x)) lab (length c) data Hlab).
    rewrite <- (rsum_partition (fun x => sqdist x (near x)) lab (length c) data Hlab).
    apply rsum_lt with (a := i0).
    + apply in_seq. assert (i0 < length c)%nat by (apply nth_error_Some; congruence). lia.
    + intros i Hi. apply in_seq in Hi. change (filter _ data) with (members lab i data).
      destruct (nth_error c i) as [ci|] eqn:Hci; [|apply nth_error_None in Hci; lia].
      pose proof (Hll i ci Hci) as Hi'. destruct (Hcluster i ci Hci) as [E1 E2]. rewrite E1, (E2 _ Hi').
      destruct (members lab i data) as [|x0 xs] eqn:Hm; [cbn; lra|]. rewrite <- Hm.
      destruct (dba_nonempty euclid (members lab i data)) as [m Hd]; [rewrite Hm; discriminate|]. rewrite Hd.
      apply (mean_minimises d).
      * apply all_dim_members. exact Hdd.
      * rewrite Hm. discriminate.
      * apply dba_is_mean; [apply all_dim_members; exact Hdd|exact Hd].
      * apply (Hdimc i ci Hci).
    + change (filter _ data) with (members lab i0 data). destruct (Hcluster i0 ci0 Hi0) as [E1 E2]. rewrite E1, (E2 _ Hi0').
      pose proof (Hll i0 ci0 Hi0) as Hi'. rewrite Hi0' in Hi'. injection Hi' as Hi'.
      destruct (dba euclid (members lab i0 data)) as [m|] eqn:Hd; [|congruence]. subst ci0'.
      apply (mean_strict d).
      * apply all_dim_members. exact Hdd.
      * intros Hnil. rewrite Hnil in Hd. discriminate.
      * apply dba_is_mean; [apply all_dim_members; exact Hdd|exact Hd].
      * apply (Hdimc i0 ci0 Hi0).
      * exact Hne0.
Qed.

Lemma strict_main : forall (pow : R -> R -> R), (forall x, 0 <= x -> pow x 2 = x * x) ->
  forall par d (c data c' : list (list R)), valid_par par -> c <> [] -> all_dim d c -> all_dim d data ->
  strategy_iterate RNum euclid par c data = Ok (map Some c') -> c' <> c ->
  exists l l', total_loss RNum euclid pow c data 2 = Ok l /\ total_loss RNum euclid pow c' data 2 = Ok l' /\ l' < l.
Proof.
  intros pow Hpow par d c data c' Hp Hc Hdc Hdd Hit Hne. apply (lloyd_strict pow Hpow d); auto.
  apply (strategy_lloyd par d c data c' Hp Hc Hdd Hit).
Qed.

(** ** Finitely many centroids *)
Fixpoint subs {A} (l : list A) : list (list A) :=
  match l with [] => [[]] | x :: l' => map (cons x) (subs l') ++ subs l' end.

Lemma filter_subs {A} (f : A -> bool) l : In (filter f l) (subs l).
Proof.
  induction l as [|x l IH]; [left; reflexivity|]. cbn. apply in_or_app. destruct (f x); [left; apply in_map; exact IH|right; exact IH].
Qed.

Lemma subs_length {A} (l : list A) : length (subs l) = (2 ^ length l)%nat.
Proof. induction l as [|x l IH]; [reflexivity|]. cbn [subs length Nat.pow]. rewrite app_length, map_length, IH. lia. Qed.

Fixpoint tuples {A} (k : nat) (S : list A) : list (list A) :=
  match k with O => [[]] | Datatypes.S k' => flat_map (fun x => map (cons x) (tuples k' S)) S end.

Lemma tuples_in {A} (S : list A) : forall l, Forall (fun x => In x S) l -> In l (tuples (length l) S).
Proof.
  induction 1 as [|x l Hx HF IH]; [left; reflexivity|]. cbn. apply in_flat_map. exists x. split; [exact Hx|]. apply in_map. exact IH.
Qed.

Lemma tuples_length {A} (S : list A) k : length (tuples k S) = (length S ^ k)%nat.
Proof.
  induction k as [|k IH]; [reflexivity|]. cbn [tuples Nat.pow].
  assert (H : forall l : list A, length (flat_map (fun x => map (cons x) (tuples k S)) l) = (length l * length S ^ k)%nat).
  { induction l as [|y l IHl]; [reflexivity|]. cbn [flat_map length Nat.mul]. rewrite app_length, map_length, IH, IHl. reflexivity. }
  apply H.
Qed.

Section Converge.
Context (par : option Z) (Hpar : valid_par par) (d : nat) (data : list (list R)) (Hdata : all_dim d data).

Definition stepf (c : list (list R)) : list (list R) :=
  match strategy_iterate RNum euclid par c data with
  | Ok l => map (fun o => match o with Some x => x | None => [] end) l
  | Panic => c
  end.

Lemma stepf_iterate c : c <> [] -> strategy_iterate RNum euclid par c data = Ok (map Some (stepf c)).
Proof.
  intros Hc. unfold stepf. destruct (strategy_runs par d c data Hpar Hc Hdata) as (c' & ->).
  do 2 f_equal. rewrite map_map. symmetry. apply map_id.
Qed.

Lemma stepf_lloyd c : c <> [] -> lloyd euclid (fun x => fst (nearest RNum euclid c x)) c data (stepf c).
Proof. intros Hc. apply (strategy_lloyd par d c data _ Hpar Hc Hdata). apply stepf_iterate. exact Hc. Qed.

Fixpoint itf (n : nat) (c : list (list R)) : list (list R) :=
  match n with O => c | S n' => itf n' (stepf c) end.

Lemma itf_S n c : itf (S n) c = stepf (itf n c).
Proof. revert c. induction n as [|n IH]; intros c; [reflexivity|]. cbn [itf] in *. apply IH. Qed.

Lemma itf_ok n c : c <> [] -> all_dim d c -> itf n c <> [] /\ all_dim d (itf n c) /\ length (itf n c) = length c.
Proof.
  intros Hc Hd. induction n as [|n (H1 & H2 & H3)]; [auto|]. rewrite itf_S. pose proof (stepf_lloyd _ H1) as Hll. split; [|split].
  - destruct Hll as [Hlen _]. intros Hnil. rewrite Hnil in Hlen. destruct (itf n c); [contradiction|discriminate].
  - apply (lloyd_dim d _ _ _ _ H2 Hdata Hll).
  - destruct Hll as [Hlen _]. congruence.
Qed.

Lemma itf_iterations n : forall c, c <> [] -> all_dim d c -> iterations RNum euclid par data n c (itf n c).
Proof.
  induction n as [|n IH]; intros c Hc Hd; [constructor|]. econstructor; [apply stepf_iterate; exact Hc|].
  destruct (itf_ok 1 c Hc Hd) as (H1 & H2 & _). cbn [itf] in *. apply IH; assumption.
Qed.

Lemma iterations_itf n : forall c cn, c <> [] -> all_dim d c -> iterations RNum euclid par data n c cn -> cn = itf n c.
Proof.
  induction n as [|n IH]; intros c cn Hc Hd H; inversion H as [|? ? c1 ? Hit Hrest]; subst; [reflexivity|].
  rewrite (stepf_iterate c Hc) in Hit. injection Hit as Hit.
  assert (Hinj : forall (l1 l2 : list (list R)), map Some l1 = map Some l2 -> l1 = l2).
  { induction l1 as [|a l1 IH1]; intros [|b l2] H0; try discriminate; [reflexivity|]. cbn in H0. injection H0 as -> H0. f_equal. auto. }
  apply Hinj in Hit. subst c1. destruct (itf_ok 1 c Hc Hd) as (H1 & H2 & _). cbn [itf] in *. apply IH; assumption.
Qed.

Definition candidates (c : list (list R)) : list (list R) :=
  c ++ map (fun vs => match dba euclid vs with Some m => m | None => [] end) (subs data).

Lemma itf_candidates n c : c <> [] -> all_dim d c -> Forall (fun x => In x (candidates c)) (itf n c).
Proof.
  intros Hc Hd. induction n as [|n IH].
  - apply Forall_forall. intros x Hx. apply in_or_app. left. exact Hx.
  - rewrite itf_S. destruct (itf_ok n c Hc Hd) as (H1 & H2 & H3). destruct (stepf_lloyd _ H1) as [Hlen Hll].
    apply Forall_forall. intros x Hx. apply In_nth_error in Hx. destruct Hx as [i Hi].
    assert (Hlt : (i < length (itf n c))%nat) by (rewrite <- Hlen; apply nth_error_Some; congruence).
    destruct (nth_error (itf n c) i) as [ci|] eqn:Hci; [|apply nth_error_None in Hci; lia].
    rewrite (Hll i ci Hci) in Hi. injection Hi as <-.
    set (ms := members (fun x => fst (nearest RNum euclid (itf n c) x)) i data) in *.
    destruct (dba euclid ms) as [m|] eqn:Hm.
    + apply in_or_app. right. apply in_map_iff. exists ms. rewrite Hm. split; [reflexivity|]. apply filter_subs.
    + rewrite Forall_forall in IH. apply IH. apply (nth_error_In _ i Hci).
Qed.

Definition loss_of_c (c : list (list R)) : R := match total_loss RNum euclid sq_pow c data 2 with Ok l => l | Panic => 0 end.

Lemma step_loss c : c <> [] -> all_dim d c -> stepf c <> c -> loss_of_c (stepf c) < loss_of_c c.
Proof.
  intros Hc Hd Hne. destruct (lloyd_strict sq_pow (fun _ _ => eq_refl) d c data (stepf c) Hc Hd Hdata (stepf_lloyd c Hc) Hne) as (l & l' & H1 & H2 & H3).
  unfold loss_of_c. rewrite H1, H2. exact H3.
Qed.

Lemma fix_bound c : c <> [] -> all_dim d c ->
  exists n, (n <= (length c + 2 ^ length data) ^ length c)%nat /\ stepf (itf n c) = itf n c.
Proof.
  intros Hc Hd. set (B := ((length c + 2 ^ length data) ^ length c)%nat).
  apply NNPP. intros Hno.
  assert (Hstep : forall n, (n <= B)%nat -> loss_of_c (itf (S n) c) < loss_of_c (itf n c)).
  { intros n Hn. rewrite itf_S. destruct (itf_ok n c Hc Hd) as (H1 & H2 & _). apply step_loss; auto.
    intros Heq. apply Hno. exists n. auto. }
  assert (Hdec : forall i k, (i + S k <= S B)%nat -> loss_of_c (itf (i + S k) c) < loss_of_c (itf i c)).
  { intros i k. induction k as [|k IH]; intros Hk.
    - rewrite Nat.add_1_r. apply Hstep. lia.
    - rewrite Nat.add_succ_r. apply Rlt_trans with (loss_of_c (itf (i + S k) c)); [apply Hstep; lia|apply IH; lia]. }
  set (L := map (fun n => itf n c) (seq 0 (S B))).
  assert (Hnd : NoDup L).
  { unfold L. apply NoDup_nth_error. intros i j Hi Heq. rewrite map_length, seq_length in Hi.
    assert (Hj : (j < S B)%nat).
    { destruct (Nat.lt_ge_cases j (S B)) as [H|H]; [exact H|].
      assert (Hn : nth_error (map (fun n => itf n c) (seq 0 (S B))) j = None) by (apply nth_error_None; rewrite map_length, seq_length; exact H).
      rewrite Hn in Heq. apply nth_error_None in Heq. rewrite map_length, seq_length in Heq. lia. }
    assert (Hget : forall x, (x < S B)%nat -> nth_error (map (fun n => itf n c) (seq 0 (S B))) x = Some (itf x c)).
    { intros x Hx. rewrite nth_error_map. rewrite (nth_error_nth' _ 0%nat) by (rewrite seq_length; exact Hx).
      rewrite seq_nth by exact Hx. reflexivity. }
    rewrite !Hget in Heq by assumption. injection Heq as Heq.
    destruct (Nat.lt_trichotomy i j) as [H|[H|H]]; [|exact H|]; exfalso.
    - pose proof (Hdec i (j - i - 1)%nat ltac:(lia)) as Hl. replace (i + S (j - i - 1))%nat with j in Hl by lia. rewrite Heq in Hl. lra.
    - pose proof (Hdec j (i - j - 1)%nat ltac:(lia)) as Hl. replace (j + S (i - j - 1))%nat with i in Hl by lia. rewrite Heq in Hl. lra. }
  assert (Hincl : incl L (tuples (length c) (candidates c))).
  { intros x Hx. apply in_map_iff in Hx. destruct Hx as (n & <- & _). destruct (itf_ok n c Hc Hd) as (_ & _ & Hlen).
    rewrite <- Hlen. apply tuples_in. apply itf_candidates; assumption. }
  pose proof (NoDup_incl_length Hnd Hincl) as Hle. unfold L in Hle. rewrite map_length, seq_length, tuples_length in Hle.
  unfold candidates in Hle. rewrite app_length, map_length, subs_length in Hle. unfold B in Hle. lia.
Qed.
End Converge.

Lemma itf_fix par data c k n : stepf par data (itf par data n c) = itf par data n c -> itf par data (n + k) c = itf par data n c.
Proof. intros H. induction k as [|k IH]; [rewrite Nat.add_0_r; reflexivity|]. rewrite Nat.add_succ_r, itf_S, IH. exact H. Qed.

Lemma converge_main : forall par d (c data : list (list R)), valid_par par -> c <> [] -> all_dim d c -> all_dim d data ->
  exists n0 cs, (n0 <= (length c + 2 ^ length data) ^ length c)%nat /\ length cs = length c /\
    (forall n, (n0 <= n)%nat -> iterations RNum euclid par data n c cs /\
       forall cn, iterations RNum euclid par data n c cn -> cn = cs) /\
    forall (lab : list R -> Z), (forall x, exists cl di, assign RNum euclid cs x = Ok (cl, lab x, di)) ->
      forall i ci, nth_error cs i = Some ci -> members lab i data <> [] -> is_mean d ci (members lab i data).
Proof.
  intros par d c data Hp Hc Hdc Hdd. destruct (fix_bound par Hp d data Hdd c Hc Hdc) as (n0 & Hle & Hfix).
  exists n0, (itf par data n0 c). destruct (itf_ok par Hp d data Hdd n0 c Hc Hdc) as (H1 & H2 & H3).
  split; [exact Hle|]. split; [exact H3|]. split.
  - intros n Hn. replace n with (n0 + (n - n0))%nat by lia. set (k := (n - n0)%nat).
    rewrite <- (itf_fix par data c k n0 Hfix). split.
    + apply (itf_iterations par Hp d data Hdd); assumption.
    + intros cn H. apply (iterations_itf par Hp d data Hdd); assumption.
  - intros lab Hlab i ci Hi Hm.
    destruct (lloyd_mean_main par d _ data lab Hp H1 Hdd Hlab) as (c' & Hit & _ & Hmean).
    rewrite (stepf_iterate par Hp d data Hdd _ H1), Hfix in Hit. injection Hit as Hit.
    assert (Hinj : forall (l1 l2 : list (list R)), map Some l1 = map Some l2 -> l1 = l2).
    { induction l1 as [|a l1 IH1]; intros [|b l2] H0; try discriminate; [reflexivity|]. cbn in H0. injection H0 as -> H0. f_equal. auto. }
    apply Hinj in Hit. subst c'. apply (Hmean i ci ci Hi Hi). exact Hm.
Qed.

(** ** Order of the data *)
Lemma members_perm {A} (lab : A -> Z) i xs ys : Permutation xs ys -> Permutation (members lab i xs) (members lab i ys).
Proof.
  unfold members. induction 1 as [|x xs ys H IH|x y xs|xs ys zs H1 IH1 H2 IH2]; cbn [filter].
  - constructor.
  - destruct (lab x =? Z.of_nat i)%Z; [constructor|]; exact IH.
  - destruct (lab x =? Z.of_nat i)%Z, (lab y =? Z.of_nat i)%Z; try apply Permutation_refl. constructor.
  - eapply Permutation_trans; eassumption.
Qed.

Lemma order_main : forall par par' d (c data data' : list (list R)), valid_par par -> valid_par par' -> c <> [] ->
  all_dim d data -> Permutation data data' ->
  strategy_iterate RNum euclid par c data = strategy_iterate RNum euclid par' c data' /\
  forall n cn, all_dim d c -> iterations RNum euclid par data n c cn -> iterations RNum euclid par' data' n c cn.
Proof.
  intros par par' d c data data' Hp Hp' Hc Hd HP.
  assert (Hd' : all_dim d data').
  { unfold all_dim in *. rewrite Forall_forall in *. intros v Hv. apply Hd. apply (Permutation_in v (Permutation_sym HP)). exact Hv. }
  assert (Hone : forall c, c <> [] -> strategy_iterate RNum euclid par c data = strategy_iterate RNum euclid par' c data').
  { intros c0 Hc0. destruct (strategy_runs par d c0 data Hp Hc0 Hd) as (c1 & E1), (strategy_runs par' d c0 data' Hp' Hc0 Hd') as (c2 & E2).
    rewrite E1, E2. do 2 f_equal. apply (lloyd_unique euclid (fun x => fst (nearest RNum euclid c0 x)) c0 data).
    - apply (strategy_lloyd par d c0 data c1 Hp Hc0 Hd E1).
    - destruct (strategy_lloyd par' d c0 data' c2 Hp' Hc0 Hd' E2) as [L2 H2]. split; [exact L2|]. intros i ci Hi. rewrite (H2 i ci Hi).
      rewrite (dba_order d _ _ (members_perm _ i data data' HP)); [reflexivity|]. apply all_dim_members. exact Hd. }
  split; [apply Hone; exact Hc|]. intros n cn Hdc Hit. revert Hc. induction Hit as [c|n c c1 c2 Hit H IH]; intros Hc; [constructor|].
  pose proof (strategy_lloyd par d c data c1 Hp Hc Hd Hit) as Hll.
  econstructor; [rewrite <- (Hone c Hc); exact Hit|]. apply IH.
  - apply (lloyd_dim d _ c data c1 Hdc Hd Hll).
  - destruct Hll as [Hlen _]. intros ->. destruct c; [contradiction|discriminate].
Qed.

(** An iteration that moves the centroids: a fixed point would give every cluster its mean. *)
Lemma moved_ex : exists c', strategy_iterate RNum euclid None [[0]; [10]] [[1]; [9]; [3]] = Ok (map Some c') /\ c' <> [[0]; [10]].
Proof.
  destruct (strategy_runs None 1 [[0]; [10]] [[1]; [9]; [3]] I ltac:(discriminate) ltac:(repeat constructor)) as (c' & Hit).
  exists c'. split; [exact Hit|]. intros ->.
  destruct (strategy_lloyd None 1 [[0]; [10]] [[1]; [9]; [3]] _ I ltac:(discriminate) ltac:(repeat constructor) Hit) as [_ H].
  set (lab := fun x => fst (nearest RNum euclid [[0]; [10]] x)) in H.
  assert (Hd : all_dim 1 [[1]; [9]; [3]]) by repeat constructor.
  assert (Hin : forall i ci, nth_error [[0]; [10]] i = Some ci -> members lab i [[1]; [9]; [3]] <> [] -> 0 < coord 0 ci < 10).
  { intros i ci Hi Hm. specialize (H i ci Hi). destruct (dba_nonempty euclid _ Hm) as [m Hdba]. rewrite Hdba, Hi in H. injection H as ->.
    pose proof (dba_is_mean 1 _ m (all_dim_members 1 lab i _ Hd) Hdba) as [_ Hmean]. rewrite (Hmean 0%nat ltac:(lia)).
    assert (Hall : forall x, In x (members lab i [[1]; [9]; [3]]) -> 1 <= coord 0 x <= 9).
    { intros x Hx. apply filter_In in Hx. destruct Hx as [[<-|[<-|[<-|[]]]] _]; cbn; lra. }
    assert (Hn : 0 < INR (length (members lab i [[1]; [9]; [3]]))) by (apply lt_0_INR; destruct (members lab i [[1]; [9]; [3]]); [contradiction|cbn; lia]).
    set (ms := members lab i [[1]; [9]; [3]]) in *.
    assert (Hs : INR (length ms) * 1 <= rsum (map (coord 0) ms) <= INR (length ms) * 9).
    { rewrite <- !rsum_const with (l := ms). split; apply rsum_le; intros x Hx; apply Hall; exact Hx. }
    split; [apply Rdiv_lt_0_compat; lra|]. apply Rmult_lt_reg_r with (INR (length ms)); [exact Hn|]. field_simplify; lra. }
  assert (Hempty : forall i ci, nth_error [[0]; [10]] i = Some ci -> members lab i [[1]; [9]; [3]] = []).
  { intros i ci Hi. destruct (members lab i [[1]; [9]; [3]]) eqn:Hm; [reflexivity|exfalso].
    assert (Hne : members lab i [[1]; [9]; [3]] <> []) by (rewrite Hm; discriminate). pose proof (Hin i ci Hi Hne).
    destruct i as [|[|i]]; cbn in Hi; [injection Hi as <-|injection Hi as <-|destruct i; discriminate]; cbn in H0; lra. }
  assert (Hm1 : nltb RNum (nof RNum (-1)) (nof RNum 0) = true) by (apply Rltb_true; cbn; lra).
  destruct (nearest_valid RNum euclid [[0]; [10]] [1] Hm1 ltac:(discriminate)) as (i & ci & Hn & Hi).
  assert (Hl : lab [1] = Z.of_nat i) by (unfold lab; rewrite Hn; reflexivity).
  assert (Hmem : In [1] (members lab i [[1]; [9]; [3]])) by (apply filter_In; split; [left; reflexivity|]; apply Z.eqb_eq; exact Hl).
  rewrite (Hempty i ci Hi) in Hmem. destruct Hmem.
Qed.
