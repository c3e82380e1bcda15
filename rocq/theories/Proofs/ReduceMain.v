(** Statements of C05-C09 in the form used by Props. *)
From Coq Require Import List ZArith Lia Bool Reals Lra.
From Verif Require Import Base.Go Base.Num Model.Clustering Model.Par Spec.ClusterSpec Spec.RealSpec Spec.SpaceSpec
  Proofs.GoLemmas Proofs.NumLaws Proofs.NearestProofs Proofs.ReduceProofs Proofs.ParProofs
  Proofs.ParReduceProofs Proofs.RealLemmas Proofs.AssignMain.
Import ListNotations.

(** Label and distance as returned by Assign. *)
Lemma assign_label_nearest {E F} (N : Num F) good (HN : NumOrd N good) (Sp : Space E F) c (lab : E -> Z) (dis : E -> F) :
  (forall x, exists cl, assign N Sp c x = Ok (cl, lab x, dis x)) ->
  forall x, lab x = fst (nearest N Sp c x) /\ dis x = snd (nearest N Sp c x).
Proof.
  intros H x. destruct (H x) as [cl Hx]. destruct (nearest_assign N Sp good HN c x) as [cl' Hx'].
  rewrite Hx in Hx'. injection Hx' as _ -> ->. auto.
Qed.

Lemma members_ext {X} (f g : X -> Z) i xs : (forall x, f x = g x) -> members f i xs = members g i xs.
Proof. intros H. unfold members. apply filter_ext. intros x. rewrite H. reflexivity. Qed.

Lemma reduce_dba_main : forall E F (N : Num F) good, NumOrd N good ->
  forall (Sp : Space E F) (c xs : list E) (lab : E -> Z),
  (forall x, exists cl d, assign N Sp c x = Ok (cl, lab x, d)) ->
  (c <> [] -> exists means cards,
    reduce_dba N Sp c xs = Ok (means, cards) /\
    length means = length c /\ length cards = length c /\
    (forall i, i < length c ->
      nth_error means i = Some (dba Sp (members lab i xs)) /\
      nth_error cards i = Some (Z.of_nat (length (members lab i xs))) /\
      (members lab i xs = [] <-> nth_error means i = Some None)) /\
    zsum cards = Z.of_nat (length xs)) /\
  (c = [] -> reduce_dba N Sp c xs = match xs with [] => Ok ([], []) | _ => Panic end).
Proof.
  intros E F N good HN Sp c xs lab Hlab.
  assert (Hl : forall x, lab x = fst (nearest N Sp c x)).
  { intros x. destruct (Hlab x) as (cl & d & Hx). destruct (nearest_assign N Sp good HN c x) as [cl' Hx'].
    rewrite Hx in Hx'. injection Hx' as _ -> _. reflexivity. }
  pose proof (leb_m1_0 N good HN) as Hm. split.
  - intros Hc. destruct (reduce_dba_result N Sp c xs Hc Hm) as (means & cards & H & H1 & H2 & H3).
    exists means, cards. split; [exact H|]. split; [exact H1|]. split; [exact H2|]. split.
    + intros i Hi. rewrite (members_ext lab (fun x => fst (nearest N Sp c x)) i xs Hl).
      destruct (H3 i Hi) as [Hme Hca].
      rewrite (nth_error_nth' means None), (nth_error_nth' cards 0%Z), Hme, Hca by lia.
      split; [reflexivity|]. split; [reflexivity|].
      destruct (members (fun x => fst (nearest N Sp c x)) i xs); split; intros; try reflexivity; discriminate.
    + apply (reduce_dba_total N Sp c xs means cards Hc Hm H).
  - intros ->. apply reduce_dba_no_centroid. exact Hm.
Qed.

Lemma for_labels_main : forall E F (N : Num F) good, NumOrd N good ->
  forall (Sp : Space E F) pow (c xs : list E) norm,
  reduce_dba_for_labels Sp c xs (fst (map_label N Sp c xs)) = reduce_dba N Sp c xs /\
  reduce_loss_for_labels N Sp pow c xs (fst (map_label N Sp c xs)) norm = reduce_loss N Sp pow c xs norm.
Proof.
  intros E F N good HN Sp pow c xs norm. split.
  - apply reduce_dba_for_map_labels. apply (leb_m1_0 N good HN).
  - apply reduce_loss_for_map_labels. apply (leb_m1_0 N good HN).
Qed.

Lemma for_any_labels_main : forall E F (N : Num F) (Sp : Space E F) pow (c xs : list E) labels norm,
  length xs <= length labels ->
  (forall i l, nth_error labels i = Some l -> i < length xs -> (0 <= l < Z.of_nat (length c))%Z) ->
  (exists means cards,
    reduce_dba_for_labels Sp c xs labels = Ok (means, cards) /\
    length means = length c /\ length cards = length c /\
    forall i, i < length c ->
      nth_error means i = Some (dba Sp (labelled i labels xs)) /\
      nth_error cards i = Some (Z.of_nat (length (labelled i labels xs)))) /\
  (exists losses cards,
    reduce_loss_for_labels N Sp pow c xs labels norm = Ok (losses, cards) /\
    length losses = length c /\ length cards = length c /\
    forall i ci, nth_error c i = Some ci ->
      nth_error losses i = Some (fold_left (fun acc x => nadd N acc (pow (sdist Sp x ci) norm))
                                   (labelled i labels xs) (nof N 0)) /\
      nth_error cards i = Some (Z.of_nat (length (labelled i labels xs)))).
Proof.
  intros E F N Sp pow c xs labels norm Hl Hr. split.
  - destruct (reduce_dba_for_labels_result Sp c xs labels Hl Hr) as (means & cards & H & H1 & H2 & H3).
    exists means, cards. split; [exact H|]. split; [exact H1|]. split; [exact H2|]. intros i Hi.
    destruct (H3 i Hi) as [Hme Hca].
    rewrite (nth_error_nth' means None), (nth_error_nth' cards 0%Z), Hme, Hca by lia. auto.
  - destruct (reduce_loss_for_labels_result N Sp pow c xs labels norm Hl Hr) as (losses & cards & H & H1 & H2 & H3).
    exists losses, cards. split; [exact H|]. split; [exact H1|]. split; [exact H2|]. intros i ci Hi.
    assert (Hlt : i < length c) by (apply nth_error_Some; congruence).
    destruct (H3 i ci Hi) as [Hme Hca].
    rewrite (nth_error_nth' losses (nof N 0)), (nth_error_nth' cards 0%Z), Hme, Hca by lia.
    split; [|reflexivity]. f_equal. unfold loss_of. generalize (labelled i labels xs) (nof N 0).
    induction l as [|x l IH]; intros a; cbn [map fold_left]; auto.
Qed.

Lemma fold_left_map {A B C} (f : A -> C -> A) (g : B -> C) l : forall a,
  fold_left f (map g l) a = fold_left (fun a x => f a (g x)) l a.
Proof. induction l as [|x l IH]; intros a; cbn [map fold_left]; auto. Qed.

Lemma reduce_loss_main : forall E F (N : Num F) good, NumOrd N good ->
  forall (Sp : Space E F) pow (c xs : list E) norm (lab : E -> Z) (dis : E -> F),
  (forall x, exists cl, assign N Sp c x = Ok (cl, lab x, dis x)) -> c <> [] ->
  exists losses cards,
    reduce_loss N Sp pow c xs norm = Ok (losses, cards) /\
    length losses = length c /\ length cards = length c /\
    forall i, i < length c ->
      nth_error losses i = Some (fold_left (fun acc x => nadd N acc (pow (dis x) norm)) (members lab i xs) (nof N 0)) /\
      nth_error cards i = Some (Z.of_nat (length (members lab i xs))).
Proof.
  intros E F N good HN Sp pow c xs norm lab dis Hlab Hc.
  pose proof (assign_label_nearest N good HN Sp c lab dis Hlab) as Hn.
  destruct (reduce_loss_result N Sp pow c xs norm Hc (leb_m1_0 N good HN)) as (losses & cards & H & H1 & H2 & H3).
  exists losses, cards. split; [exact H|]. split; [exact H1|]. split; [exact H2|]. intros i Hi.
  rewrite (members_ext lab (fun x => fst (nearest N Sp c x)) i xs) by (intros x; apply Hn).
  destruct (H3 i Hi) as [Hme Hca].
  rewrite (nth_error_nth' losses (nof N 0)), (nth_error_nth' cards 0%Z), Hme, Hca by lia.
  split; [|reflexivity]. f_equal. unfold loss_of. rewrite fold_left_map.
  generalize (members (fun x => fst (nearest N Sp c x)) i xs) (nof N 0).
  induction l as [|x l IH]; intros a; cbn [fold_left]; [reflexivity|]. rewrite IH.
  destruct (Hn x) as [_ ->]. reflexivity.
Qed.

Lemma loss_of_rsum pow norm ds : loss_of RNum pow norm ds = rsum (map (fun d => pow d norm) ds).
Proof.
  unfold loss_of. cbn [nof RNum nadd].
  assert (H : forall l a, fold_left (fun acc d => (acc + pow d norm)%R) l a = (a + rsum (map (fun d => pow d norm) l))%R).
  { induction l as [|x l IH]; intros a; cbn [fold_left map]; [cbn; lra|]. rewrite IH, rsum_cons. lra. }
  rewrite H. lra.
Qed.

Lemma total_loss_main : forall E (Sp : Space E R) (pow : R -> R -> R) (c xs : list E) (norm : R) (lab : E -> Z) (dis : E -> R),
  (forall x, exists cl, assign RNum Sp c x = Ok (cl, lab x, dis x)) -> c <> [] ->
  total_loss RNum Sp pow c xs norm = Ok (rsum (map (fun x => pow (dis x) norm) xs)).
Proof.
  intros E Sp pow c xs norm lab dis Hlab Hc.
  pose proof (assign_label_nearest RNum _ RNumOrd Sp c lab dis Hlab) as Hn.
  pose proof (leb_m1_0 RNum _ RNumOrd) as Hm.
  destruct (reduce_loss_result RNum Sp pow c xs norm Hc Hm) as (losses & cards & H & H1 & H2 & H3).
  unfold total_loss. rewrite H. cbn [obind fst]. f_equal.
  unfold fsum. cbn [nadd RNum nof]. rewrite fold_left_rplus.
  rewrite (list_as_map_nth losses (IZR 0)), H1.
  rewrite (map_seq_ext _ (fun i => rsum (map (fun x => pow (snd (nearest RNum Sp c x)) norm)
      (filter (fun x => Z.eqb (fst (nearest RNum Sp c x)) (Z.of_nat i)) xs)))).
  - rewrite (rsum_partition (fun x => pow (snd (nearest RNum Sp c x)) norm) (fun x => fst (nearest RNum Sp c x))).
    + rewrite Rplus_0_l. apply rsum_ext. intros x _. destruct (Hn x) as [_ ->]. reflexivity.
    + apply Forall_forall. intros x _. apply nearest_in_range; assumption.
  - intros i Hi. destruct (H3 i ltac:(lia)) as [Hme _]. cbn [nof RNum] in Hme. rewrite Hme, loss_of_rsum, map_map. reflexivity.
Qed.

(** C08 *)
Lemma par_loss_cards_main : forall E F (N : Num F) good, NumOrd N good ->
  forall (Sp : Space E F) pow (c data : list E) norm degree,
  c <> [] -> (0 < degree)%Z ->
  exists chunks seq_losses losses cards,
    concat chunks = data /\ Z.of_nat (length chunks) = degree /\
    reduce_loss N Sp pow c data norm = Ok (seq_losses, cards) /\
    par_reduce_loss N Sp pow c data norm degree = Ok (losses, cards) /\
    length losses = length c /\
    exists parts, omap (fun chunk => reduce_loss N Sp pow c chunk norm) chunks = Ok parts /\
      forall i, i < length c ->
        exists first rest,
          map (fun p => nth_error (fst p) i) parts = map Some (first :: rest) /\
          nth_error losses i = Some (fold_left (nadd N) rest first).
Proof.
  intros E F N good HN Sp pow c data norm degree Hc Hd.
  pose proof (leb_m1_0 N good HN) as Hm.
  destruct (par_reduce_loss_result N Sp pow Hm c data norm degree Hc Hd)
    as (chunks & losses & cards & Hcat & Hlen & H & L1 & L2 & L3).
  destruct (reduce_loss_result N Sp pow c data norm Hc Hm) as (sl & scards & Hs & M1 & M2 & M3).
  assert (scards = cards).
  { apply (nth_ext _ _ 0%Z 0%Z); [congruence|]. intros i Hi. rewrite M2 in Hi.
    destruct (L3 i Hi) as [_ ->], (M3 i Hi) as [_ ->]. reflexivity. }
  subst scards. exists chunks, sl, losses, cards.
  split; [exact Hcat|]. split; [exact Hlen|]. split; [exact Hs|]. split; [exact H|]. split; [exact L1|].
  destruct (omap_total (fun part => reduce_loss N Sp pow c part norm) chunks) as [parts Hparts].
  { intros part _. destruct (reduce_loss_result N Sp pow c part norm Hc Hm) as (l & k & H' & _). eauto. }
  exists parts. split; [exact Hparts|]. apply omap_ok_inv in Hparts. intros i Hi.
  destruct (L3 i Hi) as [Hli _].
  destruct chunks as [|ch chs]; [cbn in Hlen; lia|].
  cbn [map sum_parts] in Hli. eexists _, _. split; [|rewrite (nth_error_nth' losses (nof N 0)) by lia; rewrite Hli; reflexivity].
  change (map Some (?a :: ?b)) with (Some a :: map Some b).
  assert (Hgen : forall chs ps, Forall2 (fun x y => reduce_loss N Sp pow c x norm = Ok y) chs ps ->
    map (fun p => nth_error (fst p) i) ps =
    map Some (map (fun chunk => loss_of N pow norm (map (fun x => snd (nearest N Sp c x))
                          (members (fun x => fst (nearest N Sp c x)) i chunk))) chs)).
  { induction 1 as [|ch' p chs' ps Hp _ IH]; cbn [map]; [reflexivity|]. rewrite IH. f_equal.
    destruct (reduce_loss_result N Sp pow c ch' norm Hc Hm) as (l & k & H' & Q1 & Q2 & Q3).
    rewrite Hp in H'. injection H' as ->. cbn [fst].
    rewrite (nth_error_nth' l (nof N 0)) by lia. destruct (Q3 i Hi) as [-> _]. reflexivity. }
  rewrite (Hgen _ _ Hparts). reflexivity.
Qed.

Lemma par_loss_exact_main : forall E (Sp : Space E R) pow (c data : list E) norm degree,
  c <> [] -> (0 < degree)%Z ->
  par_reduce_loss RNum Sp pow c data norm degree = reduce_loss RNum Sp pow c data norm /\
  par_total_loss RNum Sp pow c data norm degree = total_loss RNum Sp pow c data norm /\
  (forall labels, length labels = length data ->
     (forall l, In l labels -> (0 <= l < Z.of_nat (length c))%Z) ->
     par_reduce_loss_for_labels RNum Sp pow c data labels norm degree
     = reduce_loss_for_labels RNum Sp pow c data labels norm).
Proof.
  intros E Sp pow c data norm degree Hc Hd.
  pose proof (leb_m1_0 RNum _ RNumOrd) as Hm.
  assert (Ha : forall x y z, nadd RNum x (nadd RNum y z) = nadd RNum (nadd RNum x y) z) by (intros; cbn; lra).
  assert (H0l : forall x, nadd RNum (nof RNum 0) x = x) by (intros; cbn; lra).
  assert (H0r : forall x, nadd RNum x (nof RNum 0) = x) by (intros; cbn; lra).
  split; [apply par_reduce_loss_eq; assumption|]. split.
  - unfold par_total_loss, total_loss. rewrite par_reduce_loss_eq by assumption. reflexivity.
  - intros labels Hl Hr. apply par_reduce_loss_for_labels_eq; assumption.
Qed.

(** C09 *)
Lemma par_dba_main : forall E F (N : Num F) good, NumOrd N good ->
  forall (Sp : Space E F) (P : E -> Prop), mean_space Sp P ->
  forall (c data : list E) degree, (0 < degree)%Z -> Forall P data ->
  (c <> [] -> exists means cards res,
     reduce_dba N Sp c data = Ok (means, cards) /\
     par_reduce_dba N Sp c data degree = Ok (res, cards) /\
     length res = length c /\
     forall i ci n, nth_error c i = Some ci -> nth_error cards i = Some n ->
       nth_error res i = if (0 <? n)%Z then nth_error means i else Some (Some ci)) /\
  (forall labels, length labels = length data ->
     (forall l, In l labels -> (0 <= l < Z.of_nat (length c))%Z) ->
     par_dba_for_labels Sp c data labels degree = reduce_dba_for_labels Sp c data labels).
Proof.
  intros E F N good HN Sp P HM c data degree Hd HP. pose proof (leb_m1_0 N good HN) as Hm. split.
  - intros Hc. destruct (par_reduce_dba_result N Sp P HM Hm c data degree Hc Hd HP)
      as (means & cards & res & H1 & H2 & H3 & H4).
    exists means, cards, res. split; [exact H1|]. split; [exact H2|]. split; [exact H3|].
    destruct (reduce_dba_result N Sp c data Hc Hm) as (m' & c' & H1' & M1 & M2 & _).
    rewrite H1 in H1'. injection H1' as <- <-.
    intros i ci n Hi Hn. assert (Hlt : i < length c) by (apply nth_error_Some; congruence).
    rewrite (nth_error_nth' res None) by lia. rewrite (H4 i ci Hi).
    rewrite (nth_error_nth cards i 0%Z Hn). rewrite (nth_error_nth' means None) by lia.
    destruct (0 <? n)%Z; reflexivity.
  - intros labels Hl Hr. apply (par_dba_for_labels_eq Sp P HM c data labels degree); assumption.
Qed.
