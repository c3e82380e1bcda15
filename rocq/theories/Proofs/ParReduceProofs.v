(** Proofs about the parallel reductions. *)
From Coq Require Import List ZArith Lia Bool.
From Verif Require Import Base.Go Base.Num Model.Clustering Model.Par Spec.ClusterSpec Spec.SpaceSpec
  Proofs.GoLemmas Proofs.NumLaws Proofs.NearestProofs Proofs.ReduceProofs Proofs.ParProofs.
Import ListNotations.
Local Open Scope Z_scope.

(** ** In-place loops over all indices *)
Section IndexLoop.
Context {A B : Type} (slot : A * B -> nat -> A * B) (da : A) (db : B).

Lemma of_label_index k i :
  (i < k)%nat -> of_label i (map (fun j => (Z.of_nat j, j)) (seq 0 k)) = [i].
Proof.
  intros Hi. unfold of_label.
  assert (H : forall s n, (s <= i < s + n)%nat ->
     map snd (filter (fun lx : Z * nat => fst lx =? Z.of_nat i) (map (fun j => (Z.of_nat j, j)) (seq s n))) = [i]).
  { intros s n. revert s. induction n as [|n IH]; intros s Hr; [lia|].
    cbn [seq map filter fst]. destruct (Z.eqb_spec (Z.of_nat s) (Z.of_nat i)) as [He|Hne].
    - assert (s = i) by lia. subst s. cbn [map snd]. f_equal.
      assert (Hn : forall s n, (i < s)%nat ->
        map snd (filter (fun lx : Z * nat => fst lx =? Z.of_nat i) (map (fun j => (Z.of_nat j, j)) (seq s n))) = []).
      { intros s n'. revert s. induction n' as [|n' IHn]; intros s Hs; [reflexivity|].
        cbn [seq map filter fst]. destruct (Z.eqb_spec (Z.of_nat s) (Z.of_nat i)); [lia|]. apply IHn. lia. }
      apply Hn. lia.
    - apply IH. lia. }
  apply H. lia.
Qed.

Lemma index_loop (f : list A * list B -> Z -> outcome (list A * list B)) k a b
  (Inv : list A * list B -> Prop) :
  length a = k -> length b = k -> Inv (a, b) ->
  (forall st i, (i < k)%nat -> length (fst st) = k -> length (snd st) = k -> Inv st ->
     f st (Z.of_nat i) = Ok (arr_step slot da db st (Z.of_nat i, i)) /\
     Inv (arr_step slot da db st (Z.of_nat i, i))) ->
  exists a' b',
    ofold f (map Z.of_nat (seq 0 k)) (a, b) = Ok (a', b') /\ Inv (a', b') /\
    length a' = k /\ length b' = k /\
    forall i, (i < k)%nat -> (nth i a' da, nth i b' db) = slot (nth i a da, nth i b db) i.
Proof.
  intros Ha Hb HI Hf.
  assert (Hloop : forall l st, Forall (fun i => (i < k)%nat) l ->
    length (fst st) = k -> length (snd st) = k -> Inv st ->
    ofold f (map Z.of_nat l) st = Ok (fold_left (arr_step slot da db) (map (fun j => (Z.of_nat j, j)) l) st)
    /\ Inv (fold_left (arr_step slot da db) (map (fun j => (Z.of_nat j, j)) l) st)).
  { induction l as [|i l IH]; intros st HF H1 H2 H3; cbn [map ofold fold_left]; [auto|].
    inversion HF as [|? ? Hi HF']; subst. destruct (Hf st i Hi H1 H2 H3) as [-> HI']. cbn [obind].
    apply IH; [assumption| | |assumption]; unfold arr_step; cbn [fst snd]; rewrite upd_length; assumption. }
  destruct (Hloop (seq 0 k) (a, b)) as [H1 H2]; cbn [fst snd]; auto.
  { apply Forall_forall. intros i Hi. apply in_seq in Hi. lia. }
  destruct (arr_fold slot da db k (map (fun j => (Z.of_nat j, j)) (seq 0 k)) a b Ha Hb) as (L1 & L2 & L3).
  { apply Forall_forall. intros [l i] Hi. apply in_map_iff in Hi. destruct Hi as (j & [= <- <-] & Hj).
    apply in_seq in Hj. unfold in_range. cbn [fst]. lia. }
  destruct (fold_left _ _ _) as [a' b']. exists a', b'. cbn [fst snd] in *.
  repeat (split; [assumption|]). intros i Hi. rewrite (L3 i Hi), of_label_index by assumption. reflexivity.
Qed.
End IndexLoop.

Lemma omap_ok_inv {A B} (f : A -> outcome B) l ys :
  omap f l = Ok ys -> Forall2 (fun x y => f x = Ok y) l ys.
Proof.
  revert ys. induction l as [|x l IH]; intros ys H; cbn in H.
  - injection H as <-. constructor.
  - destruct (f x) as [y|] eqn:Hx; [|discriminate]. cbn in H.
    destruct (omap f l) as [ys'|]; [|discriminate]. injection H as <-. constructor; auto.
Qed.

Lemma omap_total {A B} (f : A -> outcome B) l :
  (forall x, In x l -> exists y, f x = Ok y) -> exists ys, omap f l = Ok ys.
Proof.
  induction l as [|x l IH]; intros H; cbn; [eauto|].
  destruct (H x (or_introl eq_refl)) as [y ->]. cbn.
  destruct IH as [ys ->]; [intros z Hz; apply H; right; exact Hz|]. cbn. eauto.
Qed.

(** ** Losses *)
Section ParLoss.
Context {E F : Type} (N : Num F) (Sp : Space E F) (pow : F -> F -> F).

Lemma loss_aggregate_step_ok k (a p : list F * list Z) :
  length (fst a) = k -> length (snd a) = k -> length (fst p) = k -> length (snd p) = k ->
  exists r, loss_aggregate_step N (Some a) p = Ok (Some r) /\
    length (fst r) = k /\ length (snd r) = k /\
    forall i, (i < k)%nat ->
      nth i (fst r) (nof N 0) = nadd N (nth i (fst a) (nof N 0)) (nth i (fst p) (nof N 0)) /\
      nth i (snd r) 0 = nth i (snd a) 0 + nth i (snd p) 0.
Proof.
  destruct a as [la ca], p as [lp cp]. cbn [fst snd]. intros H1 H2 H3 H4.
  unfold loss_aggregate_step. cbn [fst snd]. rewrite H3.
  destruct (index_loop (fun s i => (nadd N (fst s) (nth i lp (nof N 0)), snd s + nth i cp 0)) (nof N 0) 0
     (fun st i => let '(losses, cards) := st in
                  let* li := sget losses i in
                  let* pi := sget lp i in
                  let* losses := sset losses i (nadd N li pi) in
                  let* ci := sget cards i in
                  let* qi := sget cp i in
                  let* cards := sset cards i (ci + qi) in
                  Ok (losses, cards)) k la ca (fun _ => True)) as (l' & c' & -> & _ & L1 & L2 & L3); auto.
  { intros [l c] i Hi Hl Hc _. cbn [fst snd] in *. split; [|exact I].
    rewrite (sget_nth l i (nof N 0)) by lia. cbn [obind].
    rewrite (sget_nth lp i (nof N 0)) by lia. cbn [obind].
    rewrite sset_nat by lia. cbn [obind].
    rewrite (sget_nth c i 0) by lia. cbn [obind].
    rewrite (sget_nth cp i 0) by lia. cbn [obind].
    rewrite sset_nat by lia. cbn [obind]. unfold arr_step. cbn [fst snd]. rewrite Nat2Z.id. reflexivity. }
  cbn [obind]. exists (l', c'). cbn [fst snd]. split; [reflexivity|]. split; [exact L1|split; [exact L2|]].
  intros i Hi. specialize (L3 i Hi). cbn [fst snd] in L3. injection L3 as -> ->. auto.
Qed.

Lemma loss_aggregate_fold k parts : forall a,
  length (fst a) = k -> length (snd a) = k ->
  Forall (fun p => length (fst p) = k /\ length (snd p) = k) parts ->
  exists r, ofold (loss_aggregate_step N) parts (Some a) = Ok (Some r) /\
    length (fst r) = k /\ length (snd r) = k /\
    forall i, (i < k)%nat ->
      nth i (fst r) (nof N 0) =
        fold_left (nadd N) (map (fun p => nth i (fst p) (nof N 0)) parts) (nth i (fst a) (nof N 0)) /\
      nth i (snd r) 0 = nth i (snd a) 0 + zsum (map (fun p => nth i (snd p) 0) parts).
Proof.
  induction parts as [|p parts IH]; intros a H1 H2 HF; cbn [ofold map fold_left zsum fold_right].
  - exists a. split; [reflexivity|]. split; [exact H1|split; [exact H2|]]. intros i Hi. split; [reflexivity|lia].
  - inversion HF as [|? ? [Hp1 Hp2] HF']; subst.
    destruct (loss_aggregate_step_ok _ a p eq_refl H2 Hp1 Hp2) as (r & -> & R1 & R2 & R3). cbn [obind].
    destruct (IH r R1 R2 HF') as (r' & -> & S1 & S2 & S3).
    exists r'. split; [reflexivity|]. split; [exact S1|split; [exact S2|]]. intros i Hi.
    destruct (R3 i Hi) as [Ra Rb]. destruct (S3 i Hi) as [Sa Sb]. rewrite Sa, Sb, Ra, Rb.
    split; [reflexivity|]. unfold zsum. lia.
Qed.

(** Sum of the parts, left to right, starting with the first one. *)
Definition sum_parts (l : list F) : F :=
  match l with [] => nof N 0 | x :: l' => fold_left (nadd N) l' x end.

Lemma loss_aggregate_ok k parts :
  parts <> [] -> Forall (fun p => length (fst p) = k /\ length (snd p) = k) parts ->
  exists r, loss_aggregate N parts = Ok r /\
    length (fst r) = k /\ length (snd r) = k /\
    forall i, (i < k)%nat ->
      nth i (fst r) (nof N 0) = sum_parts (map (fun p => nth i (fst p) (nof N 0)) parts) /\
      nth i (snd r) 0 = zsum (map (fun p => nth i (snd p) 0) parts).
Proof.
  intros Hne HF. destruct parts as [|p parts]; [contradiction|].
  inversion HF as [|? ? [Hp1 Hp2] HF']; subst. unfold loss_aggregate. cbn [ofold loss_aggregate_step obind].
  destruct (loss_aggregate_fold _ parts p eq_refl Hp2 HF') as (r & -> & R1 & R2 & R3). cbn [obind].
  exists r. split; [reflexivity|]. split; [exact R1|split; [exact R2|]]. intros i Hi.
  destruct (R3 i Hi) as [-> ->]. split; reflexivity.
Qed.

Lemma members_app {X} (lab : X -> Z) i xs ys : members lab i (xs ++ ys) = members lab i xs ++ members lab i ys.
Proof. apply filter_app. Qed.

Lemma members_concat {X} (lab : X -> Z) i (xss : list (list X)) :
  members lab i (concat xss) = concat (map (members lab i) xss).
Proof. induction xss as [|xs xss IH]; cbn [concat map]; [reflexivity|]. rewrite members_app, IH. reflexivity. Qed.

Lemma labelled_concat {X} i (chunks : list (list X * list Z)) :
  Forall (fun p => length (fst p) = length (snd p)) chunks ->
  labelled i (concat (map snd chunks)) (concat (map fst chunks))
  = concat (map (fun p => labelled i (snd p) (fst p)) chunks).
Proof.
  unfold labelled. induction 1 as [|[x l] ps H _ IH]; cbn [map concat fst snd]; [reflexivity|].
  rewrite <- IH, <- map_app, <- filter_app. f_equal. f_equal. cbn [fst snd] in H. clear IH.
  revert x H. induction l as [|a l IHl]; intros [|b x] H; cbn in *; try discriminate; [reflexivity|].
  f_equal. apply IHl. lia.
Qed.

Lemma zsum_lengths {X} (xss : list (list X)) :
  zsum (map (fun xs => Z.of_nat (length xs)) xss) = Z.of_nat (length (concat xss)).
Proof. induction xss as [|xs xss IH]; cbn; [reflexivity|]. rewrite app_length, <- (Nat2Z.id (length (concat xss))), <- IH.
  unfold zsum in *. lia. Qed.

Hypothesis Hm : nltb N (nof N (-1)) (nof N 0) = true.

Lemma par_reduce_loss_result (c data : list E) norm degree :
  c <> [] -> 0 < degree ->
  exists chunks losses cards,
    concat chunks = data /\ Z.of_nat (length chunks) = degree /\
    par_reduce_loss N Sp pow c data norm degree = Ok (losses, cards) /\
    length losses = length c /\ length cards = length c /\
    forall i, (i < length c)%nat ->
      nth i losses (nof N 0) =
        sum_parts (map (fun chunk => loss_of N pow norm (map (fun x => snd (nearest N Sp c x))
                          (members (fun x => fst (nearest N Sp c x)) i chunk))) chunks) /\
      nth i cards 0 = Z.of_nat (length (members (fun x => fst (nearest N Sp c x)) i data)).
Proof.
  intros Hc Hd.
  destruct (par_parts data degree (fun part => reduce_loss N Sp pow c part norm) Hd)
    as (chunks & Hcat & Hlen & Heq).
  exists chunks.
  assert (Hpar : par_reduce_loss N Sp pow c data norm degree
          = obind (omap (fun part => reduce_loss N Sp pow c part norm) chunks) (loss_aggregate N)).
  { rewrite <- Heq. unfold par_reduce_loss. destruct (par_ranges (slen data) degree); reflexivity. }
  rewrite Hpar. clear Hpar Heq.
  destruct (omap_total (fun part => reduce_loss N Sp pow c part norm) chunks) as [parts Hparts].
  { intros part _. destruct (reduce_loss_result N Sp pow c part norm Hc Hm) as (l & k & H & _). eauto. }
  rewrite Hparts. cbn [obind]. apply omap_ok_inv in Hparts.
  assert (Hfact : Forall2 (fun chunk p => length (fst p) = length c /\ length (snd p) = length c /\
     forall i, (i < length c)%nat ->
      nth i (fst p) (nof N 0) = loss_of N pow norm (map (fun x => snd (nearest N Sp c x))
                          (members (fun x => fst (nearest N Sp c x)) i chunk)) /\
      nth i (snd p) 0 = Z.of_nat (length (members (fun x => fst (nearest N Sp c x)) i chunk))) chunks parts).
  { clear -Hparts Hc Hm. induction Hparts as [|ch p chs ps H _ IH]; constructor; [|exact IH].
    destruct (reduce_loss_result N Sp pow c ch norm Hc Hm) as (l & k & H' & L1 & L2 & L3).
    rewrite H in H'. injection H' as ->. cbn [fst snd]. auto. }
  destruct (loss_aggregate_ok (length c) parts) as ([losses cards] & -> & R1 & R2 & R3).
  { intros ->. inversion Hparts; subst. cbn in Hd. lia. }
  { clear -Hfact. induction Hfact; constructor; tauto. }
  exists losses, cards. cbn [fst snd] in *.
  split; [exact Hcat|]. split; [exact Hlen|]. split; [reflexivity|]. split; [exact R1|]. split; [exact R2|].
  intros i Hi. destruct (R3 i Hi) as [-> ->]. split.
  - f_equal. clear -Hfact Hi. induction Hfact as [|ch p chs ps (_ & _ & H) _ IH]; cbn [map]; [reflexivity|].
    rewrite IH. f_equal. apply H. exact Hi.
  - rewrite <- Hcat, members_concat, <- zsum_lengths, map_map. f_equal.
    clear -Hfact Hi. induction Hfact as [|ch p chs ps (_ & _ & H) _ IH]; cbn [map]; [reflexivity|].
    rewrite IH. f_equal. apply H. exact Hi.
Qed.

Lemma par_reduce_loss_for_labels_result (c data : list E) labels norm degree :
  0 < degree -> length labels = length data ->
  (forall l, In l labels -> in_range (length c) l) ->
  exists (chunks : list (list E * list Z)) losses cards,
    concat (map fst chunks) = data /\ concat (map snd chunks) = labels /\
    Forall (fun p => length (fst p) = length (snd p)) chunks /\
    Z.of_nat (length chunks) = degree /\
    par_reduce_loss_for_labels N Sp pow c data labels norm degree = Ok (losses, cards) /\
    length losses = length c /\ length cards = length c /\
    forall i ci, nth_error c i = Some ci ->
      nth i losses (nof N 0) =
        sum_parts (map (fun p => loss_of N pow norm (map (fun x => sdist Sp x ci) (labelled i (snd p) (fst p)))) chunks) /\
      nth i cards 0 = Z.of_nat (length (labelled i labels data)).
Proof.
  intros Hd Hl Hr.
  destruct (par_parts2 data labels degree (fun part plabels => reduce_loss_for_labels N Sp pow c part plabels norm) Hd Hl)
    as (chunks & Hcomb & Hcat & Hlens & Hlen & Heq).
  exists chunks.
  assert (Hpar : par_reduce_loss_for_labels N Sp pow c data labels norm degree
          = obind (omap (fun p => reduce_loss_for_labels N Sp pow c (fst p) (snd p) norm) chunks) (loss_aggregate N)).
  { rewrite <- Heq. unfold par_reduce_loss_for_labels. destruct (par_ranges (slen data) degree); reflexivity. }
  rewrite Hpar. clear Hpar Heq.
  assert (Hlab : concat (map snd chunks) = labels).
  { assert (H1 : map fst (concat (map (fun p : list E * list Z => combine (snd p) (fst p)) chunks)) = concat (map snd chunks)).
    { clear -Hlens. induction Hlens as [|[x l] ps H _ IH]; cbn; [reflexivity|]. cbn in H.
      rewrite map_app, IH. f_equal. clear -H. revert x H. induction l as [|a l IH]; intros [|b x] H; cbn in *; try discriminate; auto.
      f_equal. apply IH. lia. }
    rewrite <- H1, Hcomb. clear -Hl. revert data Hl. induction labels as [|a l IH]; intros [|b x] H; cbn in *; try discriminate; auto.
    f_equal. apply IH. lia. }
  assert (Hrange : forall p, In p chunks -> forall i l, nth_error (snd p) i = Some l -> (i < length (fst p))%nat -> in_range (length c) l).
  { intros p Hp i l Hi _. apply Hr. rewrite <- Hlab. apply in_concat. exists (snd p). split.
    - apply in_map. exact Hp.
    - apply (nth_error_In _ i). exact Hi. }
  assert (Hle : forall p, In p chunks -> (length (fst p) <= length (snd p))%nat).
  { intros p Hp. rewrite Forall_forall in Hlens. rewrite (Hlens p Hp). lia. }
  destruct (omap_total (fun p => reduce_loss_for_labels N Sp pow c (fst p) (snd p) norm) chunks) as [parts Hparts].
  { intros p Hp. destruct (reduce_loss_for_labels_result N Sp pow c (fst p) (snd p) norm (Hle p Hp) (Hrange p Hp)) as (l & k & H & _). eauto. }
  rewrite Hparts. cbn [obind]. apply omap_ok_inv in Hparts.
  assert (Hfact : Forall2 (fun ch p => length (fst p) = length c /\ length (snd p) = length c /\
     forall i ci, nth_error c i = Some ci ->
      nth i (fst p) (nof N 0) = loss_of N pow norm (map (fun x => sdist Sp x ci) (labelled i (snd ch) (fst ch))) /\
      nth i (snd p) 0 = Z.of_nat (length (labelled i (snd ch) (fst ch)))) chunks parts).
  { clear -Hparts Hle Hrange. induction Hparts as [|ch p chs ps H _ IH]; constructor.
    - destruct (reduce_loss_for_labels_result N Sp pow c (fst ch) (snd ch) norm) as (l & k & H' & L1 & L2 & L3).
      + apply Hle; left; reflexivity.
      + apply Hrange; left; reflexivity.
      + rewrite H in H'. injection H' as ->. cbn [fst snd]. auto.
    - apply IH; intros q Hq; [apply Hrange|apply Hle]; right; exact Hq. }
  destruct (loss_aggregate_ok (length c) parts) as ([losses cards] & -> & R1 & R2 & R3).
  { intros ->. inversion Hparts; subst. cbn in Hd. lia. }
  { clear -Hfact. induction Hfact; constructor; tauto. }
  exists losses, cards. cbn [fst snd] in *.
  split; [exact Hcat|]. split; [exact Hlab|]. split; [exact Hlens|]. split; [exact Hlen|]. split; [reflexivity|]. split; [exact R1|]. split; [exact R2|].
  intros i ci Hi. assert (Hlt : (i < length c)%nat) by (apply nth_error_Some; congruence).
  destruct (R3 i Hlt) as [-> ->]. split.
  - f_equal. clear -Hfact Hi. induction Hfact as [|ch p chs ps (_ & _ & H) _ IH]; cbn [map]; [reflexivity|].
    rewrite IH. f_equal. apply (H i ci Hi).
  - assert (Hm' : map (fun p => nth i (snd p) 0) parts = map (fun p => Z.of_nat (length (labelled i (snd p) (fst p)))) chunks).
    { clear -Hfact Hi. induction Hfact as [|ch p chs ps (_ & _ & H) _ IH]; cbn [map]; [reflexivity|].
      rewrite IH. f_equal. apply (H i ci Hi). }
    rewrite Hm'. unfold labelled at 2. rewrite <- Hcomb. clear.
    induction chunks as [|[x l] ps IH]; cbn [map concat zsum fold_right fst snd]; [reflexivity|].
    unfold zsum in IH. rewrite IH, filter_app, map_app, app_length. unfold labelled. cbn [fst snd]. lia.
Qed.

(** Exact arithmetic: associativity of addition is enough to merge the parts. *)
Hypothesis add_assoc : forall x y z, nadd N x (nadd N y z) = nadd N (nadd N x y) z.
Hypothesis add_0_l : forall x, nadd N (nof N 0) x = x.
Hypothesis add_0_r : forall x, nadd N x (nof N 0) = x.

Lemma loss_of_acc norm ds : forall a,
  fold_left (fun acc d => nadd N acc (pow d norm)) ds a = nadd N a (loss_of N pow norm ds).
Proof.
  induction ds as [|d ds IH]; intros a; unfold loss_of; cbn [fold_left]; [symmetry; apply add_0_r|].
  rewrite IH. rewrite (IH (nadd N (nof N 0) (pow d norm))), add_0_l. rewrite add_assoc. reflexivity.
Qed.

Lemma loss_of_app norm ds1 ds2 :
  loss_of N pow norm (ds1 ++ ds2) = nadd N (loss_of N pow norm ds1) (loss_of N pow norm ds2).
Proof. unfold loss_of at 1. rewrite fold_left_app, loss_of_acc. reflexivity. Qed.

Lemma sum_parts_concat norm (dss : list (list F)) :
  sum_parts (map (loss_of N pow norm) dss) = loss_of N pow norm (concat dss).
Proof.
  destruct dss as [|ds dss]; [reflexivity|]. cbn [map sum_parts concat]. revert ds.
  induction dss as [|ds' dss IH]; intros ds; cbn [map fold_left concat].
  - rewrite app_nil_r. reflexivity.
  - rewrite <- loss_of_app, IH, app_assoc. reflexivity.
Qed.

Lemma par_reduce_loss_eq (c data : list E) norm degree :
  c <> [] -> 0 < degree ->
  par_reduce_loss N Sp pow c data norm degree = reduce_loss N Sp pow c data norm.
Proof.
  intros Hc Hd. destruct (par_reduce_loss_result c data norm degree Hc Hd)
    as (chunks & losses & cards & Hcat & _ & -> & L1 & L2 & L3).
  destruct (reduce_loss_result N Sp pow c data norm Hc Hm) as (losses' & cards' & -> & M1 & M2 & M3).
  f_equal. f_equal.
  - apply (nth_ext _ _ (nof N 0) (nof N 0)); [congruence|]. intros i Hi. rewrite L1 in Hi.
    destruct (L3 i Hi) as [-> _], (M3 i Hi) as [-> _].
    rewrite <- Hcat, members_concat, concat_map, <- sum_parts_concat, !map_map. reflexivity.
  - apply (nth_ext _ _ 0 0); [congruence|]. intros i Hi. rewrite L2 in Hi.
    destruct (L3 i Hi) as [_ ->], (M3 i Hi) as [_ ->]. reflexivity.
Qed.

Lemma par_reduce_loss_for_labels_eq (c data : list E) labels norm degree :
  0 < degree -> length labels = length data ->
  (forall l, In l labels -> in_range (length c) l) ->
  par_reduce_loss_for_labels N Sp pow c data labels norm degree
  = reduce_loss_for_labels N Sp pow c data labels norm.
Proof.
  intros Hd Hl Hr.
  destruct (par_reduce_loss_for_labels_result c data labels norm degree Hd Hl Hr)
    as (chunks & losses & cards & Hcat & Hlab & Hlens & _ & -> & L1 & L2 & L3).
  destruct (reduce_loss_for_labels_result N Sp pow c data labels norm) as (losses' & cards' & -> & M1 & M2 & M3).
  { lia. }
  { intros i l Hi _. apply Hr. apply (nth_error_In _ i). exact Hi. }
  f_equal. f_equal.
  - apply (nth_ext _ _ (nof N 0) (nof N 0)); [congruence|]. intros i Hi. rewrite L1 in Hi.
    destruct (nth_error c i) as [ci|] eqn:Hci; [|apply nth_error_None in Hci; lia].
    destruct (L3 i ci Hci) as [Hx _], (M3 i ci Hci) as [-> _]. rewrite Hx. clear Hx.
    rewrite <- (map_map (fun p : list E * list Z => map (fun x => sdist Sp x ci) (labelled i (snd p) (fst p))) (loss_of N pow norm)).
    rewrite sum_parts_concat. f_equal.
    rewrite <- Hcat, <- Hlab, labelled_concat by exact Hlens.
    rewrite concat_map, map_map. reflexivity.
  - apply (nth_ext _ _ 0 0); [congruence|]. intros i Hi. rewrite L2 in Hi.
    destruct (nth_error c i) as [ci|] eqn:Hci; [|apply nth_error_None in Hci; lia].
    destruct (L3 i ci Hci) as [_ ->], (M3 i ci Hci) as [_ ->]. reflexivity.
Qed.
End ParLoss.

(** ** Averages *)
Section ParDBA.
Context {E F : Type} (N : Num F) (Sp : Space E F).

Lemma dba_weight (xs : list E) : forall m w,
  snd (fold_left (fun '(m, w) y => (scombine Sp m w y 1, w + 1)) xs (m, w)) = w + Z.of_nat (length xs).
Proof. induction xs as [|x xs IH]; intros m w; cbn [fold_left snd length]; [lia|]. rewrite IH. lia. Qed.

Lemma dba_snoc (xs : list E) y a :
  dba Sp xs = Some a -> dba Sp (xs ++ [y]) = Some (scombine Sp a (Z.of_nat (length xs)) y 1).
Proof.
  destruct xs as [|x xs]; [discriminate|]. cbn [dba app]. intros [= <-]. rewrite fold_left_app.
  pose proof (dba_weight xs (scopy Sp x) 1) as Hw.
  destruct (fold_left _ xs _) as [m w]. cbn [snd fst fold_left] in *. rewrite Hw. f_equal. f_equal. cbn [length]. lia.
Qed.

Lemma dba_nonempty (xs : list E) : xs <> [] -> exists a, dba Sp xs = Some a.
Proof. destruct xs; [contradiction|]. intros _. cbn. eauto. Qed.

Context (P : E -> Prop) (HM : mean_space Sp P).

Lemma dba_closed (xs : list E) a : Forall P xs -> dba Sp xs = Some a -> P a.
Proof.
  revert a. induction xs as [|y xs IH] using rev_ind; intros a HF H; [discriminate|].
  apply Forall_app in HF. destruct HF as [HF Hy]. inversion Hy as [|? ? Hy' _]; subst.
  destruct xs as [|x xs].
  - cbn in H. injection H as <-. apply (ms_copy_closed HM). exact Hy'.
  - destruct (dba_nonempty (x :: xs) ltac:(discriminate)) as [b Hb].
    rewrite (dba_snoc _ y b Hb) in H. injection H as <-.
    apply (ms_closed HM); [apply IH; assumption|assumption|cbn [length]; lia|lia].
Qed.

Lemma dba_app (xs ys : list E) a b :
  Forall P xs -> Forall P ys -> dba Sp xs = Some a -> dba Sp ys = Some b ->
  dba Sp (xs ++ ys) = Some (scombine Sp a (Z.of_nat (length xs)) b (Z.of_nat (length ys))).
Proof.
  intros HX HY Ha. assert (Pa : P a) by (apply (dba_closed xs); assumption).
  assert (Hn : 0 < Z.of_nat (length xs)) by (destruct xs; [discriminate|cbn [length]; lia]).
  revert b. induction ys as [|y ys IH] using rev_ind; intros b Hb; [discriminate|].
  apply Forall_app in HY. destruct HY as [HY Hy]. inversion Hy as [|? ? Hy' _]; subst.
  destruct ys as [|y0 ys].
  - cbn in Hb. injection Hb as <-. cbn [app]. rewrite (dba_snoc xs y a Ha). f_equal. symmetry.
    apply (ms_copy HM); auto; lia.
  - destruct (dba_nonempty (y0 :: ys) ltac:(discriminate)) as [b' Hb'].
    rewrite (dba_snoc _ y b' Hb') in Hb. injection Hb as <-.
    rewrite app_assoc.
    erewrite (dba_snoc (xs ++ y0 :: ys) y) by (apply IH; [assumption|exact Hb']).
    f_equal. rewrite !app_length, !Nat2Z.inj_add. change (Z.of_nat (length [y])) with 1.
    apply (ms_assoc HM); auto; try lia; [apply (dba_closed (y0 :: ys)); assumption|cbn [length]; lia].
Qed.

(** Slot-wise aggregation *)
Definition agg_slot (other : list (option E) * list Z) (s : option E * Z) (i : nat) : option E * Z :=
  if snd s =? 0 then (nth i (fst other) None, nth i (snd other) 0)
  else if 0 <? nth i (snd other) 0 then
    match fst s, nth i (fst other) None with
    | Some a, Some o => (Some (scombine Sp a (snd s) o (nth i (snd other) 0)), snd s + nth i (snd other) 0)
    | _, _ => s
    end
  else s.

(** Entry [i] holds the average and the number of the elements [xs i]. *)
Definition holds_dba (k : nat) (xs : nat -> list E) (st : list (option E) * list Z) : Prop :=
  length (fst st) = k /\ length (snd st) = k /\
  forall i, (i < k)%nat -> nth i (fst st) None = dba Sp (xs i) /\ nth i (snd st) 0 = Z.of_nat (length (xs i)).

Lemma dba_combine_ok k xs ys a o :
  (forall i, Forall P (xs i)) -> (forall i, Forall P (ys i)) ->
  holds_dba k xs a -> holds_dba k ys o ->
  exists r, dba_combine Sp a o = Ok r /\ holds_dba k (fun i => xs i ++ ys i) r.
Proof.
  intros HX HY (A1 & A2 & A3) (O1 & O2 & O3). destruct a as [da ca]. cbn [fst snd] in *.
  unfold dba_combine. cbn [fst]. rewrite A1.
  destruct (index_loop (agg_slot o) None 0
     (fun st i =>
    let '(dbas, cards) := st in
    let* ci := sget cards i in
    if ci =? 0 then
      let* od := sget (fst o) i in
      let* dbas := sset dbas i od in
      let* oc := sget (snd o) i in
      let* cards := sset cards i oc in
      Ok (dbas, cards)
    else
      let* oc := sget (snd o) i in
      if 0 <? oc then
        let* ad := sget dbas i in
        let* od := sget (fst o) i in
        match ad, od with
        | Some ad, Some od =>
            let* dbas := sset dbas i (Some (scombine Sp ad ci od oc)) in
            let* cards := sset cards i (ci + oc) in
            Ok (dbas, cards)
        | _, _ => Panic
        end
      else Ok (dbas, cards)) k da ca
      (fun st => forall i, (i < k)%nat -> nth i (snd st) 0 <> 0 -> nth i (fst st) None <> None))
    as (d' & c' & -> & _ & L1 & L2 & L3); auto.
  - cbn [fst snd]. intros i Hi Hn. destruct (A3 i Hi) as [-> H]. rewrite H in Hn.
    destruct (xs i); [cbn in Hn; lia|discriminate].
  - intros [d c] i Hi Hd Hc Hinv. cbn [fst snd] in *.
    rewrite (sget_nth c i 0) by lia. cbn [obind].
    rewrite (sget_nth (fst o) i None) by lia. rewrite (sget_nth (snd o) i 0) by lia. cbn [obind].
    rewrite (sget_nth d i None) by lia. cbn [obind].
    unfold arr_step. cbn [fst snd]. rewrite Nat2Z.id. unfold agg_slot. cbn [fst snd].
    destruct (Z.eqb_spec (nth i c 0) 0) as [Hz|Hnz].
    + rewrite !sset_nat by lia. cbn [obind fst snd]. split; [reflexivity|].
      intros j Hj. rewrite !nth_upd, Hd, Hc.
      destruct (Nat.eqb_spec j i) as [->|]; cbn [andb]; [|apply Hinv; assumption].
      destruct (Nat.ltb_spec i k); [|lia]. destruct (O3 i Hi) as [-> ->].
      destruct (ys i); [cbn; lia|discriminate].
    + specialize (Hinv i Hi Hnz) as Hsome. destruct (nth i d None) as [ad|] eqn:Had; [|contradiction].
      destruct (Z.ltb_spec 0 (nth i (snd o) 0)) as [Hpos|Hnpos].
      * destruct (O3 i Hi) as [Ho1 Ho2]. rewrite Ho1, Ho2 in *.
        destruct (dba Sp (ys i)) as [od|] eqn:Hod; [|destruct (ys i); [cbn in Hpos; lia|discriminate]].
        rewrite !sset_nat by lia. cbn [obind fst snd]. split; [reflexivity|].
        intros j Hj. rewrite !nth_upd, Hd, Hc.
        destruct (Nat.eqb_spec j i) as [->|]; cbn [andb]; [|apply Hinv; assumption].
        destruct (Nat.ltb_spec i k); [|lia]. discriminate.
      * cbn [fst snd].
        assert (Hsame : upd d i (Some ad) = d).
        { apply list_ext; [apply upd_length|]. intros j Hj. rewrite upd_length in Hj. rewrite nth_error_upd.
          destruct (Nat.eqb_spec j i) as [->|]; cbn [andb]; [|reflexivity].
          destruct (Nat.ltb_spec i (length d)); [|lia]. symmetry. rewrite <- Had. apply nth_error_nth'. lia. }
        assert (Hsame2 : upd c i (nth i c 0) = c).
        { apply list_ext; [apply upd_length|]. intros j Hj. rewrite upd_length in Hj. rewrite nth_error_upd.
          destruct (Nat.eqb_spec j i) as [->|]; cbn [andb]; [|reflexivity].
          destruct (Nat.ltb_spec i (length c)); [|lia]. symmetry. apply nth_error_nth'. lia. }
        rewrite Hsame, Hsame2. split; [reflexivity|]. cbn [fst snd]. exact Hinv.
  - exists (d', c'). split; [reflexivity|]. unfold holds_dba. cbn [fst snd].
    split; [exact L1|split; [exact L2|]]. intros i Hi. specialize (L3 i Hi).
    unfold agg_slot in L3. cbn [fst snd] in L3. destruct (A3 i Hi) as [Ha1 Ha2], (O3 i Hi) as [Ho1 Ho2].
    rewrite Ha1, Ha2, Ho1, Ho2 in L3. clear -L3 HX HY HM.
    destruct (xs i) as [|x xs'] eqn:Hx.
    + cbn [length Z.of_nat Z.eqb] in L3. injection L3 as -> ->. auto.
    + destruct (Z.eqb_spec (Z.of_nat (length (x :: xs'))) 0) as [H|H]; [cbn [length] in H; lia|].
      destruct (ys i) as [|y ys'] eqn:Hy.
      * change (0 <? Z.of_nat (length (@nil E))) with false in L3. cbn iota in L3. injection L3 as -> ->.
        rewrite app_nil_r. auto.
      * destruct (Z.ltb_spec 0 (Z.of_nat (length (y :: ys')))) as [H'|H']; [|cbn [length] in H'; lia].
        destruct (dba_nonempty (x :: xs') ltac:(discriminate)) as [a Ha].
        destruct (dba_nonempty (y :: ys') ltac:(discriminate)) as [b Hb].
        rewrite Ha, Hb in L3. pose proof (f_equal fst L3) as E1. pose proof (f_equal snd L3) as E2.
        cbn [fst snd] in E1, E2. rewrite E1, E2. split.
        -- symmetry. apply dba_app; auto; [rewrite <- Hx|rewrite <- Hy]; auto.
        -- rewrite app_length. lia.
Qed.

Lemma dba_aggregate_fold k : forall xss parts xs a,
  Forall2 (holds_dba k) xss parts ->
  (forall f, In f xss -> forall i, Forall P (f i)) -> (forall i, Forall P (xs i)) ->
  holds_dba k xs a ->
  exists r, ofold (dba_aggregate_step Sp) parts (Some a) = Ok (Some r) /\
    holds_dba k (fun i => xs i ++ concat (map (fun f => f i) xss)) r.
Proof.
  intros xss parts xs a HF. revert xs a. induction HF as [|f p xss parts Hp _ IH]; intros xs a HP HX Ha.
  - exists a. split; [reflexivity|]. destruct Ha as (A1 & A2 & A3). split; [exact A1|split; [exact A2|]].
    intros i Hi. cbn. rewrite app_nil_r. apply A3. exact Hi.
  - cbn [ofold dba_aggregate_step].
    destruct (dba_combine_ok k xs f a p HX (HP f (or_introl eq_refl)) Ha Hp) as (r & -> & Hr). cbn [obind].
    destruct (IH (fun i => xs i ++ f i) r) as (r' & -> & Hr').
    + intros g Hg. apply HP. right; exact Hg.
    + intros i. apply Forall_app. split; [apply HX|apply (HP f (or_introl eq_refl))].
    + exact Hr.
    + exists r'. split; [reflexivity|]. destruct Hr' as (A1 & A2 & A3). split; [exact A1|split; [exact A2|]].
      intros i Hi. cbn [map concat]. rewrite app_assoc. apply A3. exact Hi.
Qed.

Lemma dba_aggregate_ok k xss parts :
  parts <> [] -> Forall2 (holds_dba k) xss parts -> (forall f, In f xss -> forall i, Forall P (f i)) ->
  exists r, dba_aggregate Sp parts = Ok r /\ holds_dba k (fun i => concat (map (fun f => f i) xss)) r.
Proof.
  intros Hne HF HP. destruct HF as [|f p xss parts Hp HF]; [contradiction|].
  unfold dba_aggregate. cbn [ofold dba_aggregate_step obind].
  destruct (dba_aggregate_fold k xss parts f p HF) as (r & -> & Hr).
  - intros g Hg. apply HP. right; exact Hg.
  - apply (HP f (or_introl eq_refl)).
  - exact Hp.
  - cbn [obind]. exists r. split; [reflexivity|exact Hr].
Qed.

Hypothesis Hm : nltb N (nof N (-1)) (nof N 0) = true.

Lemma members_Forall {X} (Q : X -> Prop) lab i xs : Forall Q xs -> Forall Q (members lab i xs).
Proof.
  intros H. apply Forall_forall. intros x Hx. apply filter_In in Hx. rewrite Forall_forall in H. apply H. tauto.
Qed.

Lemma par_reduce_dba_aggregate (c data : list E) degree :
  c <> [] -> 0 < degree -> Forall P data ->
  exists r, par_reduce_dba N Sp c data degree = build_result c r /\
    holds_dba (length c) (fun i => members (fun x => fst (nearest N Sp c x)) i data) r.
Proof.
  intros Hc Hd HP.
  destruct (par_parts data degree (fun part => reduce_dba N Sp c part) Hd) as (chunks & Hcat & Hlen & Heq).
  assert (Hpar : par_reduce_dba N Sp c data degree
    = obind (omap (fun part => reduce_dba N Sp c part) chunks)
        (fun parts => obind (dba_aggregate Sp parts) (build_result c))).
  { rewrite <- Heq. unfold par_reduce_dba. destruct (par_ranges (slen data) degree); reflexivity. }
  rewrite Hpar. clear Hpar Heq.
  destruct (omap_total (fun part => reduce_dba N Sp c part) chunks) as [parts Hparts].
  { intros part _. destruct (reduce_dba_result N Sp c part Hc Hm) as (l & k & H & _). eauto. }
  rewrite Hparts. cbn [obind]. apply omap_ok_inv in Hparts.
  destruct (dba_aggregate_ok (length c)
      (map (fun chunk i => members (fun x => fst (nearest N Sp c x)) i chunk) chunks) parts) as (r & -> & Hr).
  - intros ->. inversion Hparts; subst. cbn in Hd. lia.
  - clear -Hparts Hc Hm. induction Hparts as [|ch p chs ps H _ IH]; cbn [map]; constructor; [|exact IH].
    destruct (reduce_dba_result N Sp c ch Hc Hm) as (l & k & H' & L1 & L2 & L3).
    rewrite H in H'. injection H' as ->. unfold holds_dba. cbn [fst snd]. auto.
  - intros f Hf i. apply in_map_iff in Hf. destruct Hf as (ch & <- & Hch). apply members_Forall.
    apply Forall_forall. intros x Hx. rewrite Forall_forall in HP. apply HP. rewrite <- Hcat.
    apply in_concat. eauto.
  - cbn [obind]. exists r. split; [reflexivity|]. destruct Hr as (R1 & R2 & R3).
    split; [exact R1|split; [exact R2|]]. intros i Hi. specialize (R3 i Hi).
    rewrite map_map in R3. rewrite <- Hcat, members_concat. exact R3.
Qed.

Lemma build_result_ok (c : list E) (r : list (option E) * list Z) :
  length (fst r) = length c -> length (snd r) = length c ->
  exists res, build_result c r = Ok (res, snd r) /\ length res = length c /\
    forall i ci, nth_error c i = Some ci ->
      nth i res None = if 0 <? nth i (snd r) 0 then nth i (fst r) None else Some ci.
Proof.
  intros H1 H2. destruct r as [dbas cards]. cbn [fst snd] in *. unfold build_result. cbn [fst snd].
  assert (Hloop : forall l res, Forall (fun i => (i < length c)%nat) l -> length res = length c -> NoDup l ->
    exists res', ofold (fun result i =>
      let* ci := sget cards i in
      if 0 <? ci then let* d := sget dbas i in sset result i d
      else let* d := sget c i in sset result i (Some d)) (map Z.of_nat l) res = Ok res' /\
      length res' = length c /\
      forall i ci, nth_error c i = Some ci ->
        nth i res' None = if in_dec Nat.eq_dec i l then (if 0 <? nth i cards 0 then nth i dbas None else Some ci)
                          else nth i res None).
  { induction l as [|k l IH]; intros res HF Hres Hnd; cbn [map ofold].
    - exists res. split; [reflexivity|]. split; [exact Hres|]. intros i ci Hi.
      destruct (in_dec Nat.eq_dec i []) as [[]|]; reflexivity.
    - inversion HF as [|? ? Hk HF']; subst. inversion Hnd as [|? ? Hnin Hnd']; subst.
      destruct (nth_error c k) as [ck|] eqn:Hck; [|apply nth_error_None in Hck; lia].
      rewrite (sget_nth cards k 0) by lia. cbn [obind].
      assert (Hstep : exists v, v = (if 0 <? nth k cards 0 then nth k dbas None else Some ck) /\
         (if 0 <? nth k cards 0 then let* d := sget dbas (Z.of_nat k) in sset res (Z.of_nat k) d
          else let* d := sget c (Z.of_nat k) in sset res (Z.of_nat k) (Some d)) = Ok (upd res k v)).
      { eexists. split; [reflexivity|]. destruct (0 <? nth k cards 0).
        - rewrite (sget_nth dbas k None) by lia. cbn [obind]. rewrite sset_nat by lia. reflexivity.
        - rewrite sget_nat, Hck. cbn [obind]. rewrite sset_nat by lia. reflexivity. }
      destruct Hstep as (v & Hv & ->). cbn [obind].
      destruct (IH (upd res k v) HF' ltac:(rewrite upd_length; exact Hres) Hnd') as (res' & -> & R1 & R2).
      exists res'. split; [reflexivity|]. split; [exact R1|]. intros i ci Hi. rewrite (R2 i ci Hi).
      destruct (in_dec Nat.eq_dec i l) as [Hin|Hnin'], (in_dec Nat.eq_dec i (k :: l)) as [Hin2|Hnin2]; auto.
      + exfalso. apply Hnin2. right; exact Hin.
      + destruct Hin2 as [->|Hin2]; [|contradiction]. rewrite nth_upd_eq by lia.
        rewrite Hi in Hck. injection Hck as ->. exact Hv.
      + rewrite nth_upd_neq; [reflexivity|]. intros ->. apply Hnin2. left; reflexivity. }
  destruct (Hloop (seq 0 (length c)) (repeat None (length dbas))) as (res & -> & R1 & R2).
  - apply Forall_forall. intros i Hi. apply in_seq in Hi. lia.
  - rewrite repeat_length. exact H1.
  - apply seq_NoDup.
  - cbn [obind]. exists res. split; [reflexivity|]. split; [exact R1|]. intros i ci Hi.
    rewrite (R2 i ci Hi). destruct (in_dec Nat.eq_dec i (seq 0 (length c))) as [|Hn]; [reflexivity|].
    exfalso. apply Hn. apply in_seq. assert (i < length c)%nat by (apply nth_error_Some; congruence). lia.
Qed.

Lemma par_reduce_dba_result (c data : list E) degree :
  c <> [] -> 0 < degree -> Forall P data ->
  exists means cards res,
    reduce_dba N Sp c data = Ok (means, cards) /\
    par_reduce_dba N Sp c data degree = Ok (res, cards) /\
    length res = length c /\
    forall i ci, nth_error c i = Some ci ->
      nth i res None = if 0 <? nth i cards 0 then nth i means None else Some ci.
Proof.
  intros Hc Hd HP. destruct (par_reduce_dba_aggregate c data degree Hc Hd HP) as (r & -> & R1 & R2 & R3).
  destruct (build_result_ok c r R1 R2) as (res & -> & L1 & L2).
  destruct (reduce_dba_result N Sp c data Hc Hm) as (means & cards & Hred & M1 & M2 & M3).
  assert (fst r = means).
  { apply (nth_ext _ _ None None); [congruence|]. intros i Hi. rewrite R1 in Hi.
    destruct (R3 i Hi) as [-> _], (M3 i Hi) as [-> _]. reflexivity. }
  assert (snd r = cards).
  { apply (nth_ext _ _ 0 0); [congruence|]. intros i Hi. rewrite R2 in Hi.
    destruct (R3 i Hi) as [_ ->], (M3 i Hi) as [_ ->]. reflexivity. }
  subst. exists (fst r), (snd r), res. auto.
Qed.

Lemma labelled_Forall {X} (Q : X -> Prop) labels i xs : Forall Q xs -> Forall Q (labelled i labels xs).
Proof.
  intros H. apply Forall_forall. intros x Hx. unfold labelled in Hx. apply in_map_iff in Hx.
  destruct Hx as ([l y] & <- & Hy). apply filter_In in Hy. destruct Hy as [Hy _].
  apply in_combine_r in Hy. rewrite Forall_forall in H. apply H. exact Hy.
Qed.

Lemma par_dba_for_labels_eq (c data : list E) labels degree :
  0 < degree -> length labels = length data -> (forall l, In l labels -> in_range (length c) l) ->
  Forall P data ->
  par_dba_for_labels Sp c data labels degree = reduce_dba_for_labels Sp c data labels.
Proof.
  intros Hd Hl Hr HP.
  destruct (par_parts2 data labels degree (fun part plabels => reduce_dba_for_labels Sp c part plabels) Hd Hl)
    as (chunks & Hcomb & Hcat & Hlens & Hlen & Heq).
  assert (Hpar : par_dba_for_labels Sp c data labels degree
          = obind (omap (fun p => reduce_dba_for_labels Sp c (fst p) (snd p)) chunks) (dba_aggregate Sp)).
  { rewrite <- Heq. unfold par_dba_for_labels. destruct (par_ranges (slen data) degree); reflexivity. }
  rewrite Hpar. clear Hpar Heq.
  assert (Hlab : concat (map snd chunks) = labels).
  { assert (H1 : map fst (concat (map (fun p : list E * list Z => combine (snd p) (fst p)) chunks)) = concat (map snd chunks)).
    { clear -Hlens. induction Hlens as [|[x l] ps H _ IH]; cbn; [reflexivity|]. cbn in H.
      rewrite map_app, IH. f_equal. clear -H. revert x H. induction l as [|a l IH]; intros [|b x] H; cbn in *; try discriminate; auto.
      f_equal. apply IH. lia. }
    rewrite <- H1, Hcomb. clear -Hl. revert data Hl. induction labels as [|a l IH]; intros [|b x] H; cbn in *; try discriminate; auto.
    f_equal. apply IH. lia. }
  assert (Hrange : forall p, In p chunks -> forall i l, nth_error (snd p) i = Some l -> (i < length (fst p))%nat -> in_range (length c) l).
  { intros p Hp i l Hi _. apply Hr. rewrite <- Hlab. apply in_concat. exists (snd p). split.
    - apply in_map. exact Hp.
    - apply (nth_error_In _ i). exact Hi. }
  assert (Hle : forall p, In p chunks -> (length (fst p) <= length (snd p))%nat).
  { intros p Hp. rewrite Forall_forall in Hlens. rewrite (Hlens p Hp). lia. }
  destruct (omap_total (fun p => reduce_dba_for_labels Sp c (fst p) (snd p)) chunks) as [parts Hparts].
  { intros p Hp. destruct (reduce_dba_for_labels_result Sp c (fst p) (snd p) (Hle p Hp) (Hrange p Hp)) as (l & k & H & _). eauto. }
  rewrite Hparts. cbn [obind]. apply omap_ok_inv in Hparts.
  destruct (dba_aggregate_ok (length c) (map (fun p i => labelled i (snd p) (fst p)) chunks) parts) as (r & -> & Hr').
  - intros ->. inversion Hparts; subst. cbn in Hd. lia.
  - clear -Hparts Hle Hrange. induction Hparts as [|ch p chs ps H _ IH]; cbn [map]; constructor.
    + destruct (reduce_dba_for_labels_result Sp c (fst ch) (snd ch)) as (l & k & H' & L1 & L2 & L3).
      * apply Hle; left; reflexivity.
      * apply Hrange; left; reflexivity.
      * rewrite H in H'. injection H' as ->. unfold holds_dba. cbn [fst snd]. auto.
    + apply IH; intros q Hq; [apply Hrange|apply Hle]; right; exact Hq.
  - intros f Hf i. apply in_map_iff in Hf. destruct Hf as (ch & <- & Hch). apply labelled_Forall.
    apply Forall_forall. intros x Hx. rewrite Forall_forall in HP. apply HP. rewrite <- Hcat.
    apply in_concat. exists (fst ch). split; [apply in_map; exact Hch|exact Hx].
  - destruct (reduce_dba_for_labels_result Sp c data labels) as (means & cards & -> & M1 & M2 & M3).
    { lia. }
    { intros i l Hi _. apply Hr. apply (nth_error_In _ i). exact Hi. }
    destruct r as [dbas cs]. destruct Hr' as (R1 & R2 & R3). cbn [fst snd] in *. f_equal. f_equal.
    + apply (nth_ext _ _ None None); [congruence|]. intros i Hi. rewrite R1 in Hi.
      destruct (R3 i Hi) as [-> _], (M3 i Hi) as [-> _].
      rewrite map_map, <- labelled_concat, Hlab, Hcat by assumption. reflexivity.
    + apply (nth_ext _ _ 0 0); [congruence|]. intros i Hi. rewrite R2 in Hi.
      destruct (R3 i Hi) as [_ ->], (M3 i Hi) as [_ ->].
      rewrite map_map, <- labelled_concat, Hlab, Hcat by assumption. reflexivity.
Qed.
End ParDBA.
