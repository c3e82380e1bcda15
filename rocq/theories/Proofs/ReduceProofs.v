(** Proofs about ReduceDBA, ReduceLoss and their label-based variants. *)
From Coq Require Import List ZArith Lia Bool.
From Verif Require Import Base.Go Base.Num Model.Clustering Spec.ClusterSpec
  Proofs.GoLemmas Proofs.NumLaws Proofs.NearestProofs.
Import ListNotations.

(** ** A pair of parallel arrays updated at the label of each element *)
Section TwoArrays.
Context {A B X : Type} (slot : A * B -> X -> A * B) (da : A) (db : B).

Definition arr_step (st : list A * list B) (lx : Z * X) : list A * list B :=
  let i := Z.to_nat (fst lx) in
  let s := slot (nth i (fst st) da, nth i (snd st) db) (snd lx) in
  (upd (fst st) i (fst s), upd (snd st) i (snd s)).

Definition in_range (k : nat) (l : Z) : Prop := (0 <= l < Z.of_nat k)%Z.

Definition of_label (i : nat) (lxs : list (Z * X)) : list X :=
  map snd (filter (fun lx => Z.eqb (fst lx) (Z.of_nat i)) lxs).

Lemma arr_fold k lxs : forall a b,
  length a = k -> length b = k -> Forall (fun lx => in_range k (fst lx)) lxs ->
  length (fst (fold_left arr_step lxs (a, b))) = k /\
  length (snd (fold_left arr_step lxs (a, b))) = k /\
  forall i, i < k ->
    (nth i (fst (fold_left arr_step lxs (a, b))) da, nth i (snd (fold_left arr_step lxs (a, b))) db)
    = fold_left slot (of_label i lxs) (nth i a da, nth i b db).
Proof.
  induction lxs as [|[l x] lxs IH]; intros a b Ha Hb HF; simpl.
  - auto.
  - inversion HF as [|? ? Hl HF']; subst. simpl in Hl.
    destruct (IH (upd a (Z.to_nat l) (fst (slot (nth (Z.to_nat l) a da, nth (Z.to_nat l) b db) x)))
                 (upd b (Z.to_nat l) (snd (slot (nth (Z.to_nat l) a da, nth (Z.to_nat l) b db) x))))
      as (H1 & H2 & H3); [rewrite upd_length; reflexivity|rewrite upd_length; assumption|assumption|].
    split; [exact H1|split; [exact H2|]].
    intros i Hi. etransitivity; [exact (H3 i Hi)|]. unfold of_label; simpl.
    unfold in_range in Hl.
    destruct (Z.eqb_spec l (Z.of_nat i)) as [->|Hne]; simpl.
    + rewrite Nat2Z.id, !nth_upd_eq by lia. f_equal. rewrite <- surjective_pairing. reflexivity.
    + rewrite !nth_upd_neq by lia. reflexivity.
Qed.
End TwoArrays.


Lemma of_label_map {X} (lab : X -> Z) i xs :
  of_label i (map (fun x => (lab x, x)) xs) = members lab i xs.
Proof.
  unfold of_label, members. induction xs as [|x xs IH]; simpl; [reflexivity|].
  destruct (Z.eqb (lab x) (Z.of_nat i)); simpl; rewrite IH; reflexivity.
Qed.

Lemma of_label_combine {X} i labels (xs : list X) :
  of_label i (combine labels xs) = labelled i labels xs.
Proof. reflexivity. Qed.

(** ** DBA *)
Section DBA.
Context {E F : Type} (N : Num F) (Sp : Space E F).

Definition dba_slot (s : option E * Z) (x : E) : option E * Z :=
  if Z.eqb (snd s) 0 then (Some (scopy Sp x), 1%Z)
  else match fst s with
       | None => s
       | Some m => (Some (scombine Sp m (snd s) x 1), (snd s + 1)%Z)
       end.

Definition dba_wf (st : list (option E) * list Z) : Prop :=
  length (fst st) = length (snd st) /\
  forall i, i < length (snd st) ->
    (0 <= nth i (snd st) 0)%Z /\ (nth i (snd st) 0%Z <> 0%Z -> nth i (fst st) None <> None).

Lemma dba_add_ok l x st :
  dba_wf st -> in_range (length (snd st)) l ->
  dba_add Sp l x st = Ok (arr_step dba_slot None 0%Z st (l, x)) /\
  dba_wf (arr_step dba_slot None 0%Z st (l, x)) /\
  length (snd (arr_step dba_slot None 0%Z st (l, x))) = length (snd st).
Proof.
  destruct st as [means cards]. unfold dba_wf, in_range. simpl. intros [Hlen Hwf] Hl.
  assert (Hi : Z.to_nat l < length cards) by lia.
  rewrite <- (Z2Nat.id l) by lia. set (i := Z.to_nat l) in *. clearbody i.
  destruct (Hwf i Hi) as [Hpos Hsome].
  unfold dba_add, arr_step; simpl. rewrite Nat2Z.id.
  rewrite (sget_nth cards i 0%Z Hi). simpl. unfold dba_slot; simpl.
  destruct (Z.eqb_spec (nth i cards 0%Z) 0) as [Hz|Hnz].
  - rewrite sset_nat by lia. simpl. rewrite sset_nat by lia. simpl.
    split; [reflexivity|]. rewrite !upd_length. split; [|reflexivity].
    split; [assumption|]. intros j Hj. rewrite !nth_upd.
    destruct (Nat.eqb_spec j i) as [->|Hne]; simpl.
    + destruct (Nat.ltb_spec i (length cards)); [|lia]. destruct (Nat.ltb_spec i (length means)); [|lia].
      split; [lia|discriminate].
    + apply Hwf; assumption.
  - rewrite (sget_nth means i None) by lia. simpl.
    specialize (Hsome Hnz). destruct (nth i means None) as [m|] eqn:Hm; [|contradiction].
    rewrite sset_nat by lia. simpl. rewrite sset_nat by lia. simpl.
    split; [reflexivity|]. rewrite !upd_length. split; [|reflexivity].
    split; [assumption|]. intros j Hj. rewrite !nth_upd.
    destruct (Nat.eqb_spec j i) as [->|Hne]; simpl.
    + destruct (Nat.ltb_spec i (length cards)); [|lia]. destruct (Nat.ltb_spec i (length means)); [|lia].
      split; [lia|discriminate].
    + apply Hwf; assumption.
Qed.

Lemma dba_add_panic l x st :
  length (fst st) = length (snd st) -> ~ in_range (length (snd st)) l -> dba_add Sp l x st = Panic.
Proof.
  destruct st as [means cards]; simpl. intros Hl Hr. unfold dba_add.
  assert (H : sget cards l = Panic) by (apply sget_panic; unfold in_range, slen in *; lia).
  rewrite H. reflexivity.
Qed.

Definition dba_proc (lxs : list (Z * E)) (st : list (option E) * list Z) :=
  ofold (fun st lx => dba_add Sp (fst lx) (snd lx) st) lxs st.

Lemma dba_proc_ok lxs : forall st,
  dba_wf st -> Forall (fun lx => in_range (length (snd st)) (fst lx)) lxs ->
  dba_proc lxs st = Ok (fold_left (arr_step dba_slot None 0%Z) lxs st).
Proof.
  induction lxs as [|[l x] lxs IH]; intros st Hwf HF; simpl; [reflexivity|].
  inversion HF as [|? ? Hl HF']; subst; simpl in Hl. unfold dba_proc in *; simpl.
  destruct (dba_add_ok l x st Hwf Hl) as (-> & Hwf' & Hlen). simpl.
  apply IH; [exact Hwf'|]. rewrite Hlen. exact HF'.
Qed.

Lemma dba_proc_panic lxs : forall st,
  dba_wf st -> ~ Forall (fun lx => in_range (length (snd st)) (fst lx)) lxs ->
  dba_proc lxs st = Panic.
Proof.
  induction lxs as [|[l x] lxs IH]; intros st Hwf HF; simpl; [exfalso; apply HF; constructor|].
  unfold dba_proc in *; simpl.
  destruct (Z_le_dec 0 l) as [H0|H0]; [destruct (Z_lt_dec l (Z.of_nat (length (snd st)))) as [H1|H1]|].
  - assert (Hl : in_range (length (snd st)) l) by (split; assumption).
    destruct (dba_add_ok l x st Hwf Hl) as (-> & Hwf' & Hlen). simpl.
    apply IH; [exact Hwf'|]. rewrite Hlen. intros HF'. apply HF. constructor; assumption.
  - rewrite dba_add_panic; [reflexivity|apply Hwf|unfold in_range; lia].
  - rewrite dba_add_panic; [reflexivity|apply Hwf|unfold in_range; lia].
Qed.

Lemma dba_wf_init k : dba_wf (repeat None k, repeat 0%Z k).
Proof.
  split; simpl; [rewrite !repeat_length; reflexivity|].
  intros i Hi. rewrite nth_repeat. split; [lia|]. intros H; contradiction H; reflexivity.
Qed.

(** Running average of a slot = DBA of the elements that entered it. *)
Lemma dba_slot_fold_cons xs : forall m n,
  (0 < n)%Z ->
  fold_left dba_slot xs (Some m, n) =
  (Some (fst (fold_left (fun '(m, w) y => (scombine Sp m w y 1, (w + 1)%Z)) xs (m, n))),
   (n + Z.of_nat (length xs))%Z).
Proof.
  induction xs as [|x xs IH]; intros m n Hn; cbn [fold_left length].
  - simpl. f_equal. lia.
  - unfold dba_slot at 2; cbn [fst snd]. destruct (Z.eqb_spec n 0); [lia|].
    rewrite IH by lia. f_equal. lia.
Qed.

Lemma dba_slot_fold xs :
  fold_left dba_slot xs (None, 0%Z) = (dba Sp xs, Z.of_nat (length xs)).
Proof.
  destruct xs as [|x xs]; cbn [fold_left length dba]; [reflexivity|].
  unfold dba_slot at 2; cbn [fst snd Z.eqb]. rewrite dba_slot_fold_cons by lia. f_equal. lia.
Qed.

Lemma dba_proc_result k lxs :
  Forall (fun lx => in_range k (fst lx)) lxs ->
  exists means cards,
    dba_proc lxs (repeat None k, repeat 0%Z k) = Ok (means, cards) /\
    length means = k /\ length cards = k /\
    forall i, i < k ->
      nth i means None = dba Sp (of_label i lxs) /\
      nth i cards 0%Z = Z.of_nat (length (of_label i lxs)).
Proof.
  intros HF.
  assert (Hw := dba_wf_init k).
  assert (Hp := dba_proc_ok lxs (repeat None k, repeat 0%Z k) Hw).
  simpl in Hp. rewrite repeat_length in Hp. specialize (Hp HF).
  destruct (arr_fold dba_slot None 0%Z k lxs (repeat None k) (repeat 0%Z k)) as (H1 & H2 & H3);
    [apply repeat_length|apply repeat_length|exact HF|].
  destruct (fold_left (arr_step dba_slot None 0%Z) lxs (repeat None k, repeat 0%Z k))
    as [means cards] eqn:Hf.
  exists means, cards. simpl in *. split; [exact Hp|]. split; [exact H1|split; [exact H2|]].
  intros i Hi. specialize (H3 i Hi). rewrite !nth_repeat, dba_slot_fold in H3.
  injection H3 as <- <-. auto.
Qed.

(** ReduceDBA as a labelled loop *)
Lemma reduce_dba_proc (c xs : list E) :
  c <> [] -> nltb N (nof N (-1)) (nof N 0) = true ->
  reduce_dba N Sp c xs =
  dba_proc (map (fun x => (fst (nearest N Sp c x), x)) xs) (repeat None (length c), repeat 0%Z (length c)).
Proof.
  intros Hc Hm. unfold reduce_dba, dba_proc. generalize (repeat (@None E) (length c), repeat 0%Z (length c)).
  induction xs as [|x xs IH]; intros st; cbn [map ofold]; [reflexivity|].
  destruct (nearest_valid N Sp c x Hm Hc) as (l & cl & Hn & Hl).
  rewrite (assign_nearest N Sp c x l cl Hn Hl). cbn [obind fst snd].
  rewrite Hn. cbn [fst]. destruct (dba_add Sp (Z.of_nat l) x st); cbn [obind]; [apply IH|reflexivity].
Qed.

Lemma nearest_in_range (c : list E) x :
  c <> [] -> nltb N (nof N (-1)) (nof N 0) = true ->
  in_range (length c) (fst (nearest N Sp c x)).
Proof.
  intros Hc Hm. destruct (nearest_valid N Sp c x Hm Hc) as (l & cl & -> & Hl). simpl.
  assert (l < length c) by (apply nth_error_Some; congruence). unfold in_range; lia.
Qed.

Lemma labelled_in_range (c : list E) xs :
  c <> [] -> nltb N (nof N (-1)) (nof N 0) = true ->
  Forall (fun lx => in_range (length c) (fst lx)) (map (fun x => (fst (nearest N Sp c x), x)) xs).
Proof.
  intros Hc Hm. apply Forall_forall. intros [l x] Hin. apply in_map_iff in Hin.
  destruct Hin as (y & [= <- <-] & _). simpl. apply nearest_in_range; assumption.
Qed.

Lemma reduce_dba_result (c xs : list E) :
  c <> [] -> nltb N (nof N (-1)) (nof N 0) = true ->
  exists means cards,
    reduce_dba N Sp c xs = Ok (means, cards) /\
    length means = length c /\ length cards = length c /\
    forall i, i < length c ->
      let mine := members (fun x => fst (nearest N Sp c x)) i xs in
      nth i means None = dba Sp mine /\ nth i cards 0%Z = Z.of_nat (length mine).
Proof.
  intros Hc Hm. rewrite reduce_dba_proc by assumption.
  destruct (dba_proc_result (length c) _ (labelled_in_range c xs Hc Hm)) as (means & cards & H & H1 & H2 & H3).
  exists means, cards. split; [exact H|split; [exact H1|split; [exact H2|]]].
  intros i Hi. specialize (H3 i Hi). rewrite of_label_map in H3. exact H3.
Qed.

Lemma reduce_dba_no_centroid (xs : list E) :
  nltb N (nof N (-1)) (nof N 0) = true ->
  reduce_dba N Sp [] xs = match xs with [] => Ok ([], []) | _ => Panic end.
Proof. intros Hm. destruct xs; reflexivity. Qed.

(** ReduceDBAForLabels as a labelled loop *)
Lemma dba_for_labels_aux labels xs : forall n st,
  n + length xs <= length labels ->
  obind (ofold (fun st elemt =>
             let '(i, means, cards) := st in
             let* label := sget labels i in
             let* r := dba_add Sp label elemt (means, cards) in
             let '(means, cards) := r in
             Ok ((i + 1)%Z, means, cards)) xs (Z.of_nat n, fst st, snd st))
        (fun r => let '(_, means, cards) := r in Ok (means, cards))
  = dba_proc (combine (skipn n labels) xs) st.
Proof.
  unfold dba_proc.
  induction xs as [|x xs IH]; intros n [means cards] Hn.
  - destruct (skipn n labels); reflexivity.
  - cbn [ofold fst snd length] in *.
    assert (Hlt : n < length labels) by lia.
    rewrite (sget_nth labels n 0%Z Hlt). cbn [obind].
    pose proof (skipn_nth labels n 0%Z Hlt) as Hsk.
    rewrite Hsk. cbn [combine ofold fst snd].
    destruct (dba_add Sp (nth n labels 0%Z) x (means, cards)) as [[means' cards']|]; cbn [obind];
      [|reflexivity].
    replace (Z.of_nat n + 1)%Z with (Z.of_nat (S n)) by lia.
    apply (IH (S n) (means', cards')). lia.
Qed.

Lemma reduce_dba_for_labels_proc (c xs : list E) labels :
  length xs <= length labels ->
  reduce_dba_for_labels Sp c xs labels =
  dba_proc (combine labels xs) (repeat None (length c), repeat 0%Z (length c)).
Proof.
  intros H. unfold reduce_dba_for_labels.
  apply (dba_for_labels_aux labels xs 0 (repeat None (length c), repeat 0%Z (length c))).
  simpl; lia.
Qed.

Lemma ofold_labels_short labels xs : forall n means cards,
  length labels < n + length xs -> n <= length labels ->
  ofold (fun st elemt =>
             let '(i, means, cards) := st in
             let* label := sget labels i in
             let* r := dba_add Sp label elemt (means, cards) in
             let '(means, cards) := r in
             Ok ((i + 1)%Z, means, cards)) xs (Z.of_nat n, means, cards) = Panic.
Proof.
  induction xs as [|x xs IH]; intros n means cards Hn Hle; cbn [ofold length] in *; [lia|].
  rewrite sget_nat. destruct (nth_error labels n) as [l|] eqn:Hl; cbn [obind]; [|reflexivity].
  assert (n < length labels) by (apply nth_error_Some; congruence).
  destruct (dba_add Sp l x (means, cards)) as [[m' c']|]; cbn [obind]; [|reflexivity].
  replace (Z.of_nat n + 1)%Z with (Z.of_nat (S n)) by lia. apply IH; lia.
Qed.

Lemma reduce_dba_for_labels_short (c xs : list E) labels :
  length labels < length xs -> reduce_dba_for_labels Sp c xs labels = Panic.
Proof.
  intros H. unfold reduce_dba_for_labels.
  rewrite (ofold_labels_short labels xs 0) by lia. reflexivity.
Qed.

Lemma reduce_dba_for_labels_result (c xs : list E) labels :
  length xs <= length labels ->
  (forall i l, nth_error labels i = Some l -> i < length xs -> in_range (length c) l) ->
  exists means cards,
    reduce_dba_for_labels Sp c xs labels = Ok (means, cards) /\
    length means = length c /\ length cards = length c /\
    forall i, i < length c ->
      let mine := labelled i labels xs in
      nth i means None = dba Sp mine /\ nth i cards 0%Z = Z.of_nat (length mine).
Proof.
  intros Hl Hr. rewrite reduce_dba_for_labels_proc by assumption.
  apply (dba_proc_result (length c) (combine labels xs)).
  clear -Hr. revert xs Hr. induction labels as [|l labels IH]; intros [|x xs] Hr; simpl; try constructor.
  - simpl. apply (Hr 0); simpl; [reflexivity|lia].
  - apply IH. intros i l' Hi Hlt. apply (Hr (S i)); simpl; [exact Hi|lia].
Qed.

Lemma combine_map_self {X Y} (f : X -> Y) xs : combine (map f xs) xs = map (fun x => (f x, x)) xs.
Proof. induction xs as [|x xs IH]; simpl; [reflexivity|rewrite IH; reflexivity]. Qed.

Lemma reduce_dba_for_map_labels (c xs : list E) :
  nltb N (nof N (-1)) (nof N 0) = true ->
  reduce_dba_for_labels Sp c xs (fst (map_label N Sp c xs)) = reduce_dba N Sp c xs.
Proof.
  intros Hm. unfold map_label; cbn [fst].
  rewrite reduce_dba_for_labels_proc by (rewrite map_length; lia).
  destruct c as [|c0 c].
  - destruct xs; reflexivity.
  - rewrite reduce_dba_proc by (try assumption; discriminate).
    rewrite combine_map_self. reflexivity.
Qed.

(** Total cardinality *)
Lemma zsum_members_aux {X} (lxs : list (Z * X)) k :
  Forall (fun lx => in_range k (fst lx)) lxs ->
  zsum (map (fun i => Z.of_nat (length (of_label i lxs))) (seq 0 k)) = Z.of_nat (length lxs).
Proof.
  induction lxs as [|[l x] lxs IH]; intros HF.
  - simpl. unfold zsum. induction (seq 0 k); simpl; auto.
  - inversion HF as [|? ? Hl HF']; subst. simpl in Hl. specialize (IH HF').
    cbn [length]. rewrite Nat2Z.inj_succ, <- IH. clear IH HF HF'.
    unfold in_range in Hl.
    assert (Hs : forall s n, (Z.of_nat s <= l < Z.of_nat (s + n))%Z ->
      zsum (map (fun i => Z.of_nat (length (of_label i ((l, x) :: lxs)))) (seq s n)) =
      (zsum (map (fun i => Z.of_nat (length (of_label i lxs))) (seq s n)) + 1)%Z).
    { intros s n. revert s. induction n as [|n IHn]; intros s Hr; [lia|].
      cbn [seq map zsum fold_right]. unfold of_label at 1. cbn [filter fst].
      destruct (Z.eqb_spec l (Z.of_nat s)) as [He|Hne].
      - cbn [map length].
        assert (Ho : forall s' n', s < s' ->
          zsum (map (fun i => Z.of_nat (length (of_label i ((l, x) :: lxs)))) (seq s' n')) =
          zsum (map (fun i => Z.of_nat (length (of_label i lxs))) (seq s' n'))).
        { intros s' n'. revert s'. induction n' as [|n' IHn']; intros s' Hlt; [reflexivity|].
          cbn [seq map zsum fold_right]. unfold zsum in IHn'. rewrite IHn' by lia.
          unfold of_label at 1. cbn [filter fst]. destruct (Z.eqb_spec l (Z.of_nat s')); [lia|reflexivity]. }
        unfold zsum in Ho. rewrite Ho by lia. unfold of_label. lia.
      - unfold zsum in IHn. rewrite IHn by lia. unfold of_label. lia. }
    rewrite Hs by lia. lia.
Qed.

Lemma list_as_map_nth {A} (l : list A) d : l = map (fun i => nth i l d) (seq 0 (length l)).
Proof.
  apply list_ext.
  - rewrite map_length, seq_length; reflexivity.
  - intros i Hi. rewrite (nth_error_nth' l d Hi). symmetry.
    rewrite nth_error_map, (nth_error_nth' _ 0) by (rewrite seq_length; assumption).
    rewrite seq_nth by assumption. reflexivity.
Qed.

Lemma map_seq_ext {A} (f g : nat -> A) s n :
  (forall i, s <= i < s + n -> f i = g i) -> map f (seq s n) = map g (seq s n).
Proof. intros H. apply map_ext_in. intros i Hi. apply in_seq in Hi. auto. Qed.

Lemma reduce_dba_total (c xs : list E) means cards :
  c <> [] -> nltb N (nof N (-1)) (nof N 0) = true ->
  reduce_dba N Sp c xs = Ok (means, cards) -> zsum cards = Z.of_nat (length xs).
Proof.
  intros Hc Hm H. destruct (reduce_dba_result c xs Hc Hm) as (m' & c' & H' & Hl1 & Hl2 & Hr).
  rewrite H in H'. injection H' as <- <-.
  rewrite (list_as_map_nth cards 0%Z), Hl2.
  rewrite (map_seq_ext _ (fun i => Z.of_nat (length (of_label i (map (fun x => (fst (nearest N Sp c x), x)) xs))))).
  - rewrite zsum_members_aux by (apply labelled_in_range; assumption). rewrite map_length. reflexivity.
  - intros i Hi. rewrite of_label_map. apply Hr. lia.
Qed.

End DBA.

(** ** Losses *)
Section Loss.
Context {E F : Type} (N : Num F) (Sp : Space E F) (pow : F -> F -> F).

(** Loss of a list of distances: left-to-right sum of dist^norm starting from 0. *)
Definition loss_slot (norm : F) (s : F * Z) (d : F) : F * Z :=
  (nadd N (fst s) (pow d norm), (snd s + 1)%Z).

Lemma loss_add_ok norm l d losses cards :
  length losses = length cards -> in_range (length cards) l ->
  loss_add N pow norm l d (losses, cards) =
  Ok (arr_step (loss_slot norm) (nof N 0) 0%Z (losses, cards) (l, d)).
Proof.
  intros Hlen Hl. unfold in_range in Hl.
  assert (Hi : Z.to_nat l < length cards) by lia.
  rewrite <- (Z2Nat.id l) by lia. set (i := Z.to_nat l) in *. clearbody i.
  unfold loss_add, arr_step, loss_slot; cbn [fst snd]. rewrite Nat2Z.id.
  rewrite (sget_nth cards i 0%Z Hi). cbn [obind]. rewrite sset_nat by lia. cbn [obind].
  rewrite (sget_nth losses i (nof N 0)) by lia. cbn [obind]. rewrite sset_nat by lia. reflexivity.
Qed.

Lemma loss_add_panic norm l d losses cards :
  ~ in_range (length cards) l -> loss_add N pow norm l d (losses, cards) = Panic.
Proof.
  intros Hr. unfold loss_add.
  assert (H : sget cards l = Panic) by (apply sget_panic; unfold in_range, slen in *; lia).
  rewrite H. reflexivity.
Qed.

Definition loss_proc norm (lds : list (Z * F)) st :=
  ofold (fun st ld => loss_add N pow norm (fst ld) (snd ld) st) lds st.

Lemma loss_proc_ok norm lds : forall losses cards,
  length losses = length cards -> Forall (fun ld => in_range (length cards) (fst ld)) lds ->
  loss_proc norm lds (losses, cards) =
  Ok (fold_left (arr_step (loss_slot norm) (nof N 0) 0%Z) lds (losses, cards)).
Proof.
  induction lds as [|[l d] lds IH]; intros losses cards Hlen HF; [reflexivity|].
  inversion HF as [|? ? Hl HF']; subst; cbn [fst] in Hl.
  unfold loss_proc in *. cbn [ofold fst snd]. rewrite loss_add_ok by assumption. cbn [obind].
  unfold arr_step at 1; cbn [fst snd]. rewrite IH.
  - reflexivity.
  - rewrite !upd_length; assumption.
  - rewrite upd_length; assumption.
Qed.

(** Sum of dist^norm, left to right from 0. *)
Definition loss_of (norm : F) (ds : list F) : F :=
  fold_left (fun acc d => nadd N acc (pow d norm)) ds (nof N 0).

Lemma loss_slot_fold norm ds : forall a n,
  fold_left (loss_slot norm) ds (a, n) =
  (fold_left (fun acc d => nadd N acc (pow d norm)) ds a, (n + Z.of_nat (length ds))%Z).
Proof.
  induction ds as [|d ds IH]; intros a n; cbn [fold_left length].
  - f_equal; lia.
  - unfold loss_slot at 2; cbn [fst snd]. rewrite IH. f_equal. lia.
Qed.

Lemma loss_proc_result norm k lds :
  Forall (fun ld => in_range k (fst ld)) lds ->
  exists losses cards,
    loss_proc norm lds (repeat (nof N 0) k, repeat 0%Z k) = Ok (losses, cards) /\
    length losses = k /\ length cards = k /\
    forall i, i < k ->
      nth i losses (nof N 0) = loss_of norm (of_label i lds) /\
      nth i cards 0%Z = Z.of_nat (length (of_label i lds)).
Proof.
  intros HF. rewrite loss_proc_ok; [|rewrite !repeat_length; reflexivity|rewrite repeat_length; exact HF].
  destruct (arr_fold (loss_slot norm) (nof N 0) 0%Z k lds (repeat (nof N 0) k) (repeat 0%Z k))
    as (H1 & H2 & H3); [apply repeat_length|apply repeat_length|exact HF|].
  destruct (fold_left (arr_step (loss_slot norm) (nof N 0) 0%Z) lds (repeat (nof N 0) k, repeat 0%Z k))
    as [losses cards].
  exists losses, cards. cbn [fst snd] in *. split; [reflexivity|]. split; [exact H1|split; [exact H2|]].
  intros i Hi. specialize (H3 i Hi). rewrite !nth_repeat, loss_slot_fold in H3.
  injection H3 as -> ->. split; [reflexivity|lia].
Qed.

Lemma of_label_dists (lab : E -> Z) (f : E -> F) i xs :
  of_label i (map (fun x => (lab x, f x)) xs) = map f (members lab i xs).
Proof.
  unfold of_label, members. induction xs as [|x xs IH]; simpl; [reflexivity|].
  destruct (Z.eqb (lab x) (Z.of_nat i)); simpl; rewrite IH; reflexivity.
Qed.

Lemma reduce_loss_proc (c xs : list E) norm :
  reduce_loss N Sp pow c xs norm =
  loss_proc norm (map (fun x => (fst (nearest N Sp c x), snd (nearest N Sp c x))) xs)
    (repeat (nof N 0) (length c), repeat 0%Z (length c)).
Proof.
  unfold reduce_loss, loss_proc. generalize (repeat (nof N 0) (length c), repeat 0%Z (length c)).
  induction xs as [|x xs IH]; intros st; cbn [map ofold]; [reflexivity|].
  destruct (nearest N Sp c x) as [l d]; cbn [fst snd].
  destruct (loss_add N pow norm l d st); cbn [obind]; [apply IH|reflexivity].
Qed.

Lemma reduce_loss_result (c xs : list E) norm :
  c <> [] -> nltb N (nof N (-1)) (nof N 0) = true ->
  exists losses cards,
    reduce_loss N Sp pow c xs norm = Ok (losses, cards) /\
    length losses = length c /\ length cards = length c /\
    forall i, i < length c ->
      let mine := members (fun x => fst (nearest N Sp c x)) i xs in
      nth i losses (nof N 0) = loss_of norm (map (fun x => snd (nearest N Sp c x)) mine) /\
      nth i cards 0%Z = Z.of_nat (length mine).
Proof.
  intros Hc Hm. rewrite reduce_loss_proc.
  destruct (loss_proc_result norm (length c)
    (map (fun x => (fst (nearest N Sp c x), snd (nearest N Sp c x))) xs)) as (losses & cards & H & H1 & H2 & H3).
  - apply Forall_forall. intros [l d] Hin. apply in_map_iff in Hin.
    destruct Hin as (y & [= <- <-] & _). cbn [fst]. apply nearest_in_range; assumption.
  - exists losses, cards. split; [exact H|split; [exact H1|split; [exact H2|]]].
    intros i Hi. specialize (H3 i Hi). rewrite of_label_dists, map_length in H3. exact H3.
Qed.

(** ReduceLossForLabels *)
Lemma loss_for_labels_aux (c : list E) norm labels xs : forall n st,
  n + length xs <= length labels ->
  (forall i l, nth_error labels i = Some l -> i < n + length xs -> in_range (length c) l) ->
  forall d0,
  obind (ofold (fun st elemt =>
             let '(i, losses, cards) := st in
             let* label := sget labels i in
             let* centroid := sget c label in
             let* r := loss_add N pow norm label (sdist Sp elemt centroid) (losses, cards) in
             let '(losses, cards) := r in
             Ok ((i + 1)%Z, losses, cards)) xs (Z.of_nat n, fst st, snd st))
        (fun r => let '(_, losses, cards) := r in Ok (losses, cards))
  = loss_proc norm (map (fun lx => (fst lx, sdist Sp (snd lx) (nth (Z.to_nat (fst lx)) c d0)))
                        (combine (skipn n labels) xs)) st.
Proof.
  unfold loss_proc.
  induction xs as [|x xs IH]; intros n [losses cards] Hn Hr d0.
  - destruct (skipn n labels); reflexivity.
  - cbn [ofold fst snd length] in *.
    assert (Hlt : n < length labels) by lia.
    rewrite (sget_nth labels n 0%Z Hlt). cbn [obind].
    pose proof (skipn_nth labels n 0%Z Hlt) as Hsk.
    rewrite Hsk. cbn [combine map ofold fst snd].
    assert (Hin : in_range (length c) (nth n labels 0%Z)).
    { apply (Hr n); [apply nth_error_nth'; assumption|lia]. }
    unfold in_range in Hin.
    assert (Hg : sget c (nth n labels 0%Z) = Ok (nth (Z.to_nat (nth n labels 0%Z)) c d0)).
    { rewrite <- (Z2Nat.id (nth n labels 0%Z)) at 1 by lia. apply sget_nth. lia. }
    rewrite Hg. cbn [obind].
    destruct (loss_add N pow norm (nth n labels 0%Z) _ (losses, cards)) as [[l' c']|]; cbn [obind];
      [|reflexivity].
    replace (Z.of_nat n + 1)%Z with (Z.of_nat (S n)) by lia.
    apply (IH (S n) (l', c')); [lia|]. intros i l Hi Hlt'. apply (Hr i l Hi). lia.
Qed.

Lemma reduce_loss_for_labels_proc (c xs : list E) labels norm d0 :
  length xs <= length labels ->
  (forall i l, nth_error labels i = Some l -> i < length xs -> in_range (length c) l) ->
  reduce_loss_for_labels N Sp pow c xs labels norm =
  loss_proc norm (map (fun lx => (fst lx, sdist Sp (snd lx) (nth (Z.to_nat (fst lx)) c d0)))
                        (combine labels xs)) (repeat (nof N 0) (length c), repeat 0%Z (length c)).
Proof.
  intros H Hr. unfold reduce_loss_for_labels.
  apply (loss_for_labels_aux c norm labels xs 0 (repeat (nof N 0) (length c), repeat 0%Z (length c)));
    [simpl; lia|exact Hr].
Qed.

Lemma combine_in_range k labels (xs : list E) :
  (forall i l, nth_error labels i = Some l -> i < length xs -> in_range k l) ->
  Forall (fun lx => in_range k (fst lx)) (combine labels xs).
Proof.
  revert xs. induction labels as [|l labels IH]; intros [|x xs] Hr; simpl; try constructor.
  - simpl. apply (Hr 0); simpl; [reflexivity|lia].
  - apply IH. intros i l' Hi Hlt. apply (Hr (S i)); simpl; [exact Hi|lia].
Qed.

Lemma reduce_loss_for_labels_result (c xs : list E) labels norm :
  length xs <= length labels ->
  (forall i l, nth_error labels i = Some l -> i < length xs -> in_range (length c) l) ->
  exists losses cards,
    reduce_loss_for_labels N Sp pow c xs labels norm = Ok (losses, cards) /\
    length losses = length c /\ length cards = length c /\
    forall i ci, nth_error c i = Some ci ->
      let mine := labelled i labels xs in
      nth i losses (nof N 0) = loss_of norm (map (fun x => sdist Sp x ci) mine) /\
      nth i cards 0%Z = Z.of_nat (length mine).
Proof.
  intros Hl Hr. destruct c as [|c0 c'] eqn:Hc.
  - (* no centroid: then there is no data *)
    assert (xs = []) as ->.
    { destruct xs as [|x xs]; [reflexivity|exfalso]. simpl in Hl.
      destruct labels as [|l labels]; simpl in Hl; [lia|].
      specialize (Hr 0 l eq_refl ltac:(simpl; lia)). unfold in_range in Hr; simpl in Hr; lia. }
    exists [], []. split; [reflexivity|]. split; [reflexivity|split; [reflexivity|]].
    intros i ci Hi. destruct i; discriminate.
  - rewrite <- Hc in *. rewrite (reduce_loss_for_labels_proc c xs labels norm c0) by assumption.
    destruct (loss_proc_result norm (length c)
      (map (fun lx => (fst lx, sdist Sp (snd lx) (nth (Z.to_nat (fst lx)) c c0))) (combine labels xs)))
      as (losses & cards & H & H1 & H2 & H3).
    + apply Forall_forall. intros [l d] Hin. apply in_map_iff in Hin.
      destruct Hin as ([l' x'] & [= <- <-] & Hin). cbn [fst].
      pose proof (combine_in_range (length c) labels xs Hr) as HF.
      rewrite Forall_forall in HF. apply (HF _ Hin).
    + exists losses, cards. split; [exact H|split; [exact H1|split; [exact H2|]]].
      intros i ci Hi. assert (Hlt : i < length c) by (apply nth_error_Some; congruence).
      specialize (H3 i Hlt).
      assert (Hol : of_label i (map (fun lx => (fst lx, sdist Sp (snd lx) (nth (Z.to_nat (fst lx)) c c0)))
                    (combine labels xs)) = map (fun x => sdist Sp x ci) (labelled i labels xs)).
      { unfold of_label, labelled. clear -Hi. generalize (combine labels xs).
        induction l as [|[l x] ls IH]; simpl; [reflexivity|].
        destruct (Z.eqb_spec l (Z.of_nat i)) as [->|]; simpl; rewrite IH; [|reflexivity].
        rewrite Nat2Z.id. rewrite (nth_error_nth c i c0 Hi). reflexivity. }
      rewrite Hol, map_length in H3. exact H3.
Qed.

Lemma reduce_loss_for_map_labels (c xs : list E) norm :
  nltb N (nof N (-1)) (nof N 0) = true ->
  reduce_loss_for_labels N Sp pow c xs (fst (map_label N Sp c xs)) norm
  = reduce_loss N Sp pow c xs norm.
Proof.
  intros Hm. unfold map_label; cbn [fst].
  destruct c as [|c0 c'] eqn:Hc.
  - destruct xs; reflexivity.
  - rewrite <- Hc in *. assert (Hne : c <> []) by (rewrite Hc; discriminate).
    rewrite (reduce_loss_for_labels_proc c xs _ norm c0).
    + rewrite reduce_loss_proc. f_equal. rewrite combine_map_self, map_map. apply map_ext.
      intros x. cbn [fst snd].
      destruct (nearest_valid N Sp c x Hm Hne) as (l & cl & Hn & Hl). rewrite Hn. cbn [fst snd].
      rewrite Nat2Z.id, (nth_error_nth c l c0 Hl). reflexivity.
    + rewrite map_length; lia.
    + intros i l Hi _. rewrite nth_error_map in Hi. destruct (nth_error xs i) as [x|]; [|discriminate].
      injection Hi as <-. apply nearest_in_range; assumption.
Qed.

End Loss.
