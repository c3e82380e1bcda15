(** Proofs about the data buffer: C26-C29. *)
From Coq Require Import List ZArith Lia Bool.
From Verif Require Import Base.Go Model.Buffer Spec.BufferSpec Proofs.GoLemmas.
Import ListNotations.

Lemma upd_split {A} (l : list A) n a : n < length l -> upd l n a = firstn n l ++ a :: skipn (S n) l.
Proof.
  revert n; induction l as [|b l IH]; intros n H; simpl in H; [lia|].
  destruct n as [|n]; [reflexivity|]. cbn [upd firstn skipn app]. f_equal. apply IH. lia.
Qed.

Lemma last_n_all {A} n (l : list A) : length l <= n -> last_n n l = l.
Proof. intros H. unfold last_n. replace (length l - n) with 0 by lia. reflexivity. Qed.

Lemma last_n_length {A} n (l : list A) : length (last_n n l) = Nat.min n (length l).
Proof. unfold last_n. rewrite skipn_length. lia. Qed.

Lemma last_n_snoc {A} n (l : list A) (x : A) : 0 < n -> n <= length l -> last_n n (l ++ [x]) = tl (last_n n l) ++ [x].
Proof.
  intros Hn H. unfold last_n. rewrite app_length. cbn [length].
  rewrite skipn_app. replace (length l + 1 - n - length l) with 0 by lia. cbn [skipn]. f_equal.
  rewrite (skipn_nth l (length l - n) x) by lia. cbn [tl]. f_equal. lia.
Qed.

Section Store.
Context {E : Type}.

(** The data slice and its strategy represent the sequence [all] of stored elements. *)
Inductive repr (size : Z) (all : list E) : list E -> strategy -> Prop :=
| repr_inf : (size <= 0)%Z -> repr size all all InfiniteSize
| repr_part : (slen all < size)%Z -> repr size all all (FixedSize size (slen all))
| repr_full : forall data pos,
    (0 < size)%Z -> (size <= slen all)%Z -> slen data = size -> (pos <= length data)%nat ->
    (size < slen all)%Z \/ pos = length data ->
    skipn pos data ++ firstn pos data = last_n (Z.to_nat size) all ->
    repr size all data (FixedSize size (Z.of_nat pos)).

Lemma repr_data size all data s : repr size all data s ->
  ((size <= 0)%Z -> data = all) /\
  ((0 < size)%Z -> rotation data (last_n (Z.to_nat size) all) /\ length data = Nat.min (Z.to_nat size) (length all)).
Proof.
  unfold slen. intros [H|H|data' pos H1 H2 H3 H4 H4' H5]; unfold slen in *.
  - split; [auto|lia].
  - split; [lia|]. intros _. split; [|lia]. exists 0. split; [lia|]. cbn [skipn firstn]. rewrite app_nil_r, last_n_all by lia. reflexivity.
  - split; [lia|]. intros _. split; [|lia]. exists pos. auto.
Qed.

Lemma strategy_push_repr size all data s x : repr size all data s ->
  exists s' data', strategy_push s data x = Ok (s', data') /\ repr size (all ++ [x]) data' s'.
Proof.
  intros [H|H|data' pos H1 H2 H3 H4 H4' H5]; unfold strategy_push, slen in *.
  - exists InfiniteSize, (all ++ [x]). split; [reflexivity|]. constructor. exact H.
  - destruct (Z.eqb_spec (Z.of_nat (length all)) size); [lia|].
    destruct (Z.ltb_spec (Z.of_nat (length all)) (Z.of_nat (length all))); [lia|].
    eexists _, _. split; [reflexivity|].
    destruct (Z.ltb_spec (Z.of_nat (length all) + 1) size) as [Hl|Hl].
    + replace (Z.of_nat (length all) + 1)%Z with (slen (all ++ [x])) by (unfold slen; rewrite app_length; cbn [length]; lia).
      constructor. unfold slen. rewrite app_length; cbn [length]. lia.
    + replace (Z.of_nat (length all) + 1)%Z with (Z.of_nat (length (all ++ [x]))) by (rewrite app_length; cbn [length]; lia).
      apply repr_full; unfold slen; rewrite ?app_length; cbn [length]; try lia.
      rewrite skipn_all2, firstn_all2 by (rewrite app_length; cbn [length]; lia). cbn [app].
      rewrite last_n_all by (rewrite app_length; cbn [length]; lia). reflexivity.
  - assert (Hp : exists p, (p < length data')%nat /\
        (if (Z.of_nat pos =? size)%Z then 0%Z else Z.of_nat pos) = Z.of_nat p /\
        skipn p data' ++ firstn p data' = last_n (Z.to_nat size) all).
    { destruct (Z.eqb_spec (Z.of_nat pos) size) as [He|He].
      - exists 0. split; [lia|]. split; [reflexivity|]. rewrite <- H5. cbn [skipn firstn].
        rewrite skipn_all2, firstn_all2 by lia. rewrite app_nil_r. reflexivity.
      - exists pos. split; [lia|]. auto. }
    destruct Hp as (p & Hlt & -> & Hr).
    destruct (Z.ltb_spec (Z.of_nat p) (Z.of_nat (length data'))); [|lia].
    rewrite sset_nat by exact Hlt. cbn [obind].
    eexists _, _. split; [reflexivity|]. replace (Z.of_nat p + 1)%Z with (Z.of_nat (S p)) by lia.
    apply repr_full; unfold slen; rewrite ?upd_length, ?app_length; cbn [length]; try lia.
    rewrite last_n_snoc by lia. rewrite <- Hr. rewrite (skipn_nth data' p x) by exact Hlt.
    cbn [app tl]. rewrite (upd_split data' p x Hlt).
    assert (Hf : length (firstn p data') = p) by (rewrite firstn_length; lia).
    rewrite skipn_app, firstn_app, Hf. replace (S p - p) with 1 by lia.
    rewrite (skipn_all2 (n := S p) (firstn p data')) by lia. rewrite (firstn_all2 (n := S p) (firstn p data')) by lia.
    change (skipn 1 (x :: skipn (S p) data')) with (skipn (S p) data').
    change (firstn 1 (x :: skipn (S p) data')) with [x]. cbn [app]. rewrite <- app_assoc. reflexivity.
Qed.

(** A buffer whose stored elements are [all]. *)
Definition brepr (size : Z) (all : list E) (b : buffer E) : Prop := repr size all (bdata b) (bstrategy b).

Lemma store_repr size all b x : brepr size all b ->
  exists b', store b x = Ok b' /\ brepr size (all ++ [x]) b' /\ bpipe b' = bpipe b.
Proof.
  intros H. destruct (strategy_push_repr _ _ _ _ x H) as (s' & d' & H1 & H2).
  unfold store. rewrite H1. cbn [obind]. eexists. split; [reflexivity|]. auto.
Qed.

Lemma store_all_repr size xs : forall all b, brepr size all b ->
  exists b', ofold store xs b = Ok b' /\ brepr size (all ++ xs) b' /\ bpipe b' = bpipe b.
Proof.
  induction xs as [|x xs IH]; intros all b H; cbn [ofold].
  - exists b. rewrite app_nil_r. auto.
  - destruct (store_repr size all b x H) as (b1 & H1 & H2 & H3). rewrite H1. cbn [obind].
    destruct (IH _ _ H2) as (b2 & H4 & H5 & H6). exists b2. rewrite <- app_assoc in H5. rewrite H6, H3. auto.
Qed.

Lemma new_data_buffer_repr size data : exists b, new_data_buffer data size = Ok b /\ brepr size data b /\ bpipe b = [].
Proof.
  unfold new_data_buffer. destruct (Z.ltb_spec (slen data) size) as [H|H].
  - eexists. split; [reflexivity|]. split; [|reflexivity]. cbn. constructor. exact H.
  - destruct (Z.ltb_spec 0 size) as [H0|H0].
    + unfold slen in *. rewrite sslice_ok by (unfold slen; lia). cbn [obind]. eexists. split; [reflexivity|]. split; [|reflexivity].
      unfold brepr. cbn [bdata bstrategy].
      replace (firstn _ _) with (last_n (Z.to_nat size) data).
      2:{ unfold last_n. replace (Z.to_nat (Z.of_nat (length data) - size)) with (length data - Z.to_nat size) by lia.
          rewrite firstn_all2; [reflexivity|]. rewrite skipn_length. lia. }
      assert (Hlen : Z.of_nat (length (last_n (Z.to_nat size) data)) = size) by (rewrite last_n_length; lia).
      rewrite <- Hlen at 4. apply repr_full; unfold slen; rewrite ?last_n_length; try lia.
      rewrite skipn_all2, firstn_all2 by (rewrite last_n_length; lia). reflexivity.
    + eexists. split; [reflexivity|]. split; [|reflexivity]. cbn. constructor. exact H0.
Qed.

Lemma buffer_apply_repr size all b : brepr size all b ->
  exists b', buffer_apply b = Ok b' /\ brepr size (all ++ bpipe b) b' /\ bpipe b' = [].
Proof.
  intros H. destruct (store_all_repr size (bpipe b) all (mkBuffer [] (bdata b) (bstrategy b)) H) as (b' & H1 & H2 & H3).
  exists b'. auto.
Qed.

Lemma bsteps_app (b : buffer E) o1 o2 b2 :
  bsteps b (o1 ++ o2) b2 <-> exists b1, bsteps b o1 b1 /\ bsteps b1 o2 b2.
Proof.
  revert b. induction o1 as [|o o1 IH]; intros b; cbn [app].
  - split; [intros H; exists b; split; [constructor|exact H]|]. intros (b1 & H & H2). inversion H; subst. exact H2.
  - split.
    + intros H. inversion H as [|? ? b1 ? ? Hs Hr]; subst. apply IH in Hr. destruct Hr as (b' & H1 & H2).
      exists b'. split; [econstructor; eassumption|exact H2].
    + intros (b' & H & H2). inversion H as [|? ? b1 ? ? Hs Hr]; subst. econstructor; [eassumption|]. apply IH. eauto.
Qed.

(** One round without Apply. *)
Lemma round_repr size ops : no_apply ops -> forall all b b',
  brepr size all b -> bsteps b ops b' ->
  brepr size (all ++ sync_pushed ops) b' /\ bpipe b' = bpipe b ++ async_pushed ops.
Proof.
  induction ops as [|o ops IH]; intros Hn all b b' Hb Hs; inversion Hs as [|? ? b1 ? ? H1 H2]; subst.
  - cbn. rewrite !app_nil_r. auto.
  - assert (Hn' : no_apply ops) by (intros Hi; apply Hn; right; exact Hi). destruct o as [x|x|].
    + cbn [bstep buffer_push] in H1. destruct (store_repr size all b x Hb) as (b1' & Hst & Hb1 & Hp).
      rewrite Hst in H1. injection H1 as <-. destruct (IH Hn' _ _ _ Hb1 H2) as [R1 R2].
      cbn [sync_pushed async_pushed]. rewrite <- app_assoc in R1. rewrite Hp in R2. auto.
    + cbn [bstep buffer_push] in H1. destruct (slen (bpipe b) <? pipe_size)%Z; [|discriminate]. injection H1 as <-.
      assert (Hb1 : brepr size all (mkBuffer (bpipe b ++ [x]) (bdata b) (bstrategy b))) by exact Hb.
      destruct (IH Hn' _ _ _ Hb1 H2) as [R1 R2]. cbn [bpipe sync_pushed async_pushed] in *.
      rewrite <- app_assoc in R2. auto.
    + exfalso. apply Hn. left. reflexivity.
Qed.

Lemma rounds_repr size rounds : Forall no_apply rounds -> forall all b b',
  brepr size all b -> bpipe b = [] -> bsteps b (concat (map (fun r => r ++ [Apply]) rounds)) b' ->
  brepr size (all ++ concat (map (fun r => sync_pushed r ++ async_pushed r) rounds)) b' /\ bpipe b' = [].
Proof.
  induction 1 as [|r rounds Hr Hrs IH]; intros all b b' Hb Hp Hs; cbn [map concat] in *.
  - inversion Hs; subst. rewrite app_nil_r. auto.
  - apply bsteps_app in Hs. destruct Hs as (b1 & H1 & H2). apply bsteps_app in H1. destruct H1 as (b0 & H0 & Ha).
    destruct (round_repr size r Hr all b b0 Hb H0) as [R1 R2]. rewrite Hp in R2. cbn [app] in R2.
    inversion Ha as [|? ? b1' ? ? Hst Hn]; subst. inversion Hn; subst.
    cbn [bstep] in Hst. destruct (buffer_apply_repr size _ b0 R1) as (b1' & Hap & Hb1 & Hp1).
    rewrite Hap in Hst. injection Hst as <-.
    destruct (IH _ _ _ Hb1 Hp1 H2) as [R3 R4]. split; [|exact R4]. rewrite R2 in R3.
    replace (all ++ (sync_pushed r ++ async_pushed r) ++ concat (map (fun r => sync_pushed r ++ async_pushed r) rounds))
      with (((all ++ sync_pushed r) ++ async_pushed r) ++ concat (map (fun r => sync_pushed r ++ async_pushed r) rounds)); [exact R3|].
    rewrite <- !app_assoc. reflexivity.
Qed.

Lemma history_repr size initial rounds last b0 b :
  new_data_buffer initial size = Ok b0 -> Forall no_apply rounds -> no_apply last ->
  bsteps b0 (history rounds last) b ->
  brepr size (stored initial rounds last) b /\ bpipe b = async_pushed last.
Proof.
  intros H0 Hr Hl Hs. destruct (new_data_buffer_repr size initial) as (b0' & Hn & Hb & Hp).
  rewrite Hn in H0. injection H0 as ->. apply bsteps_app in Hs. destruct Hs as (b1 & H1 & H2).
  destruct (rounds_repr size rounds Hr _ _ _ Hb Hp H1) as [R1 R2].
  destruct (round_repr size last Hl _ _ _ R1 H2) as [R3 R4]. rewrite R2 in R4. split; [|exact R4].
  unfold stored. rewrite app_assoc. exact R3.
Qed.

Lemma round_runs size ops : no_apply ops -> forall all b,
  brepr size all b -> (slen (bpipe b) + slen (async_pushed ops) <= pipe_size)%Z ->
  exists b', bsteps b ops b'.
Proof.
  induction ops as [|o ops IH]; intros Hn all b Hb Hc; [exists b; constructor|].
  assert (Hn' : no_apply ops) by (intros Hi; apply Hn; right; exact Hi). destruct o as [x|x|].
  - destruct (store_repr size all b x Hb) as (b1 & Hst & Hb1 & Hp).
    destruct (IH Hn' _ b1 Hb1) as [b' Hb']; [rewrite Hp; exact Hc|].
    exists b'. econstructor; [|exact Hb']. cbn. rewrite Hst. reflexivity.
  - cbn [async_pushed] in Hc. unfold slen in Hc. cbn [length] in Hc.
    set (b1 := mkBuffer (bpipe b ++ [x]) (bdata b) (bstrategy b)).
    destruct (IH Hn' all b1 Hb) as [b' Hb'].
    { subst b1. cbn [bpipe]. unfold slen. rewrite app_length. cbn [length]. lia. }
    exists b'. econstructor; [|exact Hb']. cbn. unfold slen.
    destruct (Z.ltb_spec (Z.of_nat (length (bpipe b))) pipe_size); [reflexivity|lia].
  - exfalso. apply Hn. left. reflexivity.
Qed.

Lemma rounds_run size rounds :
  Forall (fun r => no_apply r /\ (slen (async_pushed r) <= pipe_size)%Z) rounds ->
  forall all b, brepr size all b -> bpipe b = [] ->
  exists b', bsteps b (concat (map (fun r => r ++ [Apply]) rounds)) b'.
Proof.
  induction 1 as [|r rounds [Hr Hc] Hrs IH]; intros all b Hb Hp; cbn [map concat]; [exists b; constructor|].
  destruct (round_runs size r Hr all b Hb) as [b1 H1]; [rewrite Hp; cbn; lia|].
  destruct (round_repr size r Hr all b b1 Hb H1) as [R1 R2].
  destruct (buffer_apply_repr size _ b1 R1) as (b2 & Hap & Hb2 & Hp2).
  destruct (IH _ b2 Hb2 Hp2) as [b' Hb']. exists b'. apply bsteps_app. exists b2. split; [|exact Hb'].
  apply bsteps_app. exists b1. split; [exact H1|]. econstructor; [cbn; rewrite Hap; reflexivity|constructor].
Qed.

(** ** C26 *)
Lemma unbounded_main : forall (initial : list E) size rounds last b0,
  (size <= 0)%Z -> Forall no_apply rounds -> no_apply last ->
  new_data_buffer initial size = Ok b0 ->
  forall b, bsteps b0 (history rounds last) b ->
  bdata b = stored initial rounds last /\ bpipe b = async_pushed last.
Proof.
  intros initial size rounds last b0 Hs Hr Hl Hn b Hb.
  destruct (history_repr size initial rounds last b0 b Hn Hr Hl Hb) as [R1 R2]. split; [|exact R2].
  apply (proj1 (repr_data _ _ _ _ R1)). exact Hs.
Qed.

Lemma history_runs : forall (initial : list E) size rounds last,
  Forall (fun r => no_apply r /\ (Z.of_nat (length (async_pushed r)) <= 2000)%Z) (last :: rounds) ->
  exists b0 b, new_data_buffer initial size = Ok b0 /\ bsteps b0 (history rounds last) b.
Proof.
  intros initial size rounds last H. inversion H as [|? ? [Hl Hc] Hr]; subst.
  destruct (new_data_buffer_repr size initial) as (b0 & Hn & Hb & Hp). exists b0.
  destruct (rounds_run size rounds Hr _ b0 Hb Hp) as [b1 H1].
  destruct (rounds_repr size rounds) with (all := initial) (b := b0) (b' := b1) as [R1 R2]; auto.
  { eapply Forall_impl; [|exact Hr]. intros r [Hx _]; exact Hx. }
  destruct (round_runs size last Hl _ b1 R1) as [b H2]; [rewrite R2; unfold slen, pipe_size; cbn [length]; lia|].
  exists b. split; [exact Hn|]. apply bsteps_app. eauto.
Qed.

Lemma fine_grain_main : forall (initial : list E) size b0 acts b,
  (size <= 0)%Z -> new_data_buffer initial size = Ok b0 -> bacts b0 acts b ->
  (forall x, ~ In (AStore x) acts) ->
  bdata b ++ bpipe b = initial ++ sent acts /\ exists n, bdata b = initial ++ firstn n (sent acts).
Proof.
  intros initial size b0 acts b Hs Hn Ha Hst.
  destruct (new_data_buffer_repr size initial) as (b0' & Hn' & Hb & Hp). rewrite Hn' in Hn. injection Hn as ->.
  assert (Hg : forall (acts : list (bact E)) (b1 b2 : buffer E), bacts b1 acts b2 -> (forall x, ~ In (AStore x) acts) ->
     bstrategy b1 = InfiniteSize ->
     bdata b2 ++ bpipe b2 = (bdata b1 ++ bpipe b1) ++ sent acts /\ exists m : list E, bdata b2 = bdata b1 ++ m).
  { clear. intros acts b1 b2 H. induction H as [b|b a b1 acts b2 H1 H2 IH]; intros Hn Hi.
    - cbn. rewrite !app_nil_r. split; [reflexivity|]. exists []. rewrite app_nil_r. reflexivity.
    - assert (Hn' : forall x, ~ In (AStore x) acts) by (intros x Hx; apply (Hn x); right; exact Hx).
      destruct a as [x|x|].
      + cbn [bact_step buffer_push] in H1. destruct (slen (bpipe b) <? pipe_size)%Z; [|discriminate]. injection H1 as <-.
        cbn [bdata bpipe bstrategy sent] in *. destruct (IH Hn' Hi) as [R1 R2]. split; [|exact R2].
        rewrite R1, <- !app_assoc. reflexivity.
      + exfalso. apply (Hn x). left. reflexivity.
      + cbn [bact_step sent] in *. unfold apply_next in H1. destruct b as [[|x pipe] data s]; cbn [bpipe bdata bstrategy] in *.
        * cbn [obind fst] in H1. injection H1 as <-. cbn [bdata bpipe bstrategy] in IH. apply IH; auto.
        * subst s. cbn [store strategy_push bstrategy bdata bpipe obind fst] in H1. injection H1 as <-. cbn [bdata bpipe bstrategy] in IH.
          destruct (IH Hn' eq_refl) as [R1 (m & R2)]. split.
          -- rewrite R1, <- !app_assoc. reflexivity.
          -- exists (x :: m). rewrite R2, <- app_assoc. reflexivity. }
  assert (Hdata : bdata b0 = initial) by (apply (proj1 (repr_data _ _ _ _ Hb)); exact Hs).
  assert (Hstr : bstrategy b0 = InfiniteSize) by (unfold brepr in Hb; inversion Hb; auto; unfold slen in *; lia).
  destruct (Hg acts b0 b Ha Hst Hstr) as [R1 (m & R2)]. rewrite Hdata, Hp, app_nil_r in R1. split; [exact R1|].
  rewrite Hdata in R2. exists (length m). rewrite R2. f_equal. rewrite R2, <- app_assoc in R1.
  apply app_inv_head in R1. rewrite <- R1, firstn_app, Nat.sub_diag, firstn_all, firstn_O, app_nil_r. reflexivity.
Qed.

(** ** C27 *)
Lemma frame_main : forall (initial : list E) size rounds last b0,
  (0 < size)%Z -> Forall no_apply rounds -> no_apply last ->
  new_data_buffer initial size = Ok b0 ->
  forall b, bsteps b0 (history rounds last) b ->
  rotation (bdata b) (last_n (Z.to_nat size) (stored initial rounds last)) /\
  Z.of_nat (length (bdata b)) = Z.min size (Z.of_nat (length (stored initial rounds last))) /\
  (forall x b', bstep b (PushSync x) = Some (Ok b') ->
     (Z.of_nat (length (bdata b)) = size ->
      rotation (bdata b') (tl (last_n (Z.to_nat size) (stored initial rounds last)) ++ [x])) /\
     ((Z.of_nat (length (bdata b)) < size)%Z -> bdata b' = bdata b ++ [x])).
Proof.
  intros initial size rounds last b0 Hs Hr Hl Hn b Hb.
  destruct (history_repr size initial rounds last b0 b Hn Hr Hl Hb) as [R1 R2].
  destruct (proj2 (repr_data _ _ _ _ R1) Hs) as [R3 R4]. split; [exact R3|]. split; [lia|].
  intros x b' Hx. cbn in Hx. destruct (store_repr _ _ b x R1) as (b1 & Hst & Hb1 & _).
  rewrite Hst in Hx. injection Hx as ->. destruct (proj2 (repr_data _ _ _ _ Hb1) Hs) as [R5 R6]. split.
  - intros Hfull. rewrite last_n_snoc in R5 by lia. exact R5.
  - intros Hnot. unfold brepr in R1. inversion R1 as [Hz| Hlt Hd Hst'|data pos Hz Hge Hd Hpos Hpos' Hrot Hd' Hst']; subst; try lia.
    + unfold store, strategy_push in Hst. rewrite <- Hst', Hd in Hst. rewrite Hd in Hlt.
      destruct (Z.eqb_spec (slen (bdata b)) size); [lia|].
      destruct (Z.ltb_spec (slen (bdata b)) (slen (bdata b))); [lia|]. cbn [obind] in Hst. injection Hst as <-. cbn [bdata]. rewrite Hd. reflexivity.
    + unfold slen in *. lia.
Qed.

(** ** C28 *)
Lemma staging_main : forall (b : buffer E) x size all,
  brepr size all b ->
  (bstep b (PushAsync x) = None <-> (2000 <= Z.of_nat (length (bpipe b)))%Z) /\
  (bstep b (PushAsync x) <> None -> exists b', bstep b (PushAsync x) = Some (Ok b') /\
     bpipe b' = bpipe b ++ [x] /\ bdata b' = bdata b) /\
  (exists b', bstep b (PushSync x) = Some (Ok b') /\ bpipe b' = bpipe b) /\
  (exists b', bstep b Apply = Some (Ok b') /\ bpipe b' = []).
Proof.
  intros b x size all Hb. split; [|split; [|split]].
  - cbn. unfold slen, pipe_size. destruct (Z.ltb_spec (Z.of_nat (length (bpipe b))) 2000).
    + split; [discriminate|lia].
    + split; auto.
  - cbn. destruct (slen (bpipe b) <? pipe_size)%Z; [|congruence]. intros _. eexists. split; [reflexivity|]. auto.
  - destruct (store_repr _ _ b x Hb) as (b1 & Hst & _ & Hp). exists b1. cbn. rewrite Hst. auto.
  - destruct (buffer_apply_repr _ _ b Hb) as (b1 & Hap & _ & Hp). exists b1. cbn. rewrite Hap. auto.
Qed.

Lemma staging_reachable : forall (initial : list E) size rounds last b0 b x,
  Forall no_apply rounds -> no_apply last -> new_data_buffer initial size = Ok b0 ->
  bsteps b0 (history rounds last) b ->
  (bstep b (PushAsync x) = None <-> length (async_pushed last) = Z.to_nat 2000) /\
  (bstep b (PushAsync x) <> None -> exists b', bstep b (PushAsync x) = Some (Ok b')) /\
  (exists b', bstep b (PushSync x) = Some (Ok b')) /\
  (exists b', bstep b Apply = Some (Ok b') /\ bpipe b' = []).
Proof.
  intros initial size rounds last b0 b x Hr Hl Hn Hb.
  destruct (history_repr size initial rounds last b0 b Hn Hr Hl Hb) as [R1 R2].
  destruct (staging_main b x size _ R1) as (S1 & S2 & S3 & S4).
  assert (Hcap : (Z.of_nat (length (bpipe b)) <= 2000)%Z).
  { destruct (new_data_buffer_repr size initial) as (b0' & Hn' & Hb0 & Hp). rewrite Hn' in Hn. injection Hn as ->.
    assert (Hg : forall ops b1 b2 all, brepr size all b1 -> bsteps b1 ops b2 -> (Z.of_nat (length (bpipe b1)) <= 2000)%Z -> (Z.of_nat (length (bpipe b2)) <= 2000)%Z).
    { clear. intros ops b1 b2 all Hb1 H. revert all Hb1. induction H as [b|b o b1 ops b2 H1 H2 IH]; intros all Hb Hc; [exact Hc|].
      destruct o as [x|x|]; cbn in H1.
      - destruct (store_repr _ _ b x Hb) as (b1' & Hst & Hr & Hp). rewrite Hst in H1. injection H1 as ->.
        apply (IH _ Hr). rewrite Hp. exact Hc.
      - unfold slen, pipe_size in H1. destruct (Z.ltb_spec (Z.of_nat (length (bpipe b))) 2000); [|discriminate].
        injection H1 as <-. apply (IH all); [exact Hb|]. cbn [bpipe]. rewrite app_length. cbn [length]. lia.
      - destruct (buffer_apply_repr _ _ b Hb) as (b1' & Hap & Hr & Hp). rewrite Hap in H1. injection H1 as ->.
        apply (IH _ Hr). rewrite Hp. cbn. lia. }
    apply (Hg _ _ _ _ Hb0 Hb). rewrite Hp. cbn. lia. }
  rewrite R2 in S1, Hcap. split; [|split; [|split]].
  - rewrite S1. lia.
  - intros H. destruct (S2 H) as (b' & H' & _). eauto.
  - destruct S3 as (b' & H' & _). eauto.
  - exact S4.
Qed.

(** ** C29 *)
Lemma bsteps_det (ops : list (bop E)) : forall b1 b2 b3, bsteps b1 ops b2 -> bsteps b1 ops b3 -> b2 = b3.
Proof.
  induction ops as [|o ops IH]; intros b1 b2 b3 H2 H3.
  - inversion H2; inversion H3; subst. congruence.
  - inversion H2 as [|? ? c1 ? ? Hs1 Hr1]; inversion H3 as [|? ? c2 ? ? Hs2 Hr2]; subst.
    assert (c1 = c2) by congruence. subst. eauto.
Qed.

Lemma copy_main : forall (initial : list E) size rounds last b0 b,
  Forall no_apply rounds -> no_apply last -> async_pushed last = [] ->
  new_data_buffer initial size = Ok b0 -> bsteps b0 (history rounds last) b ->
  ((size <= 0)%Z \/ (Z.of_nat (length (stored initial rounds last)) <= size)%Z) ->
  exists c, copy_buffer b size = Ok c /\ bdata c = bdata b /\
    forall ops b' c', bsteps b ops b' -> bsteps c ops c' -> bdata c' = bdata b' /\ bpipe c' = bpipe b'.
Proof.
  intros initial size rounds last b0 b Hr Hl Ha Hn Hb Hsize.
  destruct (history_repr size initial rounds last b0 b Hn Hr Hl Hb) as [R1 R2]. rewrite Ha in R2.
  set (all := stored initial rounds last) in *. destruct b as [pipe data s]. cbn [bpipe] in R2. subst pipe.
  unfold copy_buffer. cbn [bdata].
  assert (Hcopy : exists c, new_data_buffer data size = Ok c /\ c = mkBuffer [] data s).
  { unfold brepr in R1. cbn [bdata bstrategy] in R1. unfold new_data_buffer.
    inversion R1 as [Hz| Hlt Hd Hst'|data' pos Hz Hge Hd Hpos Hpos' Hrot Hd' Hst']; subst.
    - destruct (Z.ltb_spec (slen all) size); [unfold slen in *; lia|]. destruct (Z.ltb_spec 0 size); [lia|]. eauto.
    - destruct (Z.ltb_spec (slen all) size); [|lia]. eauto.
    - destruct Hsize as [Hsz|Hsz]; [lia|]. unfold slen in *.
      destruct (Z.ltb_spec (Z.of_nat (length data)) (Z.of_nat (length data))); [lia|].
      destruct (Z.ltb_spec 0 (Z.of_nat (length data))); [|lia].
      rewrite sslice_ok by (unfold slen; lia). rewrite Z.sub_diag. cbn [obind skipn Z.to_nat].
      rewrite firstn_all2 by lia. eexists. split; [reflexivity|]. f_equal.
      f_equal. lia. }
  destruct Hcopy as (c & Hc & ->). eexists. split; [exact Hc|]. split; [reflexivity|].
  intros ops b' c' H1 H2.
  rewrite (bsteps_det _ _ _ _ H1 H2). auto.
Qed.

End Store.

(** A frame of 2 elements that received 1, 2, 3 holds [3; 2]; its copy evicts 3 where the original
    evicts 2. *)
Lemma copy_frame_refuted : exists (b0 b c b' c' : buffer Z),
  new_data_buffer [1%Z] 2 = Ok b0 /\
  bsteps b0 (history [] [PushSync 2%Z; PushSync 3%Z]) b /\
  copy_buffer b 2 = Ok c /\
  bsteps b [PushSync 4%Z] b' /\ bsteps c [PushSync 4%Z] c' /\
  In 3%Z (bdata b') /\ ~ In 3%Z (bdata c').
Proof.
  do 5 eexists. split; [reflexivity|]. split.
  { econstructor; [reflexivity|]. econstructor; [reflexivity|]. constructor. }
  split; [reflexivity|]. split; [econstructor; [reflexivity|constructor]|].
  split; [econstructor; [reflexivity|constructor]|]. vm_compute. split; [auto|]. intuition discriminate.
Qed.

(** An element staged before the copy is in the original after its next Apply, never in the copy. *)
Lemma copy_staged_refuted : exists (b0 b c b' c' : buffer Z),
  new_data_buffer [1%Z] 0 = Ok b0 /\
  bsteps b0 (history [] [PushAsync 2%Z]) b /\
  copy_buffer b 0 = Ok c /\
  bsteps b [Apply] b' /\ bsteps c [Apply] c' /\
  In 2%Z (bdata b') /\ ~ In 2%Z (bdata c').
Proof.
  do 5 eexists. split; [reflexivity|]. split.
  { econstructor; [reflexivity|]. constructor. }
  split; [reflexivity|]. split; [econstructor; [reflexivity|constructor]|].
  split; [econstructor; [reflexivity|constructor]|]. vm_compute. split; [auto|]. intuition discriminate.
Qed.
