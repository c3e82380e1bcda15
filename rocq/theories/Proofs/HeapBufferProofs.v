(** C109, C110: buffers share no memory with the client or with each other. *)
From Coq Require Import List ZArith Lia Bool Arith.
From Verif Require Import Base.Go Model.Buffer Model.Heap Model.HeapBuffer Spec.HeapBufferSpec Proofs.GoLemmas Proofs.HeapProofs.
Import ListNotations.

Section S.
Context {E : Type} (grow : nat -> nat).
Notation mem := (mem E).

(** A write through [s], which becomes [s']: reads as [d], and nobody else sees it. *)
Definition own (s : slice) (m m' : mem) (s' : slice) (d : list (option E)) : Prop :=
  wf m' s' /\ read m' s' = d /\ (sl_arr s' = sl_arr s \/ length m <= sl_arr s') /\ length m <= length m' /\
  (forall t, wf m t -> wf m' t) /\ (forall t, wf m t -> sl_arr t <> sl_arr s -> read m' t = read m t).

Lemma append_len (m : mem) s x m' s' : append grow m s x = (m', s') -> length m <= length m'.
Proof. unfold append. destruct (_ <? _); intros [= <- <-]; [rewrite upd_length|rewrite app_length]; lia. Qed.

Lemma append_own (m : mem) s x m' s' : wf m s -> append grow m s x = (m', s') -> own s m m' s' (read m s ++ [x]).
Proof.
  intros Hw H. pose proof (append_len _ _ _ _ _ H) as HL. destruct (append_spec grow m s x m' s' Hw H) as (A1 & A2 & A3 & A4 & A5 & A6).
  split; [exact A1|]. split; [exact A2|]. split; [destruct A4 as [A4|A4]; [left; exact A4|right; lia]|]. split; [exact HL|].
  split; [exact A5|]. intros t Ht Hn. apply A6; [exact Ht|]. intros Q. congruence.
Qed.

Lemma own_trans s m m1 s1 d1 m2 s2 d2 : wf m s -> own s m m1 s1 d1 -> own s1 m1 m2 s2 d2 -> own s m m2 s2 d2.
Proof.
  intros [W _] (A1 & A2 & A3 & A4 & A5 & A6) (B1 & B2 & B3 & B4 & B5 & B6). split; [exact B1|]. split; [exact B2|].
  split; [destruct B3 as [B3|B3]; [rewrite B3; exact A3|right; lia]|]. split; [lia|]. split; [auto|].
  intros t Ht Hn. rewrite B6; [apply A6; assumption|apply A5; exact Ht|]. destruct Ht as [Ht _]. destruct A3 as [A3|A3]; [congruence|lia].
Qed.

Lemma push_own st (m : mem) s x : wf m s ->
  match strategy_push st (read m s) x with
  | Ok (st', d) => exists m' s', hstrategy_push grow st m s x = Ok (st', m', s') /\ own s m m' s' d
  | Panic => hstrategy_push grow st m s x = Panic
  end.
Proof.
  intros Hw. unfold strategy_push, hstrategy_push, slen. rewrite (read_length _ _ Hw). destruct st as [size position|].
  - destruct (_ <? Z.of_nat (sl_len s))%Z.
    + pose proof (store_sset m s (if (position =? size)%Z then 0%Z else position) x Hw) as H. destruct (sset _ _ x) as [v|].
      * destruct H as (m' & H1 & H2 & H3 & H4 & H5). rewrite H1. cbn [obind]. exists m', s. split; [reflexivity|].
        split; [exact H2|]. split; [exact H3|]. split; [left; reflexivity|]. split; [lia|]. split; [|intros t Ht Hn; apply H5; exact Hn].
        apply store_ok in H1. destruct H1 as (n & _ & _ & ->). intros t Ht. apply upd_wf. exact Ht.
      * rewrite H. reflexivity.
    + destruct (append grow m s x) as [m' s'] eqn:Q. exists m', s'. split; [reflexivity|]. apply append_own; assumption.
  - destruct (append grow m s x) as [m' s'] eqn:Q. exists m', s'. split; [reflexivity|]. apply append_own; assumption.
Qed.

Definition held (m : mem) (b : hbuffer E) : buffer (option E) := mkBuffer (hb_pipe b) (read m (hb_data b)) (hb_strategy b).
Lemma store_own (m : mem) b x : wf m (hb_data b) ->
  match Buffer.store (held m b) x with
  | Ok v => exists m' b', hstore grow (m, b) x = Ok (m', b') /\ held m' b' = v /\ own (hb_data b) m m' (hb_data b') (bdata v)
  | Panic => hstore grow (m, b) x = Panic
  end.
Proof.
  intros Hw. unfold Buffer.store, hstore, held. cbn [bstrategy bdata bpipe]. pose proof (push_own (hb_strategy b) m (hb_data b) x Hw) as H.
  destruct (strategy_push _ _ _) as [[st d]|]; cbn [obind].
  - destruct H as (m' & s' & H1 & H2). rewrite H1. cbn [obind]. eexists; eexists. split; [reflexivity|]. cbn [hb_pipe hb_data hb_strategy bdata].
    split; [|exact H2]. destruct H2 as (_ & -> & _). reflexivity.
  - rewrite H. reflexivity.
Qed.

Lemma own_refl (m : mem) s : wf m s -> own s m m s (read m s).
Proof. intros H. split; [exact H|]. split; [reflexivity|]. split; [left; reflexivity|]. split; [lia|]. split; auto. Qed.

Lemma stores_own xs : forall (m : mem) b, wf m (hb_data b) ->
  match ofold Buffer.store xs (held m b) with
  | Ok v => exists m' b', ofold (hstore grow) xs (m, b) = Ok (m', b') /\ held m' b' = v /\ own (hb_data b) m m' (hb_data b') (bdata v)
  | Panic => ofold (hstore grow) xs (m, b) = Panic
  end.
Proof.
  induction xs as [|x xs IH]; intros m b Hw; cbn [ofold].
  - exists m, b. split; [reflexivity|]. split; [reflexivity|]. apply own_refl. exact Hw.
  - pose proof (store_own m b x Hw) as H. destruct (Buffer.store _ _) as [v|]; cbn [obind].
    + destruct H as (m1 & b1 & H1 & H2 & H3). rewrite H1. cbn [obind]. rewrite <- H2 in *. specialize (IH m1 b1 (proj1 H3)).
      destruct (ofold Buffer.store xs (held m1 b1)) as [v2|]; [|exact IH]. destruct IH as (m2 & b2 & I1 & I2 & I3). exists m2, b2.
      split; [exact I1|]. split; [exact I2|]. eapply own_trans; eauto.
    + rewrite H. reflexivity.
Qed.

Lemma step_own (m : mem) b o : wf m (hb_data b) ->
  match bstep (held m b) o with
  | Some (Ok v) => exists m' b', hbstep grow m b o = Some (Ok (m', b')) /\ held m' b' = v /\ own (hb_data b) m m' (hb_data b') (bdata v)
  | Some Panic => hbstep grow m b o = Some Panic
  | None => hbstep grow m b o = None
  end.
Proof.
  intros Hw. destruct o as [x|x|]; cbn [bstep hbstep buffer_push].
  - pose proof (store_own m b x Hw) as H. destruct (Buffer.store _ _) as [v|]; [|rewrite H; reflexivity].
    destruct H as (m' & b' & H1 & H2). exists m', b'. rewrite H1. auto.
  - cbn [held bpipe bdata bstrategy]. destruct (_ <? pipe_size)%Z; [|reflexivity]. eexists; eexists. split; [reflexivity|]. split; [reflexivity|].
    apply own_refl. exact Hw.
  - unfold buffer_apply. cbn [held bpipe bdata bstrategy]. pose proof (stores_own (hb_pipe b) m (mkHBuffer [] (hb_data b) (hb_strategy b)) Hw) as H.
    unfold held at 1 in H. cbn [hb_pipe hb_data hb_strategy] in H. destruct (ofold Buffer.store _ _) as [v|]; [|rewrite H; reflexivity].
    destruct H as (m' & b' & H1 & H2 & H3). exists m', b'. rewrite H1. auto.
Qed.

(** A new slice holding a copy. *)
Lemma make_copy (m : mem) n cap src : length src = n -> n <= cap ->
  let s := mkSlice (length m) n in let m' := copy_into (m ++ [repeat None cap]) s src in
  wf m' s /\ read m' s = src /\ length m' = S (length m) /\ (forall t, wf m t -> wf m' t /\ read m' t = read m t).
Proof.
  intros Hl Hc s m'. subst m' s. unfold copy_into. cbn [sl_len sl_arr]. rewrite Hl, Nat.min_id. replace (firstn n src) with src by (rewrite <- Hl; symmetry; apply firstn_all).
  rewrite array_app_new. set (a := src ++ skipn n (repeat None cap)).
  assert (La : n <= length a) by (unfold a; rewrite app_length; lia).
  assert (L : length (m ++ [repeat (@None E) cap]) = S (length m)) by (rewrite app_length; cbn; lia).
  split; [split; cbn [sl_arr sl_len]; [rewrite upd_length, L; lia|rewrite array_upd_same by (rewrite L; lia); exact La]|].
  split; [unfold read; cbn [sl_arr sl_len]; rewrite array_upd_same by (rewrite L; lia); unfold a; subst n; rewrite firstn_app, Nat.sub_diag; cbn [firstn]; rewrite app_nil_r; apply firstn_all|].
  split; [rewrite upd_length; exact L|]. intros t [T1 T2].
  assert (Q : array (upd (m ++ [repeat None cap]) (length m) a) (sl_arr t) = array m (sl_arr t)).
  { rewrite array_upd_other by lia. apply array_app. exact T1. }
  split; [split; [rewrite upd_length, L; lia|rewrite Q; exact T2]|]. unfold read. rewrite Q. reflexivity.
Qed.

Lemma new_own (m : mem) s size : wf m s ->
  exists m' b, new_hbuffer m s size = (m', b) /\ new_data_buffer (read m s) size = Ok (held m' b) /\ wf m' (hb_data b) /\ sl_arr (hb_data b) = length m /\
    length m' = S (length m) /\ (forall t, wf m t -> wf m' t /\ read m' t = read m t).
Proof.
  intros Hw. unfold new_hbuffer, new_data_buffer, make_slice, held, slen. rewrite (read_length _ _ Hw).
  assert (R : forall v, read (m ++ v) s = read m s) by (intros v; apply read_app; apply Hw).
  pose proof (read_length _ _ Hw) as HL. destruct (Z.ltb_spec (Z.of_nat (sl_len s)) size) as [H|H].
  - rewrite R. destruct (make_copy m (sl_len s) (Z.to_nat size) (read m s) HL ltac:(lia)) as (M1 & M2 & M3 & M4).
    eexists; eexists. split; [reflexivity|]. cbn [hb_pipe hb_data hb_strategy sl_arr]. rewrite M2. auto.
  - destruct (Z.ltb_spec 0 size) as [H0|H0].
    + rewrite R. assert (L2 : length (skipn (sl_len s - Z.to_nat size) (read m s)) = Z.to_nat size) by (rewrite skipn_length, HL; lia).
      destruct (make_copy m (Z.to_nat size) (Z.to_nat size) _ L2 ltac:(lia)) as (M1 & M2 & M3 & M4).
      eexists; eexists. split; [reflexivity|]. cbn [hb_pipe hb_data hb_strategy sl_arr]. rewrite M2. split; [|auto].
      unfold sslice, slen. rewrite HL. destruct (Z.ltb_spec (Z.of_nat (sl_len s) - size) 0); [lia|].
      destruct (Z.ltb_spec (Z.of_nat (sl_len s)) (Z.of_nat (sl_len s) - size)); [lia|]. rewrite Z.ltb_irrefl. cbn [orb obind].
      replace (Z.to_nat (Z.of_nat (sl_len s) - size)) with (sl_len s - Z.to_nat size) by lia.
      replace (Z.to_nat (Z.of_nat (sl_len s) - (Z.of_nat (sl_len s) - size))) with (length (skipn (sl_len s - Z.to_nat size) (read m s))) by lia.
      rewrite firstn_all. reflexivity.
    + rewrite R. destruct (make_copy m (sl_len s) (sl_len s) (read m s) HL ltac:(lia)) as (M1 & M2 & M3 & M4).
      eexists; eexists. split; [reflexivity|]. cbn [hb_pipe hb_data hb_strategy sl_arr]. rewrite M2. auto.
Qed.

(** All the slices of a program. *)
Definition slots (p : hprog E) : list slice := hp_own p ++ map hb_data (hp_bufs p).
Definition good (p : hprog E) : Prop := Forall (wf (hp_mem p)) (slots p) /\ NoDup (map sl_arr (slots p)).

Lemma nodup_map_neq (l : list slice) i j s t : NoDup (map sl_arr l) -> nth_error l i = Some s -> nth_error l j = Some t -> i <> j -> sl_arr t <> sl_arr s.
Proof.
  intros H Hi Hj Hn Q. apply Hn. apply (proj1 (NoDup_nth_error _) H).
  - rewrite map_length. apply nth_error_Some. congruence.
  - rewrite !nth_error_map, Hi, Hj. cbn. congruence.
Qed.

Lemma map_upd {A B} (f : A -> B) (l : list A) : forall n a, map f (upd l n a) = upd (map f l) n (f a).
Proof. induction l as [|x l IH]; intros [|n] a; cbn; auto. f_equal. apply IH. Qed.
Lemma upd_app_r {A} (l r : list A) n a : upd (l ++ r) (length l + n) a = l ++ upd r n a.
Proof. induction l; cbn; auto. f_equal. assumption. Qed.

Lemma nth_upd_at {A} (l : list A) n a m : n < length l -> nth_error (upd l n a) m = if Nat.eqb n m then Some a else nth_error l m.
Proof. intros H. rewrite nth_error_upd. rewrite Nat.eqb_sym. destruct (Nat.ltb_spec n (length l)); [|lia]. rewrite andb_true_r. reflexivity. Qed.

(** Two lists of contents that agree but at [i]. *)
Lemma map_ext_upd {A B} (f g : A -> B) (l : list A) i a x : nth_error l i = Some a -> (forall j b, nth_error l j = Some b -> j <> i -> f b = g b) ->
  forall a', f a' = x -> map f (upd l i a') = upd (map g l) i x.
Proof.
  revert i. induction l as [|y l IH]; intros [|i] Hi H a' Ha; cbn in *; try discriminate.
  - rewrite Ha. f_equal. apply map_ext_in. intros b Hb. apply In_nth_error in Hb. destruct Hb as [j Hj]. apply (H (S j) b); [exact Hj|discriminate].
  - f_equal; [apply (H 0 y); [reflexivity|discriminate]|]. apply (IH i Hi); [|exact Ha]. intros j b Hj Hn. apply (H (S j) b Hj). congruence.
Qed.

Lemma good_slot p s : good p -> In s (slots p) -> wf (hp_mem p) s.
Proof. intros [H _] Hs. rewrite Forall_forall in H. auto. Qed.
Lemma in_own p c s : nth_error (hp_own p) c = Some s -> nth_error (slots p) c = Some s.
Proof. intros H. unfold slots. rewrite nth_error_app1; [exact H|]. apply nth_error_Some. congruence. Qed.
Lemma in_bufs p c b : nth_error (hp_bufs p) c = Some b -> nth_error (slots p) (length (hp_own p) + c) = Some (hb_data b).
Proof. intros H. unfold slots. rewrite nth_error_app2 by lia. rewrite Nat.add_comm, Nat.add_sub. rewrite nth_error_map, H. reflexivity. Qed.

Lemma contents_same (p q : hprog E) : hp_own q = hp_own p -> hp_bufs q = hp_bufs p ->
  (forall s, In s (slots p) -> read (hp_mem q) s = read (hp_mem p) s) -> contents q = contents p.
Proof.
  intros H1 H2 H. unfold contents. rewrite H1, H2. f_equal; apply map_ext_in; intros s Hs.
  - apply H. apply in_or_app. left. exact Hs.
  - rewrite H; [reflexivity|]. apply in_or_app. right. apply in_map. exact Hs.
Qed.

(** A fresh slice added to the memory. *)
Lemma fresh_nodup (l1 l2 : list slice) n (m : mem) s : n = length m -> sl_arr s = n -> Forall (wf m) (l1 ++ l2) -> NoDup (map sl_arr (l1 ++ l2)) ->
  NoDup (map sl_arr (l1 ++ s :: l2)).
Proof.
  intros -> Hs Hw Hn. rewrite map_app in *. cbn [map]. apply (NoDup_Add (a:=sl_arr s) (l:=map sl_arr l1 ++ map sl_arr l2)).
  - apply Add_app.
  - split; [exact Hn|]. rewrite <- map_app. intros H. apply in_map_iff in H. destruct H as (t & T1 & T2). rewrite Forall_forall in Hw.
    destruct (Hw t T2) as [W _]. lia.
Qed.

Lemma act_sim p a : good p ->
  match hact_step grow p a with
  | Some (Ok p') => good p' /\ vact_step (contents p) a = Some (Ok (contents p'))
  | Some Panic => vact_step (contents p) a = Some Panic
  | None => vact_step (contents p) a = None
  end.
Proof.
  intros G. pose proof G as [GW GN]. destruct a as [l|c i x|c size|c size|c o]; cbn [hact_step].
  - split.
    + split; cbn [hp_mem]; unfold slots; cbn [hp_own hp_bufs].
      * rewrite <- app_assoc. unfold slots in GW. apply Forall_app in GW. destruct GW as [G1 G2]. apply Forall_app. split; [|constructor].
        -- eapply Forall_impl; [|exact G1]. intros s Hs. apply app_wf. exact Hs.
        -- split; cbn [sl_arr sl_len]; [rewrite app_length; cbn; lia|]. rewrite array_app_new. lia.
        -- eapply Forall_impl; [|exact G2]. intros s Hs. apply app_wf. exact Hs.
      * rewrite <- app_assoc. cbn [app]. eapply fresh_nodup; [reflexivity|reflexivity|exact GW|exact GN].
    + unfold vact_step, contents. cbn [hp_own hp_bufs hp_mem]. rewrite map_app. cbn [map]. do 3 f_equal.
      * f_equal; [|f_equal].
        -- apply map_ext_in. intros s Hs. symmetry. apply read_app. apply (good_slot p s G). apply in_or_app. left. exact Hs.
        -- unfold read. cbn [sl_arr sl_len]. rewrite array_app_new. rewrite firstn_all. reflexivity.
      * apply map_ext_in. intros b Hb. f_equal. symmetry. apply read_app. apply (good_slot p (hb_data b) G). apply in_or_app. right. apply in_map. exact Hb.
  - destruct (nth_error (hp_own p) c) as [s|] eqn:Hc.
    2: { unfold vact_step, contents. rewrite nth_error_map, Hc. reflexivity. }
    assert (Hw : wf (hp_mem p) s) by (apply (good_slot p s G); apply in_or_app; left; eapply nth_error_In; exact Hc).
    unfold vact_step, contents. rewrite nth_error_map, Hc. cbn [option_map]. pose proof (store_sset (hp_mem p) s i x Hw) as H.
    destruct (sset _ i x) as [v|]; cbn [obind]; [|rewrite H; reflexivity]. destruct H as (m' & H1 & H2 & H3 & H4 & H5). rewrite H1. cbn [obind].
    pose proof (in_own p c s Hc) as Hc'. split.
    + split; [|exact GN]. cbn [hp_mem]. eapply Forall_impl; [|exact GW]. intros t Ht. apply store_ok in H1. destruct H1 as (n & _ & _ & ->). apply upd_wf. exact Ht.
    + cbn [hp_own hp_bufs hp_mem]. do 2 f_equal. f_equal.
      * symmetry. replace (map (read m') (hp_own p)) with (map (read m') (upd (hp_own p) c s)).
        2: { f_equal. clear -Hc. revert c Hc. induction (hp_own p) as [|y l IH]; intros [|c] H; cbn in *; try discriminate; [congruence|]. f_equal. apply IH. exact H. }
        eapply map_ext_upd; [exact Hc| |exact H3]. intros j b Hj Hn. apply H5. apply (nodup_map_neq (slots p) c j); [exact GN|exact Hc'| |congruence]. apply in_own. exact Hj.
      * apply map_ext_in. intros b Hb. f_equal. symmetry. apply H5. apply In_nth_error in Hb. destruct Hb as [j Hj].
        apply (nodup_map_neq (slots p) c (length (hp_own p) + j)); [exact GN|exact Hc'|apply in_bufs; exact Hj|]. assert (c < length (hp_own p)) by (apply nth_error_Some; congruence). lia.
  - destruct (nth_error (hp_own p) c) as [s|] eqn:Hc.
    2: { unfold vact_step, contents. rewrite nth_error_map, Hc. reflexivity. }
    assert (Hw : wf (hp_mem p) s) by (apply (good_slot p s G); apply in_or_app; left; eapply nth_error_In; exact Hc).
    destruct (new_own (hp_mem p) s size Hw) as (m' & b & H1 & H2 & H3 & H4 & H5 & H6). rewrite H1. unfold vact_step. unfold contents at 1. rewrite nth_error_map, Hc. cbn [option_map].
    rewrite H2. cbn [obind]. split.
    + split; cbn [hp_mem]; unfold slots; cbn [hp_own hp_bufs]; rewrite (map_app hb_data), app_assoc; cbn [map].
      * apply Forall_app. split; [|constructor; [exact H3|constructor]]. eapply Forall_impl; [|exact GW]. intros t Ht. apply H6. exact Ht.
      * eapply fresh_nodup; [reflexivity|exact H4|rewrite app_nil_r; exact GW|rewrite app_nil_r; exact GN].
    + unfold contents. cbn [hp_own hp_bufs hp_mem]. rewrite map_app. cbn [map]. do 2 f_equal. f_equal.
      * apply map_ext_in. intros t Ht. symmetry. apply H6. apply (good_slot p t G). apply in_or_app. left. exact Ht.
      * f_equal. apply map_ext_in. intros b' Hb. f_equal. symmetry. apply H6. apply (good_slot p (hb_data b') G). apply in_or_app. right. apply in_map. exact Hb.
  - destruct (nth_error (hp_bufs p) c) as [b0|] eqn:Hc.
    2: { unfold vact_step, contents. rewrite nth_error_map, Hc. reflexivity. }
    assert (Hw : wf (hp_mem p) (hb_data b0)) by (apply (good_slot p _ G); apply in_or_app; right; apply in_map; eapply nth_error_In; exact Hc).
    destruct (new_own (hp_mem p) (hb_data b0) size Hw) as (m' & b & H1 & H2 & H3 & H4 & H5 & H6). rewrite H1. unfold vact_step. unfold contents at 1. rewrite nth_error_map, Hc. cbn [option_map].
    unfold copy_buffer. cbn [bdata]. rewrite H2. cbn [obind]. split.
    + split; cbn [hp_mem]; unfold slots; cbn [hp_own hp_bufs]; rewrite (map_app hb_data), app_assoc; cbn [map].
      * apply Forall_app. split; [|constructor; [exact H3|constructor]]. eapply Forall_impl; [|exact GW]. intros t Ht. apply H6. exact Ht.
      * eapply fresh_nodup; [reflexivity|exact H4|rewrite app_nil_r; exact GW|rewrite app_nil_r; exact GN].
    + unfold contents. cbn [hp_own hp_bufs hp_mem]. rewrite map_app. cbn [map]. do 2 f_equal. f_equal.
      * apply map_ext_in. intros t Ht. symmetry. apply H6. apply (good_slot p t G). apply in_or_app. left. exact Ht.
      * f_equal. apply map_ext_in. intros b' Hb. f_equal. symmetry. apply H6. apply (good_slot p (hb_data b') G). apply in_or_app. right. apply in_map. exact Hb.
  - destruct (nth_error (hp_bufs p) c) as [b|] eqn:Hc.
    2: { unfold vact_step, contents. rewrite nth_error_map, Hc. reflexivity. }
    pose proof (in_bufs p c b Hc) as Hc'.
    assert (Hw : wf (hp_mem p) (hb_data b)) by (apply (good_slot p _ G); eapply nth_error_In; exact Hc').
    unfold vact_step. unfold contents at 1. unfold contents at 2. unfold contents at 2. rewrite nth_error_map, Hc. cbn [option_map].
    change (mkBuffer (hb_pipe b) (read (hp_mem p) (hb_data b)) (hb_strategy b)) with (held (hp_mem p) b).
    pose proof (step_own (hp_mem p) b o Hw) as H. destruct (bstep (held (hp_mem p) b) o) as [[v|]|]; [|rewrite H; reflexivity|rewrite H; reflexivity].
    destruct H as (m' & b' & H1 & H2 & (O1 & O2 & O3 & O4 & O5 & O6)). rewrite H1. cbn [obind fst snd].
    assert (Hlt : c < length (hp_bufs p)) by (apply nth_error_Some; congruence).
    assert (OT : forall j t, nth_error (slots p) j = Some t -> j <> length (hp_own p) + c -> read m' t = read (hp_mem p) t).
    { intros j t Hj Hn. apply O6; [apply (good_slot p t G); eapply nth_error_In; exact Hj|]. apply (nodup_map_neq (slots p) (length (hp_own p) + c) j); auto. }
    split.
    + assert (SL : slots (mkHProg m' (hp_own p) (upd (hp_bufs p) c b')) = upd (slots p) (length (hp_own p) + c) (hb_data b')).
      { unfold slots. cbn [hp_own hp_bufs]. rewrite map_upd, upd_app_r. reflexivity. }
      split; rewrite SL; cbn [hp_mem].
      * apply Forall_forall. intros t Ht. apply In_nth_error in Ht. destruct Ht as [j Hj]. rewrite nth_upd_at in Hj by (apply nth_error_Some; congruence).
        destruct (Nat.eqb_spec (length (hp_own p) + c) j).
        -- injection Hj as <-. exact O1.
        -- apply O5. apply (good_slot p t G). eapply nth_error_In; exact Hj.
      * rewrite map_upd. apply NoDup_nth_error. intros i j Hi Hij. rewrite upd_length, map_length in Hi. assert (HX : length (hp_own p) + c < length (map sl_arr (slots p))) by (rewrite map_length; apply nth_error_Some; congruence).
        rewrite !nth_upd_at in Hij by exact HX. rewrite !nth_error_map in Hij.
        assert (NEW : forall k t, nth_error (slots p) k = Some t -> k <> length (hp_own p) + c -> sl_arr t <> sl_arr (hb_data b')).
        { intros k t Hk Hn. destruct O3 as [O3|O3].
          - rewrite O3. apply (nodup_map_neq (slots p) (length (hp_own p) + c) k); auto.
          - assert (wf (hp_mem p) t) as [W _] by (apply (good_slot p t G); eapply nth_error_In; exact Hk). lia. }
        destruct (nth_error (slots p) i) as [si|] eqn:Hsi; [|apply nth_error_None in Hsi; lia].
        destruct (Nat.eqb_spec (length (hp_own p) + c) i) as [ei|ei]; destruct (Nat.eqb_spec (length (hp_own p) + c) j) as [ej|ej]; try congruence.
        -- exfalso. cbn [option_map] in Hij. destruct (nth_error (slots p) j) as [sj|] eqn:Hsj; [|discriminate Hij]. cbn [option_map] in Hij. injection Hij as Hij.
           apply (NEW j sj Hsj); [congruence|]. congruence.
        -- exfalso. cbn [option_map] in Hij. injection Hij as Hij. apply (NEW i si Hsi); congruence.
        -- cbn [option_map] in Hij. destruct (nth_error (slots p) j) as [sj|] eqn:Hsj; [|discriminate Hij]. cbn [option_map] in Hij. injection Hij as Hij.
           destruct (Nat.eq_dec i j) as [e|e]; [exact e|]. exfalso. apply (nodup_map_neq (slots p) i j si sj GN Hsi Hsj e). congruence.
    + unfold contents. cbn [hp_own hp_bufs hp_mem]. do 2 f_equal. f_equal.
      * apply map_ext_in. intros t Ht. symmetry. apply In_nth_error in Ht. destruct Ht as [j Hj]. apply (OT j); [apply in_own; exact Hj|].
        assert (j < length (hp_own p)) by (apply nth_error_Some; congruence). lia.
      * symmetry. eapply map_ext_upd; [exact Hc| |exact H2]. intros j b2 Hj Hn. f_equal. apply (OT (length (hp_own p) + j)); [apply in_bufs; exact Hj|lia].
Qed.

Lemma good0 : good (hp0 (E:=E)).
Proof. split; constructor. Qed.

Lemma acts_sim l : forall p, good p -> seen (hacts grow p l) = vacts (contents p) l /\ forall p', hacts grow p l = Some (Ok p') -> good p'.
Proof.
  induction l as [|a l IH]; intros p G; cbn [hacts vacts].
  - split; [reflexivity|]. intros p' [= <-]. exact G.
  - pose proof (act_sim p a G) as H. destruct (hact_step grow p a) as [[p'|]|].
    + destruct H as [H1 H2]. rewrite H2. apply IH. exact H1.
    + rewrite H. split; [reflexivity|discriminate].
    + rewrite H. split; [reflexivity|discriminate].
Qed.
Lemma buffer_values : forall l : list (hact E), seen (hacts grow hp0 l) = vacts ([], []) l.
Proof. intros l. exact (proj1 (acts_sim l hp0 good0)). Qed.

(** ** Slices returned by Data() *)
Lemma push_room (m : mem) b x n m' b' : wf m (hb_data b) -> has_room b (S n) -> hstore grow (m, b) x = Ok (m', b') ->
  has_room b' n /\ hb_pipe b' = hb_pipe b /\ wf m' (hb_data b') /\ sl_len (hb_data b) <= sl_len (hb_data b') /\
  (sl_arr (hb_data b') = sl_arr (hb_data b) \/ length m <= sl_arr (hb_data b')) /\ length m <= length m' /\
  forall t, wf m t -> wf m' t /\ ((sl_arr t = sl_arr (hb_data b) -> sl_len t <= sl_len (hb_data b)) -> read m' t = read m t).
Proof.
  intros Hw Hr H. unfold hstore, hstrategy_push in H. unfold has_room in Hr.
  assert (A : exists st m1 s1, append grow m (hb_data b) x = (m1, s1) /\ m' = m1 /\ b' = mkHBuffer (hb_pipe b) s1 st /\
     match st, hb_strategy b with InfiniteSize, InfiniteSize => True | FixedSize z p, FixedSize z' p' => z = z' /\ p = (p' + 1)%Z | _, _ => False end).
  { destruct (hb_strategy b) as [size pos|].
    - destruct Hr as [Hp Hs]. unfold slen in Hs. destruct (Z.eqb_spec pos size); [lia|]. destruct (Z.ltb_spec pos (Z.of_nat (sl_len (hb_data b)))); [lia|].
      destruct (append _ _ _ _) as [m1 s1] eqn:Q. cbn [obind] in H. injection H as <- <-. do 3 eexists. split; [reflexivity|]. split; [reflexivity|]. split; [reflexivity|]. cbn. auto.
    - destruct (append _ _ _ _) as [m1 s1] eqn:Q. cbn [obind] in H. injection H as <- <-. do 3 eexists. split; [reflexivity|]. split; [reflexivity|]. split; [reflexivity|]. cbn. auto. }
  destruct A as (st & m1 & s1 & A & -> & -> & Hst). pose proof (append_len _ _ _ _ _ A) as HL.
  destruct (append_spec grow m _ x m1 s1 Hw A) as (A1 & A2 & A3 & A4 & A5 & A6). cbn [hb_pipe hb_data hb_strategy].
  split; [|split; [reflexivity|split; [exact A1|split; [lia|split; [destruct A4; [left|right]; lia|split; [exact HL|]]]]]].
  - unfold has_room. cbn [hb_strategy hb_data hb_pipe]. destruct st as [z q|]; [|exact I]. destruct (hb_strategy b) as [size pos|]; [|contradiction].
    destruct Hst as [-> ->]. destruct Hr as [-> Hr]. rewrite A3. split; lia.
  - intros t Ht. split; [apply A5; exact Ht|]. apply A6. exact Ht.
Qed.

Lemma stores_room xs : forall (m : mem) b n m' b', wf m (hb_data b) -> has_room b (length xs + n) -> ofold (hstore grow) xs (m, b) = Ok (m', b') ->
  has_room b' n /\ hb_pipe b' = hb_pipe b /\ wf m' (hb_data b') /\ sl_len (hb_data b) <= sl_len (hb_data b') /\
  (sl_arr (hb_data b') = sl_arr (hb_data b) \/ length m <= sl_arr (hb_data b')) /\ length m <= length m' /\
  forall t, wf m t -> wf m' t /\ ((sl_arr t = sl_arr (hb_data b) -> sl_len t <= sl_len (hb_data b)) -> read m' t = read m t).
Proof.
  induction xs as [|x xs IH]; intros m b n m' b' Hw Hr H; cbn [ofold length Nat.add] in *.
  - injection H as <- <-. split; [exact Hr|]. split; [reflexivity|]. split; [exact Hw|]. split; [lia|]. split; [left; reflexivity|]. split; [lia|]. auto.
  - destruct (hstore grow (m, b) x) as [[m1 b1]|] eqn:Q; cbn [obind] in H; [|discriminate].
    destruct (push_room m b x _ m1 b1 Hw Hr Q) as (A1 & A2 & A3 & A4 & A5 & A6 & A7). destruct (IH m1 b1 n m' b' A3 A1 H) as (B1 & B2 & B3 & B4 & B5 & B6 & B7).
    split; [exact B1|]. split; [congruence|]. split; [exact B3|]. split; [lia|]. split; [destruct B5 as [->|B5]; [exact A5|right; lia]|]. split; [lia|].
    intros t Ht. destruct (A7 t Ht) as [T1 T2]. destruct (B7 t T1) as [U1 U2]. split; [exact U1|]. intros Hl. rewrite U2; [apply T2; exact Hl|].
    intros Q1. destruct A5 as [A5|A5]; [specialize (Hl ltac:(congruence)); lia|]. destruct Ht as [Ht _]. lia.
Qed.

Definition given (o : bop (option E)) : nat := match o with PushSync _ | PushAsync _ => 1 | Apply => 0 end.
Lemma step_room (m : mem) b o n m' b' : wf m (hb_data b) -> has_room b (given o + n) -> hbstep grow m b o = Some (Ok (m', b')) ->
  has_room b' n /\ wf m' (hb_data b') /\ sl_len (hb_data b) <= sl_len (hb_data b') /\
  (sl_arr (hb_data b') = sl_arr (hb_data b) \/ length m <= sl_arr (hb_data b')) /\ length m <= length m' /\
  forall t, wf m t -> wf m' t /\ ((sl_arr t = sl_arr (hb_data b) -> sl_len t <= sl_len (hb_data b)) -> read m' t = read m t).
Proof.
  intros Hw Hr H. destruct o as [x|x|]; cbn [hbstep given Nat.add] in *.
  - injection H as H. destruct (push_room m b x n m' b' Hw Hr H) as (A1 & _ & A). auto.
  - destruct (_ <? pipe_size)%Z; [|discriminate]. injection H as <- <-. cbn [hb_data]. split.
    + unfold has_room in *. cbn [hb_strategy hb_data hb_pipe]. destruct (hb_strategy b); [|exact I]. destruct Hr as [Hr1 Hr2]. split; [exact Hr1|].
      unfold slen in *. rewrite app_length. cbn [length]. lia.
    + split; [exact Hw|]. split; [lia|]. split; [left; reflexivity|]. split; [lia|]. auto.
  - injection H as H. apply stores_room with (n := n) in H; [|exact Hw|].
    + destruct H as (A1 & _ & A). cbn [hb_data] in A. auto.
    + unfold has_room in *. cbn [hb_strategy hb_data hb_pipe]. destruct (hb_strategy b); [|exact I]. destruct Hr as [Hr1 Hr2]. split; [exact Hr1|].
      unfold slen in *. cbn [length]. lia.
Qed.

(** Nothing but the b-th buffer may write to the array of [t], and it writes behind [t] only. *)
Definition shown_by (p : hprog E) (b : nat) (t : slice) (n : nat) : Prop :=
  wf (hp_mem p) t /\ (exists x, nth_error (hp_bufs p) b = Some x /\ has_room x n) /\ (forall s, In s (hp_own p) -> sl_arr s <> sl_arr t) /\
  (forall j x, nth_error (hp_bufs p) j = Some x -> sl_arr (hb_data x) = sl_arr t -> j = b /\ sl_len t <= sl_len (hb_data x)).

Lemma shown_step p a b t n p' : good p -> shown_by p b t (given_to b a + n) -> hact_step grow p a = Some (Ok p') ->
  shown_by p' b t n /\ read (hp_mem p') t = read (hp_mem p) t.
Proof.
  intros G (S1 & (x0 & S2 & S3) & S4 & S5) H. pose proof S1 as [S1' _]. destruct a as [l|c i x|c size|c size|c o]; cbn [hact_step given_to Nat.add] in *.
  - injection H as <-. split; [|apply read_app; exact S1']. split; [apply app_wf; exact S1|]. split; [exists x0; auto|]. cbn [hp_own hp_bufs]. split; [|exact S5].
    intros s Hs. apply in_app_or in Hs. destruct Hs as [Hs|[<-|[]]]; [auto|]. cbn [sl_arr]. lia.
  - destruct (nth_error (hp_own p) c) as [s|] eqn:Hc; [|discriminate]. injection H as H. destruct (Heap.store _ s i x) as [m'|] eqn:Q; [|discriminate].
    cbn [obind] in H. injection H as <-. apply store_ok in Q. destruct Q as (k & _ & _ & ->). cbn [hp_mem]. apply nth_error_In in Hc.
    split; [|apply read_store_other; specialize (S4 s Hc); congruence]. split; [apply upd_wf; exact S1|]. split; [exists x0; auto|]. auto.
  - destruct (nth_error (hp_own p) c) as [s|] eqn:Hc; [|discriminate]. assert (Hw : wf (hp_mem p) s) by (apply (good_slot p s G); apply in_or_app; left; eapply nth_error_In; exact Hc).
    destruct (new_own (hp_mem p) s size Hw) as (m' & b' & H1 & H2 & H3 & H4 & H5 & H6). rewrite H1 in H. injection H as <-. cbn [hp_mem].
    split; [|apply H6; exact S1]. split; [apply H6; exact S1|]. cbn [hp_bufs hp_own]. split; [exists x0; split; [rewrite nth_error_app1; [exact S2|apply nth_error_Some; congruence]|exact S3]|].
    split; [exact S4|]. intros j y Hj Q. destruct (Nat.lt_ge_cases j (length (hp_bufs p))); [rewrite nth_error_app1 in Hj by assumption; eauto|].
    rewrite nth_error_app2 in Hj by assumption. destruct (j - _) as [|[|?]]; cbn in Hj; try discriminate. injection Hj as <-. lia.
  - destruct (nth_error (hp_bufs p) c) as [s|] eqn:Hc; [|discriminate]. assert (Hw : wf (hp_mem p) (hb_data s)) by (apply (good_slot p _ G); apply in_or_app; right; apply in_map; eapply nth_error_In; exact Hc).
    destruct (new_own (hp_mem p) _ size Hw) as (m' & b' & H1 & H2 & H3 & H4 & H5 & H6). rewrite H1 in H. injection H as <-. cbn [hp_mem].
    split; [|apply H6; exact S1]. split; [apply H6; exact S1|]. cbn [hp_bufs hp_own]. split; [exists x0; split; [rewrite nth_error_app1; [exact S2|apply nth_error_Some; congruence]|exact S3]|].
    split; [exact S4|]. intros j y Hj Q. destruct (Nat.lt_ge_cases j (length (hp_bufs p))); [rewrite nth_error_app1 in Hj by assumption; eauto|].
    rewrite nth_error_app2 in Hj by assumption. destruct (j - _) as [|[|?]]; cbn in Hj; try discriminate. injection Hj as <-. lia.
  - destruct (nth_error (hp_bufs p) c) as [y|] eqn:Hc; [|discriminate]. assert (Hw : wf (hp_mem p) (hb_data y)) by (apply (good_slot p _ G); apply in_or_app; right; apply in_map; eapply nth_error_In; exact Hc).
    destruct (hbstep grow (hp_mem p) y o) as [r|] eqn:Q; [|discriminate]. injection H as H. destruct r as [[m' y']|]; cbn [obind fst snd] in H; [|discriminate]. injection H as <-.
    assert (Hlt : c < length (hp_bufs p)) by (apply nth_error_Some; congruence).
    destruct (Nat.eqb_spec c b) as [e|e].
    + subst c. rewrite Hc in S2. injection S2 as <-. replace (match o with PushSync _ | PushAsync _ => 1 | Apply => 0 end) with (given o) in S3 by reflexivity.
      destruct (step_room (hp_mem p) y o n m' y' Hw S3 Q) as (A1 & A2 & A3 & A4 & A5 & A6). destruct (A6 t S1) as [T1 T2]. cbn [hp_mem].
      split; [|apply T2; intros Z1; apply (S5 b y Hc); congruence]. split; [exact T1|]. cbn [hp_bufs hp_own].
      split; [exists y'; rewrite nth_upd_at by exact Hlt; rewrite Nat.eqb_refl; auto|]. split; [exact S4|]. intros j z Hj Q1. rewrite nth_upd_at in Hj by exact Hlt.
      destruct (Nat.eqb_spec b j) as [ej|ej]; [|exact (S5 j z Hj Q1)]. injection Hj as <-. split; [congruence|]. destruct A4 as [A4|A4]; [|lia].
      destruct (S5 b y Hc ltac:(congruence)). lia.
    + pose proof (step_own (hp_mem p) y o Hw) as V. destruct (bstep _ o) as [[v|]|]; [|congruence|congruence]. destruct V as (m2 & y2 & V1 & V2 & (O1 & O2 & O3 & O4 & O5 & O6)).
      rewrite Q in V1. injection V1 as <- <-. cbn [hp_mem].
      assert (Hn : sl_arr t <> sl_arr (hb_data y)) by (intros Z1; destruct (S5 c y Hc ltac:(congruence)); congruence).
      split; [|apply O6; [exact S1|exact Hn]]. split; [apply O5; exact S1|]. cbn [hp_bufs hp_own].
      split; [exists x0; rewrite nth_upd_at by exact Hlt; destruct (Nat.eqb_spec c b); [contradiction|]; split; [exact S2|]; destruct o; exact S3|].
      split; [exact S4|]. intros j z Hj Q1. rewrite nth_upd_at in Hj by exact Hlt.
      destruct (Nat.eqb_spec c j) as [ej|ej]; [|exact (S5 j z Hj Q1)]. injection Hj as <-. exfalso. destruct O3 as [O3|O3]; [congruence|lia].
Qed.

Lemma shown_acts l : forall p b t p', good p -> shown_by p b t (list_sum (map (given_to b) l)) -> hacts grow p l = Some (Ok p') -> read (hp_mem p') t = read (hp_mem p) t.
Proof.
  induction l as [|a l IH]; intros p b t p' G S H; cbn [hacts map list_sum fold_right] in *.
  - injection H as <-. reflexivity.
  - destruct (hact_step grow p a) as [[p1|]|] eqn:Q; try discriminate. destruct (shown_step p a b t _ p1 G S Q) as [S1 R]. rewrite <- R.
    apply (IH p1 b t p'); [|exact S1|exact H]. pose proof (act_sim p a G) as V. rewrite Q in V. apply V.
Qed.

Lemma data_stays : forall (l1 : list (hact E)) p1 b x l2 p2, hacts grow hp0 l1 = Some (Ok p1) -> nth_error (hp_bufs p1) b = Some x ->
  has_room x (list_sum (map (given_to b) l2)) -> hacts grow p1 l2 = Some (Ok p2) -> read (hp_mem p2) (hb_data x) = read (hp_mem p1) (hb_data x).
Proof.
  intros l1 p1 b x l2 p2 H1 Hb Hr H2. pose proof (proj2 (acts_sim l1 hp0 good0) p1 H1) as G. pose proof G as [GW GN]. apply (shown_acts l2 p1 b _ p2 G); [|exact H2].
  split; [apply (good_slot p1 _ G); apply in_or_app; right; apply in_map; eapply nth_error_In; exact Hb|]. split; [exists x; auto|]. pose proof (in_bufs p1 b x Hb) as Hb'. split.
  - intros s Hs. apply In_nth_error in Hs. destruct Hs as [j Hj]. apply (nodup_map_neq (slots p1) (length (hp_own p1) + b) j); [exact GN|exact Hb'|apply in_own; exact Hj|].
    assert (j < length (hp_own p1)) by (apply nth_error_Some; congruence). lia.
  - intros j y Hj Q. destruct (Nat.eq_dec j b) as [->|e]; [split; [reflexivity|]; rewrite Hb in Hj; injection Hj as <-; lia|]. exfalso.
    apply (nodup_map_neq (slots p1) (length (hp_own p1) + b) (length (hp_own p1) + j) (hb_data x) (hb_data y) GN Hb'); [apply in_bufs; exact Hj|lia|exact Q].
Qed.
End S.

(** A full frame of two elements: the next push is seen through the slice obtained before. *)
Definition frame_new : list (hact Z) := [OwnNew [Some 1%Z; Some 2%Z]; BufNew 0 2].
Definition frame_push : list (hact Z) := [BufOp 0 (PushSync (Some 3%Z))].
Lemma data_changes : forall grow, exists p1 x p2, hacts grow hp0 frame_new = Some (Ok p1) /\ nth_error (hp_bufs p1) 0 = Some x /\ hacts grow p1 frame_push = Some (Ok p2) /\
  read (hp_mem p1) (hb_data x) = [Some 1%Z; Some 2%Z] /\ read (hp_mem p2) (hb_data x) = [Some 3%Z; Some 2%Z] /\ fst (contents p2) = [[Some 1%Z; Some 2%Z]].
Proof. intros grow. do 3 eexists. repeat (split; [reflexivity|]). reflexivity. Qed.
