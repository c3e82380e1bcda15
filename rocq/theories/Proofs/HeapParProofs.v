(** C111: the parallel strategy in memory, for all interleavings. *)
From Coq Require Import List ZArith Lia Bool Arith.
From Verif Require Import Base.Go Base.Num Model.Clustering Model.Par Model.Kmeans Model.Heap Model.HeapPar
  Spec.NearestSpec Proofs.GoLemmas Proofs.NumLaws Proofs.ParProofs Proofs.ParReduceProofs Proofs.KmeansProofs Proofs.Represent Proofs.HeapProofs.
Import ListNotations.

Section S.
Context {E F : Type} (N : Num F) (Sp : Space E F).
Notation mem := (mem E).

Definition keeps (m m' : mem) : Prop := length m <= length m' /\ forall t, wf m t -> wf m' t /\ read m' t = read m t.
Lemma keeps_refl m : keeps m m.
Proof. split; [lia|auto]. Qed.
Lemma keeps_trans m m1 m2 : keeps m m1 -> keeps m1 m2 -> keeps m m2.
Proof. intros [L1 K1] [L2 K2]. split; [lia|]. intros t Ht. destruct (K1 t Ht) as [A1 A2]. destruct (K2 t A1) as [B1 B2]. split; [exact B1|congruence]. Qed.
Lemma keeps_new m n : keeps m (m ++ [repeat None n]).
Proof. split; [rewrite app_length; lia|]. intros t Ht. split; [apply app_wf; exact Ht|apply read_app; apply Ht]. Qed.

Lemma nodup_snoc {A} (l : list A) a : NoDup l -> ~ In a l -> NoDup (l ++ [a]).
Proof. intros H1 H2. apply (NoDup_Add (a:=a) (l:=l ++ [])); [apply Add_app|]. rewrite app_nil_r. auto. Qed.

Lemma f2_impl {A B} (R S : A -> B -> Prop) l r : (forall a b, R a b -> S a b) -> Forall2 R l r -> Forall2 S l r.
Proof. intros H. induction 1; constructor; auto. Qed.
Lemma f2_idx {A B} (R : A -> B -> Prop) l : forall r, Forall2 R l r <-> length l = length r /\ forall i a b, nth_error l i = Some a -> nth_error r i = Some b -> R a b.
Proof.
  induction l as [|x l IH]; intros [|y r]; split.
  - intros _. split; [reflexivity|]. intros [|i]; discriminate.
  - constructor.
  - inversion 1.
  - intros [H _]. discriminate.
  - inversion 1.
  - intros [H _]. discriminate.
  - intros H. inversion H as [|? ? ? ? H1 H2]; subst. apply IH in H2. destruct H2 as [H2 H3]. split; [cbn; congruence|]. intros [|i] a b; cbn; [congruence|apply H3].
  - intros [H1 H2]. constructor; [apply (H2 0); reflexivity|]. apply IH. split; [cbn in H1; congruence|]. intros i. apply (H2 (Datatypes.S i)).
Qed.
Lemma nth_upd_at {A} (l : list A) n a m : n < length l -> nth_error (upd l n a) m = if Nat.eqb n m then Some a else nth_error l m.
Proof. intros H. rewrite nth_error_upd. rewrite Nat.eqb_sym. destruct (Nat.ltb_spec n (length l)); [|lia]. rewrite andb_true_r. reflexivity. Qed.

(** The reduction of ReduceDBA, one element. *)
Definition reduce_step (cs : list E) (st : list (option E) * list Z) (x : E) : outcome (list (option E) * list Z) :=
  let* r := assign N Sp cs x in let '(_, ix, _) := r in dba_add Sp ix x st.

Definition worker_inv (m0 : mem) (n : nat) (cs : list E) (m : mem) (part : list E) (w : worker E) : Prop :=
  wf m (w_dbas w) /\ length m0 <= sl_arr (w_dbas w) /\ sl_len (w_dbas w) = n /\
  exists seen, part = seen ++ w_todo w /\ ofold (reduce_step cs) seen (repeat None n, repeat 0%Z n) = Ok (read m (w_dbas w), w_cards w).
Definition par_inv (m0 : mem) (n : nat) (cs : list E) (parts : list (list E)) (p : mem * list (worker E)) : Prop :=
  keeps m0 (fst p) /\ NoDup (map (fun w => sl_arr (w_dbas w)) (snd p)) /\ Forall2 (worker_inv m0 n cs (fst p)) parts (snd p).

Lemma only_wf r (m m' : mem) v t : only r m m' v -> wf m t -> sl_arr t <> sl_arr r -> wf m' t.
Proof.
  intros (A1 & A2 & A3 & A4) Ht Hn. pose proof (read_length _ _ Ht) as L. rewrite <- (A4 t Hn) in L. destruct Ht as [H1 H2]. split; [lia|].
  unfold read in L. rewrite firstn_length in L. lia.
Qed.
Lemma only_keeps m0 r (m m' : mem) v : keeps m0 m -> length m0 <= sl_arr r -> only r m m' v -> keeps m0 m'.
Proof.
  intros [L K] Hr HO. pose proof HO as (A1 & A2 & A3 & A4). split; [lia|]. intros t Ht. destruct (K t Ht) as [B1 B2].
  assert (sl_arr t <> sl_arr r) by (destruct Ht; lia). split; [eapply only_wf; eauto|]. rewrite A4; auto.
Qed.

Lemma hstart_loop c cs : forall parts m m0 done ws, par_inv m0 (sl_len c) cs done (m, ws) ->
  par_inv m0 (sl_len c) cs (done ++ parts)
    (fold_left (fun '(m, ws) part => (m ++ [repeat None (sl_len c)], ws ++ [mkWorker (mkSlice (length m) (sl_len c)) (repeat 0%Z (sl_len c)) part])) parts (m, ws)).
Proof.
  induction parts as [|part parts IH]; intros m m0 done ws (K & D & HF); cbn [fst snd] in *; cbn [fold_left].
  - rewrite app_nil_r. split; auto.
  - replace (done ++ part :: parts) with ((done ++ [part]) ++ parts) by (rewrite <- app_assoc; reflexivity).
    apply IH. unfold par_inv. cbn [fst snd]. pose proof (keeps_new m (sl_len c)) as KN. split; [eapply keeps_trans; eauto|]. split.
    + rewrite map_app. cbn [map sl_arr w_dbas]. apply nodup_snoc; [exact D|]. intros H. apply in_map_iff in H. destruct H as (w & W1 & W2).
      assert (wf m (w_dbas w)) as [W _].
      { apply In_nth_error in W2. destruct W2 as [j Hj]. clear -HF Hj. revert j Hj. induction HF as [|p w0 ps ws H _ IH]; intros [|j] Hj; cbn in Hj; try discriminate; [injection Hj as <-; apply H|eauto]. }
      lia.
    + apply Forall2_app.
      * eapply f2_impl; [|exact HF]. intros p w (W1 & W2 & W3 & seen & W4 & W5). destruct (proj2 KN _ W1) as [V1 V2]. split; [exact V1|]. split; [exact W2|]. split; [exact W3|].
        exists seen. rewrite V2. auto.
      * constructor; [|constructor]. split; [apply wf_new|]. cbn [w_dbas sl_arr sl_len w_todo w_cards]. split; [apply K|]. split; [reflexivity|]. exists []. split; [reflexivity|].
        cbn [ofold]. rewrite read_new. reflexivity.
Qed.

Lemma hstart_inv (m : mem) c cs parts : par_inv m (sl_len c) cs parts (hstart m c parts).
Proof.
  unfold hstart. apply (hstart_loop c cs parts m m [] []). split; [apply keeps_refl|]. split; [constructor|constructor].
Qed.

Lemma forall2_nth {A B} (R : A -> B -> Prop) l r : Forall2 R l r -> forall i b, nth_error r i = Some b -> exists a, nth_error l i = Some a /\ R a b.
Proof. induction 1 as [|a b0 l r H _ IH]; intros [|i] b Hb; cbn in *; try discriminate; [injection Hb as <-; eauto|eauto]. Qed.

Lemma nodup_arr (ws : list (worker E)) i j w v : NoDup (map (fun w => sl_arr (w_dbas w)) ws) -> nth_error ws i = Some w -> nth_error ws j = Some v -> i <> j ->
  sl_arr (w_dbas v) <> sl_arr (w_dbas w).
Proof.
  intros H Hi Hj Hn Q. apply Hn. apply (proj1 (NoDup_nth_error _) H).
  - rewrite map_length. apply nth_error_Some. congruence.
  - rewrite !nth_error_map, Hi, Hj. cbn. congruence.
Qed.

Definition parts_ok (cs : list E) (parts : list (list E)) : Prop := forall part, In part parts -> exists r, reduce_dba N Sp cs part = Ok r.

Lemma par_step_inv (m0 : mem) c cs parts p i : wf m0 c -> read m0 c = map Some cs -> parts_ok cs parts -> par_inv m0 (sl_len c) cs parts p ->
  match par_step N Sp c p i with Some (Ok p') => par_inv m0 (sl_len c) cs parts p' | Some Panic => False | None => True end.
Proof.
  intros Hw Hc Hok (K & D & HF). destruct p as [m ws]. cbn [fst snd] in *. unfold par_step. cbn [fst snd].
  destruct (nth_error ws i) as [w|] eqn:Hi; [|exact I]. destruct (forall2_nth _ _ _ HF i w Hi) as (part & Hp & (W1 & W2 & W3 & seen & W4 & W5)).
  unfold worker_step. destruct (w_todo w) as [|x todo] eqn:Ht; [exact I|]. destruct (proj2 K c Hw) as [C1 C2]. rewrite C2, Hc, elements_some. cbn [obind].
  assert (Hlen : sl_len c = length cs) by (rewrite <- (read_length _ _ Hw), Hc; apply map_length).
  destruct (Hok part (nth_error_In _ _ Hp)) as [res Hres]. unfold reduce_dba in Hres. rewrite <- Hlen, W4 in Hres. rewrite ofold_app in Hres.
  change (fun (st : list (option E) * list Z) (elemt : E) => let* r := assign N Sp cs elemt in let '(_, ix, _) := r in dba_add Sp ix elemt st) with (reduce_step cs) in Hres.
  rewrite W5 in Hres. cbn [obind ofold] in Hres. destruct (reduce_step cs (read m (w_dbas w), w_cards w) x) as [[v cards]|] eqn:Hs; [|discriminate Hres].
  pose proof Hs as Hs'. unfold reduce_step in Hs. destruct (assign N Sp cs x) as [[[a l] d]|]; [|discriminate Hs]. cbn [obind] in Hs |- *.
  pose proof (hdba_add_sim Sp m (w_dbas w) (w_cards w) l x W1) as Hd. rewrite Hs in Hd. destruct Hd as (m' & Hd & HO). rewrite Hd. cbn [obind fst snd].
  pose proof HO as (O1 & O2 & O3 & O4). assert (Hlt : i < length ws) by (apply nth_error_Some; congruence).
  unfold par_inv. cbn [fst snd]. split; [eapply only_keeps; eauto|]. split.
  - replace (map (fun w0 => sl_arr (w_dbas w0)) (upd ws i _)) with (map (fun w0 : worker E => sl_arr (w_dbas w0)) ws); [exact D|].
    clear -Hi. revert i Hi. induction ws as [|y ws IH]; intros [|i] Hi; cbn in *; try discriminate; [injection Hi as ->; reflexivity|]. f_equal. apply IH. exact Hi.
  - apply f2_idx in HF. destruct HF as [HL HF]. apply f2_idx. split; [rewrite upd_length; exact HL|]. intros j pa b Hpa Hb. rewrite nth_upd_at in Hb by exact Hlt.
    destruct (Nat.eqb_spec i j) as [<-|Hn].
    + injection Hb as <-. rewrite Hp in Hpa. injection Hpa as <-. split; [exact O1|]. cbn [w_dbas w_todo w_cards]. split; [exact W2|]. split; [exact W3|].
      exists (seen ++ [x]). split; [rewrite W4, <- app_assoc; reflexivity|]. rewrite ofold_app, W5. cbn [obind ofold]. rewrite Hs'. cbn [obind]. rewrite O2. reflexivity.
    + destruct (HF j pa b Hpa Hb) as (V1 & V2 & V3 & s2 & V4 & V5). assert (Hne : sl_arr (w_dbas b) <> sl_arr (w_dbas w)) by (eapply nodup_arr; eauto).
      split; [eapply only_wf; eauto|]. split; [exact V2|]. split; [exact V3|]. exists s2. split; [exact V4|]. rewrite O4 by exact Hne. exact V5.
Qed.

Lemma par_steps_inv (m0 : mem) c cs parts schedule : wf m0 c -> read m0 c = map Some cs -> parts_ok cs parts -> forall p, par_inv m0 (sl_len c) cs parts p ->
  match par_steps N Sp c p schedule with Some (Ok p') => par_inv m0 (sl_len c) cs parts p' | Some Panic => False | None => True end.
Proof.
  intros Hw Hc Hok. induction schedule as [|i schedule IH]; intros p Hp; cbn [par_steps]; [exact Hp|].
  pose proof (par_step_inv m0 c cs parts p i Hw Hc Hok Hp) as H. destruct (par_step N Sp c p i) as [[p'|]|]; [apply IH; exact H|exact H|exact I].
Qed.

(** ** The aggregation *)
Lemma combine_sim a (o : worker E) ocards is : sl_arr (w_dbas o) <> sl_arr a -> w_cards o = ocards -> forall (m : mem) cards, wf m a ->
  match ofold (fun st i =>
    let '(dbas, cards) := st in
    let* ci := sget cards i in
    if (ci =? 0)%Z then
      let* od := sget (read m (w_dbas o)) i in
      let* dbas := sset dbas i od in
      let* oc := sget ocards i in
      let* cards := sset cards i oc in
      Ok (dbas, cards)
    else
      let* oc := sget ocards i in
      if (0 <? oc)%Z then
        let* ad := sget dbas i in
        let* od := sget (read m (w_dbas o)) i in
        match ad, od with
        | Some ad, Some od =>
            let* dbas := sset dbas i (Some (scombine Sp ad ci od oc)) in
            let* cards := sset cards i (ci + oc)%Z in
            Ok (dbas, cards)
        | _, _ => Panic
        end
      else Ok (dbas, cards)) is (read m a, cards) with
  | Ok (v, cards') => exists m', ofold (fun st i =>
    let '(m, cards) := st in
    let* ci := sget cards i in
    if (ci =? 0)%Z then
      let* od := sget (read m (w_dbas o)) i in
      let* m := store m a i od in
      let* oc := sget (w_cards o) i in
      let* cards := sset cards i oc in
      Ok (m, cards)
    else
      let* oc := sget (w_cards o) i in
      if (0 <? oc)%Z then
        let* ad := sget (read m a) i in
        let* od := sget (read m (w_dbas o)) i in
        match ad, od with
        | Some ad, Some od =>
            let* m := store m a i (Some (scombine Sp ad ci od oc)) in
            let* cards := sset cards i (ci + oc)%Z in
            Ok (m, cards)
        | _, _ => Panic
        end
      else Ok (m, cards)) is (m, cards) = Ok (m', cards') /\ only a m m' v
  | Panic => True
  end.
Proof.
  intros Hne <-. induction is as [|i is IH]; intros m cards Hwf; cbn [ofold].
  - exists m. split; [reflexivity|]. repeat (split; auto); apply Hwf.
  - destruct (sget cards i) as [ci|]; cbn [obind]; [|exact I]. destruct (ci =? 0)%Z.
    + destruct (sget (read m (w_dbas o)) i) as [od|]; cbn [obind]; [|exact I]. pose proof (store_sset m a i od Hwf) as Hs.
      destruct (sset (read m a) i od) as [v|]; [|exact I]. destruct Hs as (m1 & -> & HO). cbn [obind]. destruct (sget (w_cards o) i) as [oc|]; cbn [obind]; [|exact I].
      destruct (sset cards i oc) as [cards1|]; cbn [obind]; [|exact I]. pose proof HO as (O1 & O2 & O3 & O4). specialize (IH m1 cards1 O1). rewrite O2, O4 in IH by exact Hne.
      destruct (ofold _ is (v, cards1)) as [[v2 cards2]|]; [|exact I]. destruct IH as (m2 & I1 & I2). exists m2. split; [exact I1|]. eapply only_trans; eauto.
    + destruct (sget (w_cards o) i) as [oc|]; cbn [obind]; [|exact I]. destruct (0 <? oc)%Z.
      * destruct (sget (read m a) i) as [[ad|]|]; cbn [obind]; [|destruct (sget (read m (w_dbas o)) i) as [od|]; cbn [obind]; exact I|exact I].
        destruct (sget (read m (w_dbas o)) i) as [[od|]|]; cbn [obind]; try exact I. pose proof (store_sset m a i (Some (scombine Sp ad ci od oc)) Hwf) as Hs.
        destruct (sset (read m a) i _) as [v|]; [|exact I]. destruct Hs as (m1 & -> & HO). cbn [obind].
        destruct (sset cards i (ci + oc)%Z) as [cards1|]; cbn [obind]; [|exact I]. pose proof HO as (O1 & O2 & O3 & O4). specialize (IH m1 cards1 O1). rewrite O2, O4 in IH by exact Hne.
        destruct (ofold _ is (v, cards1)) as [[v2 cards2]|]; [|exact I]. destruct IH as (m2 & I1 & I2). exists m2. split; [exact I1|]. eapply only_trans; eauto.
      * cbn [obind]. apply (IH m cards Hwf).
Qed.

Lemma hcombine_sim a (o : worker E) (m : mem) cards v cards' : sl_arr (w_dbas o) <> sl_arr a -> wf m a ->
  dba_combine Sp (read m a, cards) (read m (w_dbas o), w_cards o) = Ok (v, cards') ->
  exists m', hdba_combine Sp a (m, cards) o = Ok (m', cards') /\ only a m m' v.
Proof.
  intros Hne Hwf H. unfold dba_combine in H. cbn [fst snd] in H. rewrite (read_length _ _ Hwf) in H.
  pose proof (combine_sim a o (w_cards o) (map Z.of_nat (seq 0 (sl_len a))) Hne eq_refl m cards Hwf) as S. rewrite H in S. exact S.
Qed.

Lemma combines_sim a (ws : list (worker E)) : forall (m : mem) cards results v cards', wf m a -> (forall w, In w ws -> wf m (w_dbas w) /\ sl_arr (w_dbas w) <> sl_arr a) ->
  Forall2 (fun r w => r = (read m (w_dbas w), w_cards w)) results ws ->
  ofold (dba_aggregate_step Sp) results (Some (read m a, cards)) = Ok (Some (v, cards')) ->
  exists m', ofold (hdba_combine Sp a) ws (m, cards) = Ok (m', cards') /\ only a m m' v.
Proof.
  induction ws as [|w ws IH]; intros m cards results v cards' Hwf Hws HF H; inversion HF as [|r ? rs ? Hr HF']; subst; cbn [ofold] in *.
  - injection H as <- <-. exists m. split; [reflexivity|]. repeat (split; auto); apply Hwf.
  - cbn [dba_aggregate_step] in H. destruct (dba_combine Sp (read m a, cards) (read m (w_dbas w), w_cards w)) as [[v1 cards1]|] eqn:Q; [|discriminate H]. cbn [obind] in H.
    destruct (Hws w (or_introl eq_refl)) as [_ Hne]. destruct (hcombine_sim a w m cards v1 cards1 Hne Hwf Q) as (m1 & H1 & HO). rewrite H1. cbn [obind].
    pose proof HO as (O1 & O2 & O3 & O4). rewrite <- O2 in H. destruct (IH m1 cards1 rs v cards' O1) as (m2 & I1 & I2); [| |exact H|].
    + intros w' Hw'. destruct (Hws w' (or_intror Hw')) as [A1 A2]. split; [eapply only_wf; eauto|exact A2].
    + apply f2_idx in HF'. destruct HF' as [L HF']. apply f2_idx. split; [exact L|]. intros i r w' A1 A2. rewrite (HF' i r w' A1 A2). rewrite O4; [reflexivity|].
      apply (Hws w'). right. eapply nth_error_In; exact A2.
    + exists m2. split; [exact I1|]. eapply only_trans; eauto.
Qed.

Lemma build_loop_sim r a c (cs : list E) cards is : sl_arr c <> sl_arr r -> sl_arr a <> sl_arr r -> forall m : mem, wf m r -> read m c = map Some cs ->
  match ofold (fun result i =>
      let* ci := sget cards i in
      if (0 <? ci)%Z then let* d := sget (read m a) i in sset result i d else let* d := sget cs i in sset result i (Some d)) is (read m r) with
  | Ok v => exists m', ofold (fun m i =>
      let* ci := sget cards i in
      if (0 <? ci)%Z then let* d := sget (read m a) i in store m r i d else let* d := sget (read m c) i in store m r i d) is m = Ok m' /\ only r m m' v
  | Panic => True
  end.
Proof.
  intros Hc Ha. induction is as [|i is IH]; intros m Hwf Hr; cbn [ofold].
  - exists m. split; [reflexivity|]. repeat (split; auto); apply Hwf.
  - destruct (sget cards i) as [ci|]; cbn [obind]; [|exact I].
    assert (G : forall d, match obind (sset (read m r) i d) (ofold (fun result i =>
        let* ci := sget cards i in
        if (0 <? ci)%Z then let* d := sget (read m a) i in sset result i d else let* d := sget cs i in sset result i (Some d)) is) with
      | Ok v => exists m', obind (store m r i d) (ofold (fun m i =>
        let* ci := sget cards i in
        if (0 <? ci)%Z then let* d := sget (read m a) i in store m r i d else let* d := sget (read m c) i in store m r i d) is) = Ok m' /\ only r m m' v
      | Panic => True end).
    { intros d. pose proof (store_sset m r i d Hwf) as Hs. destruct (sset (read m r) i d) as [v|]; cbn [obind]; [|exact I]. destruct Hs as (m1 & -> & HO). cbn [obind].
      pose proof HO as (O1 & O2 & O3 & O4). specialize (IH m1 O1). rewrite O2, !O4 in IH by assumption. specialize (IH Hr).
      destruct (ofold _ is v) as [v2|]; [|exact I]. destruct IH as (m2 & I1 & I2). exists m2. split; [exact I1|]. eapply only_trans; eauto. }
    destruct (0 <? ci)%Z.
    + destruct (sget (read m a) i) as [d|]; cbn [obind]; [apply G|exact I].
    + rewrite Hr. assert (Hg : sget (map Some cs) i = match sget cs i with Ok c => Ok (Some c) | Panic => Panic end).
      { unfold sget. destruct (i <? 0)%Z; [reflexivity|]. rewrite nth_error_map. destruct (nth_error cs (Z.to_nat i)); reflexivity. }
      rewrite Hg. destruct (sget cs i) as [y|]; cbn [obind]; [apply G|exact I].
Qed.

Lemma hbuild_sim2 (m : mem) c (cs : list E) a cards v : wf m c -> wf m a -> read m c = map Some cs -> build_result cs (read m a, cards) = Ok (v, cards) ->
  exists m' r, hbuild_result m c a cards = Ok (m', r) /\ wf m' r /\ read m' r = v /\ sl_arr r = length m /\ keeps m m'.
Proof.
  intros Hc Ha Hr H. unfold build_result in H. cbn [fst snd] in H. unfold hbuild_result. cbv zeta. set (r := mkSlice (length m) (sl_len a)). set (m0 := m ++ [repeat None (sl_len a)]).
  assert (Hn1 : sl_arr c <> sl_arr r) by (cbn; destruct Hc; lia). assert (Hn2 : sl_arr a <> sl_arr r) by (cbn; destruct Ha; lia).
  assert (W0 : wf m0 r) by apply wf_new. assert (R0 : read m0 r = repeat None (sl_len a)) by apply read_new.
  assert (RA : read m0 a = read m a) by (apply read_app; apply Ha). assert (RC : read m0 c = map Some cs) by (rewrite <- Hr; apply read_app; apply Hc).
  pose proof (build_loop_sim r a c cs cards (map Z.of_nat (seq 0 (length cs))) Hn1 Hn2 m0 W0 RC) as S. rewrite R0, RA in S. rewrite (read_length _ _ Ha) in H.
  assert (Hlen : sl_len c = length cs) by (rewrite <- (read_length _ _ Hc), Hr; apply map_length). rewrite Hlen.
  destruct (ofold _ _ (repeat None (sl_len a))) as [v'|]; [|discriminate H]. cbn [obind] in H. injection H as ->. destruct S as (m' & S1 & S2). rewrite S1. cbn [obind].
  exists m', r. split; [reflexivity|]. pose proof S2 as (O1 & O2 & O3 & O4). split; [exact O1|]. split; [exact O2|]. split; [reflexivity|].
  apply (only_keeps m r m0 m' v); [apply keeps_new|subst r; cbn [sl_arr]; lia|exact S2].
Qed.

Lemma join_sim (m0 : mem) c (cs : list E) (m : mem) (ws : list (worker E)) results aggr v : wf m0 c -> read m0 c = map Some cs -> keeps m0 m ->
  NoDup (map (fun w => sl_arr (w_dbas w)) ws) -> ws <> [] -> Forall2 (fun r w => wf m (w_dbas w) /\ length m0 <= sl_arr (w_dbas w) /\ r = (read m (w_dbas w), w_cards w)) results ws ->
  dba_aggregate Sp results = Ok aggr -> build_result cs aggr = Ok (v, snd aggr) ->
  exists m' r, hpar_join Sp m c ws = Ok (m', r) /\ wf m' r /\ read m' r = v /\ length m0 <= sl_arr r /\ keeps m0 m'.
Proof.
  intros Hw Hc K D Hne HF Ha Hb. destruct ws as [|w ws]; [contradiction|]. inversion HF as [|r ? rs ? (W1 & W2 & ->) HF']; subst. unfold dba_aggregate in Ha. cbn [ofold dba_aggregate_step obind] in Ha.
  destruct (ofold (dba_aggregate_step Sp) rs (Some (read m (w_dbas w), w_cards w))) as [[[va ca]|]|] eqn:Q; [| |discriminate Ha].
  2: { exfalso. clear -Q. revert Q. generalize (read m (w_dbas w), w_cards w). induction rs as [|y rs IH]; intros p Q; cbn [ofold dba_aggregate_step] in Q; [discriminate|].
       destruct (dba_combine Sp p y) as [q|]; [|discriminate Q]. cbn [obind] in Q. eapply IH. exact Q. }
  cbn [obind] in Ha. injection Ha as <-. cbn [hpar_join].
  destruct (combines_sim (w_dbas w) ws m (w_cards w) rs va ca W1) as (m1 & H1 & HO); [| |exact Q|].
  - intros w' Hw'. apply In_nth_error in Hw'. destruct Hw' as [j Hj]. destruct (forall2_nth _ _ _ HF' j w' Hj) as (r' & _ & (A1 & A2 & _)). split; [exact A1|].
    cbn [map] in D. inversion D as [|? ? D1 D2]; subst. intros Z1. apply D1. rewrite <- Z1. apply (in_map (fun w0 => sl_arr (w_dbas w0))). eapply nth_error_In; exact Hj.
  - eapply f2_impl; [|exact HF']. intros r' w' (_ & _ & A3). exact A3.
  - rewrite H1. cbn [obind fst snd]. pose proof HO as (O1 & O2 & O3 & O4). assert (K1 : keeps m0 m1) by (eapply only_keeps; eauto).
    destruct (proj2 K1 c Hw) as [C1 C2]. cbn [snd] in Hb. rewrite <- O2 in Hb. destruct (hbuild_sim2 m1 c cs (w_dbas w) ca v C1 O1 ltac:(congruence) Hb) as (m' & r' & B1 & B2 & B3 & B4 & B5).
    exists m', r'. split; [exact B1|]. split; [exact B2|]. split; [exact B3|]. split; [rewrite B4; apply K1|]. eapply keeps_trans; eauto.
Qed.

Lemma omap_split {A B C} (f : A -> outcome B) (g : B -> outcome C) l rs : omap (fun x => let* y := f x in g y) l = Ok rs -> exists ys, omap f l = Ok ys /\ omap g ys = Ok rs.
Proof.
  revert rs. induction l as [|x l IH]; intros rs H; cbn [omap] in *.
  - injection H as <-. exists []. auto.
  - destruct (f x) as [y|]; cbn [obind] in *; [|discriminate H]. destruct (g y) as [z|] eqn:Q; cbn [obind] in H; [|discriminate H].
    destruct (omap _ l) as [zs|]; cbn [obind] in H; [|discriminate H]. injection H as <-. destruct (IH zs eq_refl) as (ys & I1 & I2). exists (y :: ys). rewrite I1. cbn [obind omap].
    split; [reflexivity|]. rewrite Q. cbn [obind]. rewrite I2. reflexivity.
Qed.

(** Steps left. *)
Definition steps_left (ws : list (worker E)) : nat := list_sum (map (fun w => length (w_todo w)) ws).
Lemma left_upd ws : forall i (w w' : worker E), nth_error ws i = Some w -> length (w_todo w) = S (length (w_todo w')) -> steps_left ws = S (steps_left (upd ws i w')).
Proof.
  unfold steps_left. induction ws as [|v ws IH]; intros [|i] w w' Hi Hl; cbn [nth_error] in Hi; try discriminate.
  - injection Hi as ->. cbn. unfold list_sum in *. lia.
  - specialize (IH i w w' Hi Hl). cbn in *. unfold list_sum in *. lia.
Qed.
Lemma left_step c p i p' : par_step N Sp c p i = Some (Ok p') -> steps_left (snd p) = S (steps_left (snd p')).
Proof.
  unfold par_step. destruct (nth_error (snd p) i) as [w|] eqn:Hi; [|discriminate]. unfold worker_step. destruct (w_todo w) as [|x todo] eqn:Ht; [discriminate|].
  destruct (elements (read (fst p) c)) as [cl|]; cbn [obind]; [|discriminate]. destruct (assign N Sp cl x) as [[[a l] d]|]; cbn [obind]; [|discriminate].
  destruct (hdba_add Sp (w_dbas w) l x (fst p, w_cards w)) as [st|]; cbn [obind]; [|discriminate]. intros H. injection H as <-. cbn [snd].
  apply (left_upd _ i w); [exact Hi|]. rewrite Ht. reflexivity.
Qed.
Lemma left_steps c schedule : forall p p', par_steps N Sp c p schedule = Some (Ok p') -> steps_left (snd p) = length schedule + steps_left (snd p').
Proof.
  induction schedule as [|i schedule IH]; intros p p' H; cbn [par_steps length] in *; [injection H as <-; reflexivity|].
  destruct (par_step N Sp c p i) as [[p1|]|] eqn:Q; [|discriminate H|discriminate H]. apply left_step in Q. apply IH in H. lia.
Qed.
Lemma left_start c (parts : list (list E)) : forall (m : mem) (ws : list (worker E)), steps_left (snd (fold_left (fun '(m, ws) part => (m ++ [repeat None (sl_len c)], ws ++ [mkWorker (mkSlice (length m) (sl_len c)) (repeat 0%Z (sl_len c)) part])) parts (m, ws)))
  = steps_left ws + length (concat parts).
Proof.
  induction parts as [|part parts IH]; intros m ws; cbn [fold_left concat]; [cbn [length]; rewrite Nat.add_0_r; reflexivity|]. rewrite IH. unfold steps_left. rewrite map_app, list_sum_app, app_length. cbn [map list_sum fold_right w_todo]. change (list_sum [length part]) with (length part + 0). lia.
Qed.
Lemma left_hstart (m : mem) c (parts : list (list E)) : steps_left (snd (hstart m c parts)) = length (concat parts).
Proof. unfold hstart. rewrite left_start. reflexivity. Qed.
Lemma chunks_concat (data : list E) degree parts : hpar_chunks data degree = Ok parts -> concat parts = data.
Proof.
  intros H. assert (Hd : (0 < degree)%Z). { destruct (Z.le_gt_cases degree 0) as [Hd|Hd]; [|exact Hd]. unfold hpar_chunks in H. rewrite par_ranges_panic in H by (unfold slen; lia). discriminate H. }
  destruct (par_parts data degree (fun part => Ok part) Hd) as (chunks & C1 & _ & C3). unfold hpar_chunks in H.
  assert (Q : forall l : list (list E), omap (fun part => Ok part) l = Ok l). { induction l as [|x l IH]; cbn; [reflexivity|]. rewrite IH. reflexivity. }
  rewrite Q in C3. destruct (par_ranges (slen data) degree) as [ranges|]; cbn [obind] in *; [|discriminate H].
  assert (G : omap (fun '(start, e, _) => sslice data start e) ranges = omap (fun '(start, e, _) => let* part := sslice data start e in Ok part) ranges).
  { apply omap_ext. intros [[s e] k] _. destruct (sslice data s e); reflexivity. }
  rewrite G, C3 in H. injection H as <-. exact C1.
Qed.

Lemma all_done (ws : list (worker E)) : Forall (fun w => w_todo w = []) ws \/ exists w, In w ws /\ w_todo w <> [].
Proof.
  induction ws as [|w ws IH]; [left; constructor|]. destruct (w_todo w) eqn:Q; [|right; exists w; split; [left; reflexivity|congruence]].
  destruct IH as [H|(v & H1 & H2)]; [left; constructor; assumption|right; exists v; split; [right; exact H1|exact H2]].
Qed.

Lemma par_heap (m0 : mem) c (cs data : list E) degree v : wf m0 c -> read m0 c = map Some cs -> par_iterate N Sp degree cs data = Ok v ->
  exists parts, hpar_chunks data degree = Ok parts /\ forall schedule p, par_steps N Sp c (hstart m0 c parts) schedule = p ->
    p <> Some Panic /\ forall m ws, p = Some (Ok (m, ws)) ->
      keeps m0 m /\
      ((exists i m' ws', par_step N Sp c (m, ws) i = Some (Ok (m', ws'))) \/
       (Forall (fun w => w_todo w = []) ws /\ exists m' r, hpar_join Sp m c ws = Ok (m', r) /\ wf m' r /\ read m' r = v /\ length m0 <= sl_arr r /\ keeps m0 m')).
Proof.
  intros Hw Hc H. unfold par_iterate, par_reduce_dba in H. unfold hpar_chunks. pose proof (par_ranges_panic (slen data) degree) as HP.
  destruct (Z.le_gt_cases degree 0) as [Hd|Hd]; [rewrite HP in H by (unfold slen; lia); discriminate H|]. clear HP.
  pose proof (par_ranges_spec (slen data) degree) as HR. specialize (HR ltac:(unfold slen; lia) Hd). rewrite HR in H |- *. cbn [obind] in *.
  set (ranges := map _ (seq 0 (Z.to_nat degree))) in *. match type of H with context [omap ?f ranges] => destruct (omap f ranges) as [results|] eqn:Q end; cbn [obind] in H; [|discriminate H].
  destruct (dba_aggregate Sp results) as [aggr|] eqn:QA; cbn [obind] in H; [|discriminate H]. destruct (build_result cs aggr) as [[v' cards]|] eqn:QB; cbn [obind fst] in H; [|discriminate H].
  injection H as ->.
  assert (QC : cards = snd aggr). { unfold build_result in QB. destruct (ofold _ _ _); cbn [obind] in QB; [|discriminate QB]. injection QB as _ <-. reflexivity. } subst cards.
  assert (Q2 : omap (fun x => let* y := (let '(start, e, _) := x in sslice data start e) in reduce_dba N Sp cs y) ranges = Ok results).
  { rewrite <- Q. apply omap_ext. intros [[s e] k] _. reflexivity. }
  apply omap_split in Q2. destruct Q2 as (parts & P1 & P2). exists parts. split; [exact P1|]. intros schedule p Hp.
  assert (Hok : parts_ok cs parts).
  { intros part Hin. apply omap_ok_inv in P2. apply In_nth_error in Hin. destruct Hin as [i Hi]. apply f2_idx in P2. destruct P2 as [L P2].
    destruct (nth_error results i) as [r|] eqn:Hr; [eauto|]. apply nth_error_None in Hr. assert (i < length parts) by (apply nth_error_Some; congruence). lia. }
  pose proof (par_steps_inv m0 c cs parts schedule Hw Hc Hok _ (hstart_inv m0 c cs parts)) as HI. rewrite Hp in HI.
  split; [intros ->; exact HI|]. intros m ws ->. pose proof HI as (K & D & HF). cbn [fst snd] in *. split; [exact K|].
  destruct (all_done ws) as [Hdone|Hn].
  - right. split; [exact Hdone|]. apply (join_sim m0 c cs m ws results aggr v Hw Hc K D); [| |exact QA|exact QB].
    + intros ->. inversion HF; subst. apply omap_ok_inv in P1. inversion P1 as [HX|]. unfold ranges in HX. symmetry in HX. apply map_eq_nil in HX.
      assert (length (seq 0 (Z.to_nat degree)) = 0) by (rewrite HX; reflexivity). rewrite seq_length in *. lia.
    + apply omap_ok_inv in P2. apply f2_idx in P2. destruct P2 as [L2 P2]. apply f2_idx in HF. destruct HF as [L1 HF]. apply f2_idx. split; [congruence|].
      intros i r w Hr Hi. destruct (nth_error parts i) as [part|] eqn:Hpt; [|apply nth_error_None in Hpt; assert (i < length ws) by (apply nth_error_Some; congruence); lia].
      destruct (HF i part w Hpt Hi) as (W1 & W2 & W3 & seen & W4 & W5). split; [exact W1|]. split; [exact W2|]. pose proof (P2 i part r Hpt Hr) as Hred.
      rewrite Forall_forall in Hdone. rewrite (Hdone w (nth_error_In _ _ Hi)), app_nil_r in W4. subst seen. unfold reduce_dba in Hred.
      assert (Hlen : sl_len c = length cs) by (rewrite <- (read_length _ _ Hw), Hc; apply map_length). rewrite <- Hlen in Hred.
      change (fun (st : list (option E) * list Z) (elemt : E) => let* r := assign N Sp cs elemt in let '(_, ix, _) := r in dba_add Sp ix elemt st) with (reduce_step cs) in Hred.
      rewrite W5 in Hred. injection Hred as <-. reflexivity.
  - left. rename Hn into EX.
    destruct EX as (w & Hin & Ht). apply In_nth_error in Hin. destruct Hin as [i Hi]. exists i. pose proof (par_step_inv m0 c cs parts (m, ws) i Hw Hc Hok HI) as HS.
    unfold par_step in *. cbn [fst snd] in *. rewrite Hi in HS |- *. unfold worker_step in *. destruct (w_todo w) as [|x todo]; [contradiction|].
    match goal with |- context [Some (obind ?a ?b)] => destruct (obind a b) as [[m' ws']|]; [eauto|contradiction] end.
Qed.

Lemma parts_are_ok (cs data : list E) degree v parts : par_iterate N Sp degree cs data = Ok v -> hpar_chunks data degree = Ok parts -> parts_ok cs parts.
Proof.
  intros H HP. unfold par_iterate, par_reduce_dba in H. unfold hpar_chunks in HP. destruct (par_ranges (slen data) degree) as [ranges|]; cbn [obind] in *; [|discriminate H].
  match type of H with context [omap ?f ranges] => destruct (omap f ranges) as [results|] eqn:Q end; cbn [obind] in H; [|discriminate H].
  assert (Q2 : omap (fun x => let* y := (let '(start, e, _) := x in sslice data start e) in reduce_dba N Sp cs y) ranges = Ok results).
  { rewrite <- Q. apply omap_ext. intros [[s e] k] _. reflexivity. }
  apply omap_split in Q2. destruct Q2 as (parts' & P1 & P2). rewrite HP in P1. injection P1 as <-. intros part Hin. apply omap_ok_inv in P2. apply In_nth_error in Hin. destruct Hin as [i Hi]. apply f2_idx in P2. destruct P2 as [L P2].
  destruct (nth_error results i) as [r|] eqn:Hr; [eauto|]. apply nth_error_None in Hr. assert (i < length parts) by (apply nth_error_Some; congruence). lia.
Qed.

(** The parallel strategy does not panic, whatever the space. *)
Lemma par_total good (HN : NumOrd N good) (cs data : list E) degree : cs <> [] -> (0 < degree)%Z -> exists v, par_iterate N Sp degree cs data = Ok (map Some v) /\ length v = length cs.
Proof.
  intros Hc Hd. destruct (strategy_average N good HN Sp (Z.of_nat (length data)) (fun _ => True) (fun _ _ => True)) with (par := Some degree) (c := cs) (data := data) as (v & H & H1).
  - constructor; auto.
  - exact Hd.
  - exact Hc.
  - apply Forall_forall. auto.
  - lia.
  - exists v. split; [exact H|apply H1].
Qed.

(** The statements of C111. *)
Lemma par_heap_main good : NumOrd N good -> forall (m0 : mem) c (cs data : list E) degree, sl_arr c < length m0 -> sl_len c <= length (array m0 (sl_arr c)) -> read m0 c = map Some cs ->
  cs <> [] -> (0 < degree)%Z ->
  exists v parts, par_iterate N Sp degree cs data = Ok (map Some v) /\ hpar_chunks data degree = Ok parts /\ concat parts = data /\ forall schedule,
    par_steps N Sp c (hstart m0 c parts) schedule <> Some Panic /\
    forall m ws, par_steps N Sp c (hstart m0 c parts) schedule = Some (Ok (m, ws)) ->
      length schedule <= length data /\
      (forall t, sl_arr t < length m0 -> sl_len t <= length (array m0 (sl_arr t)) -> read m t = read m0 t) /\
      (length schedule < length data -> exists i m' ws', par_step N Sp c (m, ws) i = Some (Ok (m', ws'))) /\
      (length schedule = length data -> exists m' r, hpar_join Sp m c ws = Ok (m', r) /\ read m' r = map Some v /\ length m0 <= sl_arr r /\
         forall t, sl_arr t < length m0 -> sl_len t <= length (array m0 (sl_arr t)) -> read m' t = read m0 t).
Proof.
  intros HN m0 c cs data degree H1 H2 Hc Hne Hdeg. destruct (par_total good HN cs data degree Hne Hdeg) as (v & H & _). exists v.
  destruct (par_heap m0 c cs data degree _ (conj H1 H2) Hc H) as (parts & P1 & P2). exists parts. split; [exact H|]. split; [exact P1|]. pose proof (chunks_concat _ _ _ P1) as P3. split; [exact P3|].
  intros schedule. destruct (P2 schedule _ eq_refl) as [A1 A2]. split; [exact A1|]. intros m ws Hs. destruct (A2 m ws Hs) as ([_ K] & D).
  pose proof (left_steps c schedule _ _ Hs) as L. unfold hstart in L. rewrite left_start in L. cbn [snd] in L. unfold steps_left in L at 1. cbn [map list_sum fold_right Nat.add] in L. rewrite P3 in L.
  split; [lia|]. split; [intros t T1 T2; apply (K t (conj T1 T2))|]. split.
  - intros Hl. destruct D as [D|[D _]]; [exact D|]. exfalso. assert (Z : steps_left ws = 0); [|lia]. unfold steps_left. clear -D. induction D as [|w ws Hw _ IH]; [reflexivity|]. cbn. rewrite Hw. exact IH.
  - intros Hl. destruct D as [(i & m' & ws' & D)|[_ (m' & r & D1 & D2 & D3 & D4 & D5)]].
    + exfalso. apply left_step in D. cbn [snd] in D. lia.
    + exists m', r. split; [exact D1|]. split; [exact D3|]. split; [exact D4|]. intros t T1 T2. apply (proj2 D5 t (conj T1 T2)).
Qed.

Lemma par_iterations good : NumOrd N good -> forall degree (m : mem) c datas m' c', hpar_iterations N Sp degree m c datas m' c' -> forall cs, (0 < degree)%Z -> cs <> [] -> wf m c -> read m c = map Some cs ->
  keeps m m' /\ exists cs', ofold (fun cs data => let* v := par_iterate N Sp degree cs data in elements v) datas cs = Ok cs' /\ read m' c' = map Some cs'.
Proof.
  intros HN degree m c datas m' c'. induction 1 as [m c|m c data datas parts schedule m1 ws m2 r m3 c3 Hp Hs Hd Hj Hr IH]; intros cs Hdeg Hne Hw Hc.
  - split; [apply keeps_refl|]. exists cs. split; [reflexivity|exact Hc].
  - destruct (par_total good HN cs data degree Hne Hdeg) as (v & Hv & Hl). destruct (par_heap m c cs data degree _ Hw Hc Hv) as (parts' & P1 & P2). rewrite Hp in P1. injection P1 as <-.
    destruct (P2 schedule _ eq_refl) as [_ A2]. destruct (A2 m1 ws Hs) as (_ & [(i & x & y & D)|[_ (m' & r' & D1 & D2 & D3 & D4 & D5)]]).
    + exfalso. unfold par_step in D. cbn [fst snd] in D. destruct (nth_error ws i) as [w|] eqn:Hi; [|discriminate D]. unfold worker_step in D.
      rewrite Forall_forall in Hd. rewrite (Hd w (nth_error_In _ _ Hi)) in D. discriminate D.
    + rewrite Hj in D1. injection D1 as <- <-. destruct (IH v Hdeg) as (K & cs' & C1 & C2); [intros ->; destruct cs; [apply Hne; reflexivity|discriminate Hl]|exact D2|exact D3|].
      split; [eapply keeps_trans; eauto|]. exists cs'. split; [|exact C2]. cbn [ofold]. rewrite Hv. cbn [obind]. rewrite elements_some. cbn [obind]. exact C1.
Qed.

Lemma par_snapshots good : NumOrd N good -> forall degree (m : mem) c datas m' c' cs, (0 < degree)%Z -> cs <> [] ->
  sl_arr c < length m -> sl_len c <= length (array m (sl_arr c)) -> read m c = map Some cs -> hpar_iterations N Sp degree m c datas m' c' ->
  (forall t, sl_arr t < length m -> sl_len t <= length (array m (sl_arr t)) -> read m' t = read m t) /\
  exists cs', ofold (fun cs data => let* v := par_iterate N Sp degree cs data in elements v) datas cs = Ok cs' /\ read m' c' = map Some cs'.
Proof.
  intros HN degree m c datas m' c' cs Hd Hne H1 H2 Hc H. destruct (par_iterations good HN degree m c datas m' c' H cs Hd Hne (conj H1 H2) Hc) as [[_ K] V]. split; [|exact V].
  intros t T1 T2. apply (K t (conj T1 T2)).
Qed.

(** Iterations with given schedules. *)
Fixpoint par_run (degree : Z) (m : mem) (c : slice) (l : list (list E * list nat)) : option (mem * slice) :=
  match l with
  | [] => Some (m, c)
  | (data, schedule) :: l =>
      match hpar_chunks data degree with
      | Panic => None
      | Ok parts =>
          match par_steps N Sp c (hstart m c parts) schedule with
          | Some (Ok (m1, ws)) =>
              if forallb (fun w => match w_todo w with [] => true | _ => false end) ws then
                match hpar_join Sp m1 c ws with Ok (m2, r) => par_run degree m2 r l | Panic => None end
              else None
          | _ => None
          end
      end
  end.
Lemma par_run_ok degree l : forall m c m' c', par_run degree m c l = Some (m', c') -> hpar_iterations N Sp degree m c (map fst l) m' c'.
Proof.
  induction l as [|[data schedule] l IH]; intros m c m' c' H; cbn [par_run map fst] in *; [injection H as <- <-; constructor|].
  destruct (hpar_chunks data degree) as [parts|] eqn:Q1; [|discriminate H]. destruct (par_steps N Sp c (hstart m c parts) schedule) as [[[m1 ws]|]|] eqn:Q2; try discriminate H.
  destruct (forallb _ ws) eqn:Q3; [|discriminate H]. destruct (hpar_join Sp m1 c ws) as [[m2 r]|] eqn:Q4; [|discriminate H].
  eapply hpi_cons; eauto. apply Forall_forall. intros w Hw. rewrite forallb_forall in Q3. specialize (Q3 w Hw). destruct (w_todo w); [reflexivity|discriminate Q3].
Qed.
End S.
