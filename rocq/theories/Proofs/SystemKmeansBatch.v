(** Batch of k-means, from any state. *)
From Coq Require Import List ZArith Lia Bool Reals.
From Verif Require Import Base.Go Base.Num Model.Clustering Model.Par Model.Buffer Model.Euclid Model.Kmeans Model.Status Model.Finish
  Model.CtrlLang Model.CtrlCode Model.CtrlSeq Model.System
  Spec.ClusterSpec Spec.BufferSpec Spec.RealSpec Spec.KmeansSpec Spec.CtrlSpec Spec.CtrlSeqSpec Spec.SystemSpec
  Proofs.GoLemmas Proofs.NumLaws Proofs.NearestProofs Proofs.ReduceMain Proofs.KmeansProofs Proofs.Represent Proofs.BufferProofs
  Proofs.Converge Proofs.CtrlSeqProofs Proofs.CtrlSeqMain Proofs.SystemProofs Proofs.SystemBatch Proofs.SystemKmeans.
Import ListNotations.
Local Open Scope Z_scope.

Lemma iterations_snoc {E F} (N : Num F) (Sp : Space E F) par data n c c1 c2 :
  iterations N Sp par data n c c1 -> strategy_iterate N Sp par c1 data = Ok (map Some c2) -> iterations N Sp par data (S n) c c2.
Proof.
  intros H Hs. induction H as [c|n c c' c'' H H' IH].
  - econstructor; [exact Hs|constructor].
  - econstructor; [exact H|]. apply IH. exact Hs.
Qed.
Lemma some_inj {E} (l l' : list E) : map Some l = map Some l' -> l = l'.
Proof. revert l'. induction l as [|x l IH]; intros [|y l']; try discriminate; [reflexivity|]. cbn. intros [= -> H]. f_equal. apply IH. exact H. Qed.
Lemma iterations_fun {E F} (N : Num F) (Sp : Space E F) par data n : forall c c1 c2,
  iterations N Sp par data n c c1 -> iterations N Sp par data n c c2 -> c1 = c2.
Proof.
  induction n as [|n IH]; intros c c1 c2 H1 H2.
  - inversion H1; inversion H2; congruence.
  - inversion H1 as [|n' c' a1 c'' S1 T1]; inversion H2 as [|m' d' a2 d'' S2 T2]; subst.
    assert (X : a1 = a2) by (apply some_inj; congruence). subst. eapply IH; eassumption.
Qed.

Lemma apply_empty {E} (b b' : buffer E) : buffer_apply b = Ok b' -> bpipe b' = [] /\ buffer_apply b' = Ok b'.
Proof.
  assert (H : forall l (b b' : buffer E), ofold store l b = Ok b' -> bpipe b' = bpipe b).
  { induction l as [|x l IH]; cbn [ofold]; intros b0 b1; [intros [= <-]; reflexivity|].
    destruct (store b0 x) as [b2|] eqn:S; cbn [obind]; [|discriminate]. intros H. rewrite (IH _ _ H). unfold store in S.
    destruct (strategy_push _ _ _) as [[s d]|]; cbn [obind] in S; [|discriminate]. injection S as <-. reflexivity. }
  unfold buffer_apply. intros A. pose proof (H _ _ _ A) as B. cbn [bpipe] in B. split; [exact B|]. rewrite B. cbn [ofold].
  destruct b' as [p d s]. cbn in *. subst p. reflexivity.
Qed.

Section Batch.
Context {E F : Type} (N : Num F) (good : F -> Prop) (HN : NumOrd N good) (Sp : Space E F).
Context {D : Type} (initializer : D -> list E -> option (option (list E) * option nat)) (par : option Z).
Context (cf : cconf) (size : Z) (k : nat) (P : E -> Prop) (M : Z) (elemts : list E).
Context (Hpar : valid_par par) (Hk : (0 < k)%nat) (HP : kept Sp M P) (Hinit : initializes initializer k P).
Notation im := (kmeans_implem N Sp initializer par).

Lemma iterates_exist c0 data : length c0 = k -> Forall P c0 -> Forall P data -> Z.of_nat (length data) <= M ->
  forall n, exists c, iterations N Sp par data n c0 c /\ length c = k /\ Forall P c.
Proof.
  intros H1 H2 HD HL. induction n as [|n (c & I1 & I2 & I3)]; [exists c0; split; [constructor|auto]|].
  destruct (step_kept N good HN Sp par k P M Hpar Hk HP c data) as (c' & S1 & S2 & S3); auto.
  - intros ->. cbn in I2. lia.
  - exists c'. split; [apply (iterations_snoc _ _ _ _ _ _ _ _ I1 S1)|]. split; [congruence|exact S3].
Qed.

Lemma kmeans_batch_main xs b0 q b n : new_data_buffer elemts size = Ok b0 -> Forall P elemts -> pushes_only P xs ->
  sys_acts cf im xs (seq0, b0) = Some (q, b) -> Z.of_nat (length elemts) + total_pushed (q_log q) <= M ->
  q_locked q = false -> only_budget cf -> cf_timeout cf = false ->
  n = (if status_eqb (st_value (q_status q)) Created then CtrlSpec.pushes (q_log q) else 0) -> n <= 2 ^ 53 -> budget cf n <= 2 ^ 53 ->
  exists b1, buffer_apply b = Ok b1 /\ Forall P (bdata b1) /\
    (size <= 0 -> Z.of_nat (length (bdata b1)) = Z.of_nat (length elemts) + total_pushed (q_log q)) /\
    forall d start mid ps now,
      match initializer d (bdata b1) with
      | None => sys_do cf im (YBatch d start mid ps) now (q, b) = None
      | Some (c0, Some m) => exists q', sys_do cf im (YBatch d start mid ps) now (q, b) = Some ((q', b1), Some (ErrImpl m)) /\
          q_locked q' = true /\ q_status q' = new_status_error (ErrImpl m) /\ m_centroids (q_model q') = c0
      | Some (o, None) => exists c0 c, o = Some c0 /\ iterations N Sp par (bdata b1) (Z.to_nat (budget cf n)) c0 c /\
          (forall q' b' e, sys_do cf im (YBatch d start mid ps) now (q, b) = Some ((q', b'), e) ->
             e = None /\ b' = b1 /\ q_status q' = new_status Finished /\ q_locked q' = false /\
             m_centroids (q_model q') = Some c /\ iterations_saved (q_log q') = budget cf n) /\
          (ps <> [] -> budget cf n <= Z.of_nat (turns (mid ++ concat (map snd (removelast ps)))) ->
             sys_do cf im (YBatch d start mid ps) now (q, b) <> None)
      end.
Proof.
  intros Hb0 HE Hx Hs HM Hu HB HT En Hn Hb.
  destruct (new_data_buffer_repr size elemts) as (b0' & Hnb & Hr & Hp). rewrite Hb0 in Hnb. injection Hnb as <-.
  assert (H0 : KD size P M elemts [] None b0).
  { split; [|intros _ c' X; discriminate]. intros _. exists elemts. rewrite Hp. split; [exact Hr|]. split; [exact HE|]. split; [constructor|]. unfold slen, total_pushed. cbn [filter length]. lia. }
  assert (Hok : Forall (action_ok P) xs).
  { apply Forall_forall. intros [c now|p] Hin; [|exact I]. destruct c; try exact I. exact (Hx _ _ _ Hin). }
  pose proof (sys_invariant cf im P _ _ (kmeans_preserved N good HN Sp initializer par size k P M elemts Hpar Hk HP Hinit) xs b0 (q, b) H0 Hok Hs) as H.
  unfold holds_in in H. cbn [fst snd] in H.
  assert (HD : KD size P M elemts (q_log q) (m_centroids (q_model q)) b) by (destruct (st_alive (q_status q)); [apply H|exact H]).
  destruct HD as [Hbuf _]. destruct (Hbuf HM) as (all & B1 & B2 & B3 & B4).
  destruct (buffer_apply_repr size all b B1) as (b1 & A1 & A2 & A3). exists b1. split; [exact A1|].
  destruct (brepr_data size k P Hk _ b1 A2 (proj2 (Forall_app _ _ _) (conj B2 B3))) as [B5 B6].
  split; [exact B5|]. split.
  { intros Hsz. destruct (repr_data size _ (bdata b1) (bstrategy b1) A2) as [R1 _]. rewrite (R1 Hsz). unfold slen in *. rewrite app_length. lia. }
  assert (BL : Z.of_nat (length (bdata b1)) <= M) by (unfold slen in *; rewrite app_length in B6; lia).
  destruct (apply_empty _ _ A1) as [_ A4]. pose proof (sys_reachable cf im _ _ _ Hs) as Hq. cbn [fst] in Hq.
  intros d start mid ps now.
  assert (Hi : im_init im d b = match initializer d (bdata b1) with None => None | Some r => Some (b1, r) end).
  { cbn [im_init kmeans_implem]. rewrite A1. reflexivity. }
  destruct (initializer d (bdata b1)) as [[o [m|]]|] eqn:Q.
  - apply (batch_failed cf im q b n Hq Hu En). exact Hi.
  - destruct (Hinit _ _ _ _ Q B5) as [I1 I2]. destruct (I2 eq_refl) as (c0 & -> & Hl). specialize (I1 c0 eq_refl).
    destruct (iterates_exist c0 (bdata b1) Hl I1 B5 BL (Z.to_nat (budget cf n))) as (c & It & _). exists c0, c. split; [reflexivity|]. split; [exact It|].
    set (W := fun j c i => i = b1 /\ iterations N Sp par (bdata b1) j c0 c /\ length c = k /\ Forall P c).
    destruct (batch_ok cf im q b n HB HT Hq Hu En Hn Hb W) with (d := d) (start := start) (mid := mid) (ps := ps) (now := now) (i1 := b1) (c0 := c0) as [G1 G2].
    + intros j c' i' d' (-> & W1 & W2 & W3). destruct (step_kept N good HN Sp par k P M Hpar Hk HP c' (bdata b1)) as (c'' & S1 & S2 & S3); auto.
      { intros ->. cbn in W2. lia. }
      exists b1, c'', None. cbn [im_iterate kmeans_implem]. rewrite S1, A4, all_some_map. split; [reflexivity|]. split; [reflexivity|].
      split; [apply (iterations_snoc _ _ _ _ _ _ _ _ W1 S1)|]. split; [congruence|exact S3].
    + exact Hi.
    + split; [reflexivity|]. split; [constructor|auto].
    + split; [|exact G2]. intros q' b' e Hd. destruct (G1 _ _ Hd) as (X1 & X2 & X3 & j & c' & X4 & X5 & X6 & X7). cbn [fst snd] in *.
      destruct X7 as (-> & X7 & _). split; [exact X1|]. split; [reflexivity|]. split; [exact X2|]. split; [exact X3|]. split; [|exact X5].
      rewrite X6. f_equal. rewrite <- X4, Nat2Z.id in It. apply (iterations_fun _ _ _ _ _ _ _ _ X7 It).
  - destruct (batch_start cf q now n (None, None) Hq Hu En) as (q1 & e1 & E1 & E2 & _).
    unfold sys_do. cbn [fst]. rewrite Hu. unfold sys_batch. cbn [fst snd]. rewrite E1. unfold sys_play, impl_result. cbn [fst snd]. rewrite E2, Hi. reflexivity.
Qed.

(** A new algorithm. *)
Definition newly (xs : list E) (q : seq_st (list E)) (b : buffer E) : Prop :=
  q_status q = new_status Created /\ q_locked q = false /\ q_run q = NoRun /\ 0 <= m_new (q_model q) /\
  CtrlSpec.pushes (q_log q) = Z.of_nat (length xs) /\ total_pushed (q_log q) = Z.of_nat (length xs) /\
  brepr size (elemts ++ xs) b /\ bpipe b = [].

Lemma newly_push x t now xs q b : newly xs q b ->
  exists q' b', sys_act cf im (YCall (YPush x t) now) (q, b) = Some (q', b') /\ newly (xs ++ [x]) q' b'.
Proof.
  intros (H1 & H2 & H3 & H4 & H5 & H6 & H7 & H8). cbn [sys_act]. unfold sys_do. cbn [fst]. rewrite H2. cbn [sys_push im_push kmeans_implem].
  rewrite H1. cbn [st_alive st_running new_status st_value status_eqb orb]. unfold buffer_push.
  change (if st_alive (new_status Created) then _ else _) with (Some (store b x)).
  destruct (store_repr size (elemts ++ xs) b x H7) as (b' & S1 & S2 & S3). rewrite S1. cbn [lift]. unfold push_seq.
  cbn [q_event q_upd q_model q_status]. rewrite H1. unfold model_new_data. cbn [st_value new_status status_eqb andb model_figures m_new model_pushed q_model q_upd].
  destruct (Z.eqb_spec (m_new (q_model q) + 1) 0) as [X|X]; [exfalso; lia|]. cbn [lift]. unfold settle. cbn [q_event q_run q_upd]. rewrite H3.
  eexists _, b'. split; [reflexivity|]. unfold newly. cbn [q_event q_upd q_status q_locked q_run q_model q_log m_new].
  split; [exact H1|]. split; [exact H2|]. split; [exact H3|]. split; [cbn [model_figures m_new]; lia|]. rewrite app_length, app_assoc, S3. cbn [length].
  unfold CtrlSpec.pushes, total_pushed in *. cbn [since_reset filter length] in *.
  split; [rewrite Nat2Z.inj_add; cbn; lia|]. split; [rewrite Nat2Z.inj_add; cbn; lia|]. auto.
Qed.

Lemma newly_all l : forall xs q b, newly xs q b ->
  exists q' b', sys_acts cf im (push_all l) (q, b) = Some (q', b') /\ newly (xs ++ elements_of l) q' b'.
Proof.
  induction l as [|[[x t] now] l IH]; intros xs q b H; cbn [push_all map elements_of sys_acts].
  - exists q, b. rewrite app_nil_r. auto.
  - cbn [fst snd]. destruct (newly_push x t now xs q b H) as (q1 & b1 & E1 & H1). rewrite E1.
    destruct (IH _ _ _ H1) as (q2 & b2 & E2 & H2). exists q2, b2. split; [exact E2|]. rewrite <- app_assoc in H2. exact H2.
Qed.

Lemma kmeans_new_main l b0 : new_data_buffer elemts size = Ok b0 -> Forall P elemts -> Forall P (elements_of l) ->
  Z.of_nat (length elemts) + Z.of_nat (length l) <= M -> only_budget cf -> cf_timeout cf = false ->
  Z.of_nat (length l) <= 2 ^ 53 -> budget cf (Z.of_nat (length l)) <= 2 ^ 53 ->
  exists q b data, sys_acts cf im (push_all l) (seq0, b0) = Some (q, b) /\
    (size <= 0 -> data = elemts ++ elements_of l) /\
    (0 < size -> rotation data (last_n (Z.to_nat size) (elemts ++ elements_of l))) /\
    forall d c0, initializer d data = Some (Some c0, None) ->
    exists c, iterations N Sp par data (Z.to_nat (budget cf (Z.of_nat (length l)))) c0 c /\
      forall start mid ps now,
      (forall q' b' e, sys_do cf im (YBatch d start mid ps) now (q, b) = Some ((q', b'), e) ->
         e = None /\ q_status q' = new_status Finished /\ m_centroids (q_model q') = Some c /\
         iterations_saved (q_log q') = budget cf (Z.of_nat (length l))) /\
      (ps <> [] -> budget cf (Z.of_nat (length l)) <= Z.of_nat (turns (mid ++ concat (map snd (removelast ps)))) ->
         sys_do cf im (YBatch d start mid ps) now (q, b) <> None).
Proof.
  intros Hb0 HE HL HM HB HT Hn Hb. destruct (new_data_buffer_repr size elemts) as (b0' & Hnb & Hr & Hp). rewrite Hb0 in Hnb. injection Hnb as <-.
  assert (H0 : newly [] seq0 b0).
  { unfold newly. cbn. rewrite app_nil_r. repeat split; auto. lia. }
  destruct (newly_all l [] seq0 b0 H0) as (q & b & Hs & (H1 & H2 & H3 & H4 & H5 & H6 & H7 & H8)). cbn [app] in *.
  assert (Len : length (elements_of l) = length l) by apply map_length. rewrite Len in *.
  assert (Hx : pushes_only P (push_all (D := D) l)).
  { intros x t now Hin. apply in_map_iff in Hin. destruct Hin as ([[x' t'] n'] & X & Hin). injection X as <- <- <-.
    rewrite Forall_forall in HL. apply HL. apply in_map_iff. exists (x', t', n'). auto. }
  destruct (kmeans_batch_main (push_all l) b0 q b (Z.of_nat (length l)) Hb0 HE Hx Hs) as (b1 & A1 & A2 & A3 & A4); try assumption.
  - rewrite H6. exact HM.
  - rewrite H1. cbn. symmetry. exact H5.
  - exists q, b, (bdata b1). split; [exact Hs|].
    destruct (buffer_apply_repr size _ b H7) as (b1' & B1 & B2 & _). rewrite A1 in B1. injection B1 as <-. rewrite H8, app_nil_r in B2.
    destruct (repr_data size _ (bdata b1) (bstrategy b1) B2) as [R1 R2]. split; [exact R1|]. split; [intros X; apply (R2 X)|].
    intros d c0 Q. pose proof (A4 d 0 [] [] 0) as A5. rewrite Q in A5. destruct A5 as (c0' & c & X & It & _). injection X as <-.
    exists c. split; [exact It|]. intros start mid ps now. specialize (A4 d start mid ps now). rewrite Q in A4.
    destruct A4 as (c0' & c' & X & It' & G1 & G2). injection X as <-. rewrite <- (iterations_fun _ _ _ _ _ _ _ _ It It') in G1.
    split; [|exact G2]. intros q' b' e Hd. destruct (G1 q' b' e Hd) as (Y1 & _ & Y2 & _ & Y3 & Y4). auto.
Qed.
End Batch.
