(** Batch of k-means after a first run and further pushes, with a fixed number of iterations. *)
From Coq Require Import List ZArith Lia Bool Reals.
From Verif Require Import Base.Go Base.Num Model.Clustering Model.Par Model.Buffer Model.Euclid Model.Kmeans Model.KmeansInit Model.Status Model.Finish
  Model.CtrlLang Model.CtrlCode Model.CtrlSeq Model.System
  Spec.ClusterSpec Spec.BufferSpec Spec.RealSpec Spec.KmeansSpec Spec.NearestSpec Spec.CtrlSpec Spec.CtrlSeqSpec Spec.SystemSpec
  Proofs.GoLemmas Proofs.NumLaws Proofs.NearestProofs Proofs.ReduceMain Proofs.KmeansProofs Proofs.Represent Proofs.BufferProofs
  Proofs.Converge Proofs.CtrlSeqProofs Proofs.CtrlSeqMain Proofs.SystemProofs Proofs.SystemBatch Proofs.SystemKmeans Proofs.SystemKmeansBatch Proofs.SystemMain.
Import ListNotations.
Local Open Scope Z_scope.

Lemma sys_acts_app {E C D I} cf (im : implem E C D I) xs ys s : sys_acts cf im (xs ++ ys) s = match sys_acts cf im xs s with Some s' => sys_acts cf im ys s' | None => None end.
Proof. revert s. induction xs as [|x xs IH]; intros s; [reflexivity|]. cbn [app sys_acts]. destruct (sys_act cf im x s); [apply IH|reflexivity]. Qed.

Section Rebatch.
Context {E F : Type} (N : Num F) (good : F -> Prop) (HN : NumOrd N good) (Sp : Space E F).
Context {D : Type} (initializer : D -> list E -> option (option (list E) * option nat)) (par : option Z).
Context (cf : cconf) (size : Z) (k : nat) (P : E -> Prop) (M : Z) (elemts : list E).
Context (Hpar : valid_par par) (Hk : (0 < k)%nat) (HP : kept Sp M P) (Hinit : initializes initializer k P).
Notation im := (kmeans_implem N Sp initializer par).

(** An algorithm whose run is over. *)
Definition resting (pushed : Z) (all pipe : list E) (q : seq_st (list E)) (b : buffer E) : Prop :=
  st_value (q_status q) = Finished /\ q_locked q = false /\ q_run q = NoRun /\ 0 <= m_new (q_model q) /\
  total_pushed (q_log q) = pushed /\ brepr size all b /\ bpipe b = pipe.

Lemma resting_push x t now n all pipe q b : resting n all pipe q b ->
  exists q' b', sys_act cf im (YCall (YPush x t) now) (q, b) = Some (q', b') /\ resting (n + 1) (all ++ [x]) pipe q' b'.
Proof.
  intros (H1 & H2 & H3 & H4 & H5 & H6 & H7). cbn [sys_act]. unfold sys_do. cbn [fst]. rewrite H2. cbn [sys_push im_push kmeans_implem].
  assert (Ha : st_alive (q_status q) = false).
  { unfold st_alive. destruct (q_status q) as [v e]. cbn in H1 |- *. subst v. reflexivity. }
  rewrite Ha. unfold buffer_push.
  destruct (store_repr size all b x H6) as (b' & S1 & S2 & S3). rewrite S1. cbn [lift]. unfold push_seq.
  cbn [q_event q_upd q_model q_status]. unfold model_new_data. rewrite H1. cbn [status_eqb andb model_figures m_new model_pushed q_model q_upd].
  destruct (Z.eqb_spec (m_new (q_model q) + 1) 0) as [X|X]; [exfalso; lia|]. cbn [lift]. unfold settle. cbn [q_event q_run q_upd]. rewrite H3.
  eexists _, b'. split; [reflexivity|]. unfold resting. cbn [q_event q_upd q_status q_locked q_run q_model q_log m_new].
  split; [exact H1|]. split; [exact H2|]. split; [exact H3|]. split; [cbn [model_figures m_new]; lia|]. 
  unfold total_pushed in *. cbn [filter length] in *. split; [lia|]. split; [exact S2|congruence].
Qed.
Lemma resting_all l : forall n all pipe q b, resting n all pipe q b ->
  exists q' b', sys_acts cf im (push_all l) (q, b) = Some (q', b') /\ resting (n + Z.of_nat (length l)) (all ++ elements_of l) pipe q' b'.
Proof.
  induction l as [|[[x t] now] l IH]; intros n all pipe q b H; cbn [push_all map elements_of sys_acts].
  - exists q, b. cbn. rewrite app_nil_r, Z.add_0_r. auto.
  - cbn [fst snd]. destruct (resting_push x t now _ _ _ q b H) as (q1 & b1 & E1 & H1). rewrite E1.
    destruct (IH _ _ _ _ _ H1) as (q2 & b2 & E2 & H2). exists q2, b2. split; [exact E2|]. rewrite <- app_assoc in H2. cbn [length].
    replace (n + Z.of_nat (S (length l))) with (n + 1 + Z.of_nat (length l)) by lia. exact H2.
Qed.

Lemma rebatch_main xs b0 q b l : new_data_buffer elemts size = Ok b0 -> Forall P elemts -> pushes_only P xs -> Forall P (elements_of l) ->
  sys_acts cf im xs (seq0, b0) = Some (q, b) -> st_value (q_status q) = Finished -> q_locked q = false ->
  Z.of_nat (length elemts) + total_pushed (q_log q) + Z.of_nat (length l) <= M ->
  only_budget cf -> cf_timeout cf = false -> cf_ipd cf = 0 -> cf_iter cf <= 2 ^ 53 ->
  exists q1 b1 data, sys_acts cf im (push_all l) (q, b) = Some (q1, b1) /\
    (size <= 0 -> data = bdata b ++ elements_of l ++ bpipe b) /\
    (0 < size -> exists old, rotation (bdata b) (last_n (Z.to_nat size) old) /\ rotation data (last_n (Z.to_nat size) (old ++ elements_of l ++ bpipe b))) /\
    forall d c0, initializer d data = Some (Some c0, None) ->
    exists c, iterations N Sp par data (Z.to_nat (cf_iter cf)) c0 c /\
      forall start mid ps now,
      (forall q' b' e, sys_do cf im (YBatch d start mid ps) now (q1, b1) = Some ((q', b'), e) ->
         e = None /\ q_status q' = new_status Finished /\ m_centroids (q_model q') = Some c /\ iterations_saved (q_log q') = cf_iter cf) /\
      (ps <> [] -> cf_iter cf <= Z.of_nat (turns (mid ++ concat (map snd (removelast ps)))) ->
         sys_do cf im (YBatch d start mid ps) now (q1, b1) <> None).
Proof.
  intros Hb0 HE Hx HL Hs Hfin Hu HM HB HT Hipd Hb.
  destruct (new_data_buffer_repr size elemts) as (b0' & Hnb & Hr & Hp). rewrite Hb0 in Hnb. injection Hnb as <-.
  assert (H0 : KD size P M elemts [] None b0).
  { split; [|intros _ c' X; discriminate]. intros _. exists elemts. rewrite Hp. split; [exact Hr|]. split; [exact HE|]. split; [constructor|]. unfold slen, total_pushed. cbn [filter length]. lia. }
  assert (Hok : Forall (action_ok P) xs).
  { apply Forall_forall. intros [c now|p] Hin; [|exact I]. destruct c; try exact I. exact (Hx _ _ _ Hin). }
  pose proof (sys_invariant cf im P _ _ (kmeans_preserved N good HN Sp initializer par size k P M elemts Hpar Hk HP Hinit) xs b0 (q, b) H0 Hok Hs) as H.
  unfold holds_in in H. cbn [fst snd] in H.
  assert (HD : KD size P M elemts (q_log q) (m_centroids (q_model q)) b) by (destruct (st_alive (q_status q)); [apply H|exact H]).
  destruct HD as [Hbuf _]. assert (HM' : Z.of_nat (length elemts) + total_pushed (q_log q) <= M) by lia. destruct (Hbuf HM') as (all & B1 & B2 & B3 & B4).
  pose proof (sys_reachable cf im _ _ _ Hs) as Hq. cbn [fst] in Hq.
  assert (HR : resting (total_pushed (q_log q)) all (bpipe b) q b).
  { split; [exact Hfin|]. split; [exact Hu|]. destruct (reach_rest cf q Hq) as ((K & Hrun & _) & Hnt). pose proof (c_pos _ _ K) as Hpos.
    unfold run_ok in Hrun. rewrite Hfin in Hrun. split; [destruct (q_run q); [reflexivity|congruence|discriminate|discriminate]|]. split; [exact Hpos|]. split; [reflexivity|]. split; [exact B1|reflexivity]. }
  destruct (resting_all l _ _ _ _ _ HR) as (q1 & b1 & Hs1 & R1 & R2 & R3 & R4 & R5 & R6 & R7).
  assert (Hs' : sys_acts cf im (xs ++ push_all l) (seq0, b0) = Some (q1, b1)) by (rewrite sys_acts_app, Hs; exact Hs1).
  assert (Hx' : pushes_only P (xs ++ push_all l)).
  { intros x t now Hin. apply in_app_or in Hin as [Hin|Hin]; [exact (Hx _ _ _ Hin)|]. apply in_map_iff in Hin as ([[x' t'] n'] & X & Hin). injection X as <- <- <-.
    rewrite Forall_forall in HL. apply HL. apply in_map_iff. exists (x', t', n'). auto. }
  assert (Bud : budget cf 0 = cf_iter cf) by (unfold budget; rewrite Hipd; lia).
  destruct (kmeans_batch_main N good HN Sp initializer par cf size k P M elemts Hpar Hk HP Hinit (xs ++ push_all l) b0 q1 b1 0 Hb0 HE Hx' Hs') as (b2 & A1 & A2 & A3 & A4); try assumption; try lia.
  - rewrite R1. reflexivity.
  - exists q1, b1, (bdata b2). split; [exact Hs1|].
    destruct (buffer_apply_repr size _ b1 R6) as (b2' & C1 & C2 & _). rewrite A1 in C1. injection C1 as <-. rewrite R7, <- app_assoc in C2.
    destruct (repr_data size _ (bdata b2) (bstrategy b2) C2) as [D1 D2]. destruct (repr_data size _ (bdata b) (bstrategy b) B1) as [D3 D4].
    split; [intros Hz; rewrite (D1 Hz), (D3 Hz); reflexivity|]. split; [intros Hz; exists all; split; [exact (proj1 (D4 Hz))|exact (proj1 (D2 Hz))]|].
    intros d c0 Q. pose proof (A4 d 0 [] [] 0) as A5. rewrite Q in A5. destruct A5 as (c0' & c & X & It & _). injection X as <-. rewrite Bud in It, A4.
    exists c. split; [exact It|]. intros start mid ps now. specialize (A4 d start mid ps now). rewrite Q in A4.
    destruct A4 as (c0' & c' & X & It' & G1 & G2). injection X as <-. rewrite <- (iterations_fun _ _ _ _ _ _ _ _ It It') in G1.
    split; [|exact G2]. intros q' b' e Hd. destruct (G1 q' b' e Hd) as (Y1 & _ & Y2 & _ & Y3 & Y4). auto.
Qed.
End Rebatch.

(** Two elements and Batch, then one element and Batch, two iterations each: the mean of the three. *)
Local Notation euclid64 := (euclid_space B64Num).
Definition conf_two : cconf := mkCConf 2 0 0 false None None.
Definition first_batch : list (sys_action (list b64) unit) :=
  [YCall (YPush (v64 [0]%Z) 1) 1; YCall (YPush (v64 [8]%Z) 2) 2; YCall (YBatch tt 3 [] [(4, four_turns); (5, [])]) 5].
Definition later : list (list b64 * Z * Z) := [(v64 [10]%Z, 6, 6)].
Lemma rebatch_case : only_budget conf_two /\ cf_ipd conf_two = 0 /\ cf_iter conf_two = 2 /\ new_data_buffer [] 0 = Ok buffer0 /\
  show_sys (is_value 4) (sys_acts conf_two kmeans1 first_batch (seq0, buffer0)) = Some (new_status Finished, 2, 2, true) /\
  show_sys (is_value 6) (sys_acts conf_two kmeans1 (first_batch ++ push_all later ++ [YCall (YBatch tt 7 [] [(8, four_turns); (9, [])]) 9]) (seq0, buffer0)) = Some (new_status Finished, 2, 3, true).
Proof. split; [|split; [reflexivity|split; [reflexivity|split; [reflexivity|split; vm_compute; reflexivity]]]]. vm_compute. intuition congruence. Qed.
