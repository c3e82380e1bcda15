(** Instances and witnesses for the statements about the controller with an implementation. *)
From Coq Require Import List ZArith Lia Bool Reals.
From Flocq Require Import IEEE754.BinarySingleNaN.
From Verif Require Import Base.Go Base.Num Model.Clustering Model.Par Model.Buffer Model.Euclid Model.Kmeans Model.KmeansInit Model.Streaming Model.Status Model.Finish
  Model.CtrlLang Model.CtrlCode Model.CtrlSeq Model.System
  Spec.ClusterSpec Spec.BufferSpec Spec.RealSpec Spec.KmeansSpec Spec.NearestSpec Spec.FloatSpec Spec.CtrlSpec Spec.CtrlSeqSpec Spec.SystemSpec
  Proofs.GoLemmas Proofs.NumLaws Proofs.NearestProofs Proofs.KmeansProofs Proofs.Represent Proofs.BufferProofs
  Proofs.Converge Proofs.FloatKmeans Proofs.StreamingProofs Proofs.CtrlSeqProofs Proofs.CtrlSeqMain Proofs.CtrlSeqEx Proofs.SystemProofs Proofs.SystemBatch Proofs.SystemKmeans Proofs.SystemKmeansBatch Proofs.SystemStreaming.
Import ListNotations.
Local Open Scope Z_scope.
Local Notation euclid := (euclid_space RNum).
Local Notation euclid64 := (euclid_space B64Num).

Lemma kept_dim M d : kept euclid M (fun v => length v = d).
Proof.
  split; [auto|]. intros a n b m Ha Hb Hn Hm _. cbn [scombine euclid_space]. unfold point_combine. cbn [nof nadd RNum].
  assert (Hloop : forall w1 w2 w (a b : list R), length a = length b -> exists r, combine_loop RNum a w1 b w2 w = Ok r /\ length r = length a).
  { intros w1 w2 w. induction a0 as [|x a0 IH]; intros [|y b0] Hl; try discriminate; cbn [combine_loop]; [exists []; auto|].
    injection Hl as Hl. destruct (IH b0 Hl) as (r & Hr & Hlr). rewrite Hr. cbn. eexists. split; [reflexivity|]. cbn. congruence. }
  destruct (Hloop (IZR n) (IZR m) (IZR n + IZR m)%R a b ltac:(congruence)) as (r & Hr & Hl). rewrite Hr. congruence.
Qed.

Lemma kept_box k d : -1074 <= k <= 970 -> kept euclid64 (2 ^ 53 - 1) (box_vec k d).
Proof. intros Hk. split; [auto|]. intros a n b m Ha Hb Hn Hm Hle. apply box_combine; auto. lia. Qed.

(** ** The initializers of the package *)
Section Init.
Context {E F : Type} (N : Num F) (Sp : Space E F) (P : E -> Prop) (Hcopy : forall x, P x -> P (scopy Sp x)).

Lemma all_some_nones (l : list E) n : all_some (map Some l ++ repeat None (S n)) = None.
Proof. induction l as [|x l IH]; [reflexivity|]. cbn [map app all_some]. rewrite IH. reflexivity. Qed.

Lemma sget_in (l : list E) i x : sget l i = Ok x -> In x l.
Proof. unfold sget. destruct (i <? 0); [discriminate|]. destruct (nth_error l (Z.to_nat i)) eqn:H; [|discriminate]. intros [= <-]. apply (nth_error_In _ _ H). Qed.

Lemma given_initializes k : 1 <= k -> initializes (with_given Sp k) (Z.to_nat k) P.
Proof.
  intros Hk d data c e H HD. unfold with_given, init_result_of, given_initializer in H. unfold check in H.
  destruct (Z.ltb_spec k 1); [lia|]. destruct (slen data <? k); [injection H as <- <-; split; [intros c' [= <-]; constructor|discriminate]|].
  assert (G : forall n i l, given_loop Sp n i data = Ok l -> exists l', l = map Some l' /\ length l' = n /\ Forall P l').
  { induction n as [|n IH]; intros i l Hl; cbn [given_loop] in Hl.
    - injection Hl as <-. exists []. auto.
    - destruct (sget data i) as [x|] eqn:Hg; [|discriminate]. cbn [obind] in Hl. destruct (given_loop Sp n (i + 1) data) as [r|] eqn:Hr; [|discriminate].
      cbn [obind] in Hl. injection Hl as <-. destruct (IH _ _ Hr) as (l' & -> & L1 & L2). exists (scopy Sp x :: l'). split; [reflexivity|].
      split; [cbn; congruence|]. constructor; [|exact L2]. apply Hcopy. rewrite Forall_forall in HD. apply HD. apply (sget_in _ _ _ Hg). }
  destruct (given_loop Sp (Z.to_nat k) 0 data) as [l|] eqn:Hl; [|discriminate]. cbn [obind] in H. destruct (G _ _ _ Hl) as (l' & -> & L1 & L2).
  rewrite all_some_map in H. injection H as <- <-. split; [intros c' [= <-]; exact L2|]. intros _. exists l'. auto.
Qed.

Lemma rand_initializes k : 1 <= k -> initializes (with_rand Sp k) (Z.to_nat k) P.
Proof.
  intros Hk draws data c e H HD. unfold with_rand, rand_initializer in H. unfold smake in H.
  destruct (Z.ltb_spec k 0); [lia|]. unfold check in H. destruct (Z.ltb_spec k 1); [lia|].
  destruct (slen data <? k).
  { cbn [init_result_of] in H. injection H as <- <-. split; [|discriminate]. intros c' X. exfalso.
    destruct (Z.to_nat k) eqn:Ek; [lia|]. discriminate X. }
  assert (G : forall draws n chosen l l', rand_loop Sp draws n data chosen l = Some (Ok l') -> Forall P l -> length l' = (length l + n)%nat /\ Forall P l').
  { clear H. intros ds. induction ds as [|z ds IH]; intros [|n] chosen l l' Hl HF; cbn [rand_loop] in Hl; try discriminate;
      try (injection Hl as <-; split; [lia|exact HF]).
    destruct (existsb (Z.eqb z) chosen); [apply (IH _ _ _ _ Hl HF)|]. destruct (sget data z) as [x|] eqn:Hg; [|discriminate].
    destruct (IH _ _ _ _ Hl) as [L1 L2].
    - apply Forall_app. split; [exact HF|]. constructor; [|constructor]. apply Hcopy. rewrite Forall_forall in HD. apply HD. apply (sget_in _ _ _ Hg).
    - split; [|exact L2]. rewrite L1, app_length. cbn [length]. lia. }
  destruct (rand_loop Sp draws (Z.to_nat k) data [] []) as [[l|]|] eqn:Hl; try discriminate. destruct (G _ _ _ _ _ Hl (Forall_nil _)) as [L1 L2].
  cbn [init_result_of] in H. rewrite all_some_map in H. injection H as <- <-. split; [intros c' [= <-]; exact L2|]. intros _. exists l. auto.
Qed.

Lemma pp_initializes degree k : 1 <= k -> initializes (with_pp N Sp degree k) (Z.to_nat k) P.
Proof.
  intros Hk [draw rs] data c e H HD. unfold with_pp, pp_initializer in H. cbn [fst snd] in H. unfold smake in H.
  destruct (Z.ltb_spec k 0); [lia|]. cbn [obind] in H. unfold check in H. destruct (Z.ltb_spec k 1); [lia|].
  assert (Hnone : forall n, all_some (repeat (@None E) (S n)) = None) by reflexivity.
  destruct (slen data <? k).
  { cbn [init_result_of] in H. injection H as <- <-. split; [|discriminate]. intros c' X. exfalso.
    destruct (Z.to_nat k) eqn:Ek; [lia|]. discriminate X. }
  destruct (sget data draw) as [c0|] eqn:Hg; [|discriminate]. cbn [obind] in H.
  assert (Hin : forall i x, sget data i = Ok x -> P x).
  { intros i x Hx. rewrite Forall_forall in HD. apply HD. apply (sget_in _ _ _ Hx). }
  assert (G : forall n i found found' err, pp_loop N Sp degree n i found data rs = Ok (found', err) -> Forall P found ->
    Forall P found' /\ (length found' <= length found + n)%nat /\ (err = None -> length found' = (length found + n)%nat)).
  { clear H. induction n as [|n IH]; intros i found found' err Hl HF; cbn [pp_loop] in Hl; [injection Hl as <- <-; split; [exact HF|]; split; [lia|intros _; lia]|].
    unfold pp_iter in Hl. destruct (par_map_label N Sp found data degree) as [ld|]; [|discriminate]. cbn [obind] in Hl.
    destruct (weighted_choice N (snd ld) (rs i)) as [[dr er]|]; [|discriminate]. cbn [obind] in Hl.
    destruct (sget data dr) as [x|] eqn:Hx; [|discriminate]. cbn [obind fst snd] in Hl.
    assert (HF' : Forall P (found ++ [scopy Sp x])) by (apply Forall_app; split; [exact HF|]; constructor; [apply Hcopy, (Hin _ _ Hx)|constructor]).
    destruct er as [er|].
    - injection Hl as <- <-. split; [exact HF'|]. rewrite app_length. cbn [length]. split; [lia|discriminate].
    - destruct (IH _ _ _ _ Hl HF') as (L1 & L2 & L3). rewrite app_length in L2, L3. cbn [length] in L2, L3. split; [exact L1|]. split; [lia|].
      intros X. rewrite (L3 X). lia. }
  destruct (pp_loop N Sp degree (Z.to_nat k - 1) 1 [c0] data rs) as [[found err]|] eqn:Hl; [|discriminate]. cbn [obind] in H.
  destruct (G _ _ _ _ _ Hl) as (L1 & L2 & L3); [constructor; [apply (Hin _ _ Hg)|constructor]|]. cbn [length] in L2, L3.
  cbn [init_result_of] in H. injection H as <- <-. split.
  - intros c' X. destruct (Z.to_nat k - length found)%nat eqn:Ek.
    + cbn [repeat] in X. rewrite app_nil_r, all_some_map in X. injection X as <-. exact L1.
    + rewrite all_some_nones in X. discriminate.
  - intros X. destruct err; [discriminate|]. specialize (L3 eq_refl). replace (Z.to_nat k - length found)%nat with 0%nat by lia.
    cbn [repeat]. rewrite app_nil_r, all_some_map. exists found. split; [reflexivity|lia].
Qed.
End Init.

(** ** Vectors of real numbers *)
Lemma kmeans_euclid_main : forall (pow : R -> R -> R), (forall x, (0 <= x)%R -> pow x 2%R = (x * x)%R) ->
  forall (D : Type) (initializer : D -> list (list R) -> option (option (list (list R)) * option nat)) par cf size k d elemts l b0,
  valid_par par -> (0 < k)%nat -> initializes initializer k (fun v => length v = d) ->
  new_data_buffer elemts size = Ok b0 -> all_dim d elemts -> all_dim d (elements_of l) ->
  only_budget cf -> cf_timeout cf = false ->
  Z.of_nat (length l) <= 2 ^ 53 -> budget cf (Z.of_nat (length l)) <= 2 ^ 53 ->
  exists q b data, sys_acts cf (kmeans_implem RNum euclid initializer par) (push_all l) (seq0, b0) = Some (q, b) /\
    (size <= 0 -> data = elemts ++ elements_of l) /\
    (0 < size -> rotation data (last_n (Z.to_nat size) (elemts ++ elements_of l))) /\
    forall dr c0, initializer dr data = Some (Some c0, None) ->
    exists c l0 l1, length c = k /\ total_loss RNum euclid pow c0 data 2%R = Ok l0 /\ total_loss RNum euclid pow c data 2%R = Ok l1 /\ (l1 <= l0)%R /\
      (Z.of_nat ((k + 2 ^ length data) ^ k) <= budget cf (Z.of_nat (length l)) -> strategy_iterate RNum euclid par c data = Ok (map Some c)) /\
      forall start mid ps now,
      (forall q' b' e, sys_do cf (kmeans_implem RNum euclid initializer par) (YBatch dr start mid ps) now (q, b) = Some ((q', b'), e) ->
         e = None /\ q_status q' = new_status Finished /\ m_centroids (q_model q') = Some c) /\
      (ps <> [] -> budget cf (Z.of_nat (length l)) <= Z.of_nat (turns (mid ++ concat (map snd (removelast ps)))) ->
         sys_do cf (kmeans_implem RNum euclid initializer par) (YBatch dr start mid ps) now (q, b) <> None).
Proof.
  intros pow Hpow D initializer par cf size k d elemts l b0 Hpar Hk Hinit Hb0 HE HL HB HT Hn Hb.
  set (M := Z.of_nat (length elemts) + Z.of_nat (length l)).
  destruct (kmeans_new_main RNum _ RNumOrd euclid initializer par cf size k (fun v => length v = d) M elemts Hpar Hk (kept_dim M d) Hinit l b0 Hb0 HE HL
    ltac:(unfold M; lia) HB HT Hn Hb) as (q & b & data & Hs & D1 & D2 & G).
  exists q, b, data. split; [exact Hs|]. split; [exact D1|]. split; [exact D2|]. intros dr c0 Hi.
  assert (Hdata : all_dim d data).
  { assert (HA : all_dim d (elemts ++ elements_of l)) by (apply Forall_app; split; assumption).
    destruct (Z_le_gt_dec size 0) as [Hz|Hz]; [rewrite (D1 Hz); exact HA|]. destruct (D2 ltac:(lia)) as (p & _ & Hrot).
    assert (HR : all_dim d (skipn p data ++ firstn p data)).
    { rewrite Hrot. unfold last_n. rewrite <- (firstn_skipn (length (elemts ++ elements_of l) - Z.to_nat size) (elemts ++ elements_of l)) in HA.
      apply Forall_app in HA. apply HA. }
    apply Forall_app in HR. rewrite <- (firstn_skipn p data). apply Forall_app. tauto. }
  destruct (Hinit _ _ _ _ Hi Hdata) as [I1 I2]. destruct (I2 eq_refl) as (c0' & X & Hl). injection X as <-. specialize (I1 c0 eq_refl).
  assert (Hc0 : c0 <> []) by (intros ->; cbn in Hl; lia).
  destruct (G dr c0 Hi) as (c & It & G'). set (n := Z.to_nat (budget cf (Z.of_nat (length l)))) in *.
  destruct (iteration_loss_main pow Hpow par d c0 data Hpar Hc0 I1 Hdata n) as (cn & ln & l0 & J1 & J2 & J3 & J4 & J5 & _).
  assert (cn = c) by (apply (iterations_fun _ _ _ _ _ _ _ _ J1 It)). subst cn.
  exists c, l0, ln. split; [congruence|]. split; [exact J3|]. split; [exact J4|]. split; [exact J5|]. split.
  - intros Hbig. destruct (converge_main par d c0 data Hpar Hc0 I1 Hdata) as (n0 & cs & N1 & _ & N2 & _). rewrite Hl in N1.
    assert (Hle : (n0 <= n)%nat) by (unfold n; lia).
    destruct (N2 n Hle) as [_ U1]. specialize (U1 c It). destruct (N2 (S n) ltac:(lia)) as [It' _]. rewrite <- U1 in It'.
    assert (Hst : exists c', strategy_iterate RNum euclid par c data = Ok (map Some c')).
    { destruct (strategy_runs par d c data Hpar) as (c' & Hc'); [intros ->; cbn in J2; lia|exact Hdata|exists c'; exact Hc']. }
    destruct Hst as (c' & Hst). rewrite Hst. do 2 f_equal.
    apply (iterations_fun _ _ _ _ _ _ _ _ (iterations_snoc _ _ _ _ _ _ _ _ It Hst) It').
  - intros start mid ps now. destruct (G' start mid ps now) as [G1 G2]. split; [|exact G2]. intros q' b' e Hd. destruct (G1 q' b' e Hd) as (X1 & X2 & X3 & _). auto.
Qed.

(** ** Witnesses *)
(** IterPerData 2 and no Iter. *)
Definition conf_per_data : cconf := mkCConf 0 2 0 false None None.
Definition four_turns : list (sys_progress unit) := [STurn tt 0 0; STurn tt 0 0; STurn tt 0 0; STurn tt 0 0].
Definition batch_twice : list (sys_action (list b64) unit) :=
  [YCall (YPush (v64 [0]%Z) 1) 1; YCall (YPush (v64 [8]%Z) 2) 2; YCall (YBatch tt 3 [] [(4, four_turns); (5, [])]) 5;
   YCall (YPush (v64 [12]%Z) 6) 6; YCall (YBatch tt 7 [] [(8, four_turns); (9, [])]) 9].
Definition kmeans1 := kmeans_implem B64Num euclid64 (with_given euclid64 1) None.
Definition buffer0 : buffer (list b64) := match new_data_buffer [] 0 with Ok b => b | Panic => mkBuffer [] [] InfiniteSize end.

Definition show_sys {I} (f : list (list b64) -> bool) (r : option (seq_st (list (list b64)) * I)) : option (oc_status * Z * Z * bool) :=
  match r with
  | Some (q, _) => Some (q_status q, iterations_saved (q_log q), total_pushed (q_log q), match m_centroids (q_model q) with Some c => f c | None => false end)
  | None => None
  end.
Definition is_value (z : Z) (c : list (list b64)) : bool := match c with [[x]] => b64_eqb x (b64_of_Z z) | _ => false end.

Lemma batch_first : show_sys (is_value 4) (sys_acts conf_per_data kmeans1 (firstn 3 batch_twice) (seq0, buffer0)) = Some (new_status Finished, 4, 2, true).
Proof. vm_compute. reflexivity. Qed.
Lemma batch_second : show_sys (is_value 0) (sys_acts conf_per_data kmeans1 batch_twice (seq0, buffer0)) = Some (new_status Finished, 0, 3, true).
Proof. vm_compute. reflexivity. Qed.

Lemma batch_unused : exists q b q' b',
  sys_acts conf_per_data kmeans1 (firstn 4 batch_twice) (seq0, buffer0) = Some (q, b) /\ total_pushed (q_log q) = 3 /\
  sys_do conf_per_data kmeans1 (YBatch tt 7 [] [(8, four_turns); (9, [])]) 9 (q, b) = Some ((q', b'), None) /\
  q_status q' = new_status Finished /\ iterations_saved (q_log q') = 0 /\ budget conf_per_data 3 = 6.
Proof.
  assert (H : match sys_acts conf_per_data kmeans1 (firstn 4 batch_twice) (seq0, buffer0) with
    | Some (q, b) => total_pushed (q_log q) = 3 /\
        match sys_do conf_per_data kmeans1 (YBatch tt 7 [] [(8, four_turns); (9, [])]) 9 (q, b) with
        | Some ((q', b'), None) => q_status q' = new_status Finished /\ iterations_saved (q_log q') = 0
        | _ => False
        end
    | None => False
    end) by (vm_compute; auto).
  destruct (sys_acts _ _ _ _) as [[q b]|]; [|contradiction]. destruct H as [H1 H2].
  destruct (sys_do _ _ _ _ _) as [[[q' b'] [e|]]|] eqn:Hd; try contradiction. destruct H2 as [H2 H3].
  exists q, b, q', b'. split; [reflexivity|]. split; [exact H1|]. split; [exact Hd|]. split; [exact H2|]. split; [exact H3|reflexivity].
Qed.

(** Streaming on two points at distance 3. *)
Definition streaming2 := streaming_implem B64Num two_point_space 10 5 (b64_of_Z 2) (fun x => x).
Definition reinit : list (sys_action bool b64) :=
  [YCall (YPlay (b64_of_Z 0)) 1; YProgress (STurn (b64_of_Z 0) 0 2); YProgress (STurn (b64_of_Z 0) 0 3); YCall YStop 4;
   YCall (YPush true 5) 5; YCall (YInit (b64_of_Z 0)) 6].
Lemma reinit_ex : exists q s, sys_acts conf_free streaming2 reinit (seq0, new_streaming B64Num [true; false; true]) = Some (q, s) /\
  q_status q = new_status Ready /\ m_centroids (q_model q) = Some [true] /\ s_clust s = [true; false; true] /\ s_cards s = [2; 1; 1] /\ s_queue s = [].
Proof.
  assert (H : match sys_acts conf_free streaming2 reinit (seq0, new_streaming B64Num [true; false; true]) with
    | Some (q, s) => q_status q = new_status Ready /\ m_centroids (q_model q) = Some [true] /\ s_clust s = [true; false; true] /\ s_cards s = [2; 1; 1] /\ s_queue s = []
    | None => False end) by (vm_compute; auto 10).
  destruct (sys_acts _ _ _ _) as [[q s]|]; [|contradiction]. exists q, s. auto.
Qed.

Definition kmeans_session : list (sys_action (list b64) unit) :=
  [YCall (YPush (v64 [0]%Z) 1) 1; YCall (YPush (v64 [8]%Z) 2) 2; YCall (YPlay tt) 3; YCall (YPush (v64 [10]%Z) 4) 4; YProgress (STurn tt 0 5)].
Lemma session_pushes : pushes_only (box_vec 4 1) kmeans_session.
Proof.
  intros x t now H. cbn [kmeans_session In] in H.
  assert (B : forall z, (Z.abs z <= 2 ^ 4)%Z -> box_vec 4 1 (v64 [z])) by (intros z Hz; apply (box_of_Zs 4 [z]); [lia|cbn [forallb]; rewrite andb_true_r; apply Z.leb_le; exact Hz]).
  destruct H as [H|[H|[H|[H|[H|[]]]]]]; try discriminate H;
    (assert (Hx : v64 [0] = x \/ v64 [8] = x \/ v64 [10] = x) by
       (first [left; congruence | right; left; congruence | right; right; congruence]);
     clear H; destruct Hx as [<-|[<-|<-]]; apply B; lia).
Qed.
