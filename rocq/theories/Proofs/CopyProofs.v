(** Copies of algorithms (C95-C97) and Predict (C98). *)
From Coq Require Import List ZArith Lia Bool Reals.
From Flocq Require Import IEEE754.BinarySingleNaN.
From Verif Require Import Base.Go Base.Num Model.Clustering Model.Par Model.Buffer Model.Euclid Model.Kmeans Model.KmeansInit Model.Streaming
  Model.Status Model.Finish Model.Conf Model.CtrlLang Model.CtrlCode Model.CtrlSeq Model.System Model.Copy
  Spec.ClusterSpec Spec.BufferSpec Spec.RealSpec Spec.KmeansSpec Spec.NearestSpec Spec.FloatSpec Spec.StreamingSpec Spec.CtrlSpec Spec.CtrlSeqSpec Spec.SystemSpec
  Proofs.GoLemmas Proofs.NumLaws Proofs.NearestProofs Proofs.AssignMain Proofs.EuclidFloat Proofs.BufferProofs Proofs.FloatKmeans Proofs.StreamingProofs Proofs.SpaceMain
  Proofs.CtrlSeqEx Proofs.SystemKmeans Proofs.SystemKmeansBatch Proofs.SystemStreaming Proofs.SystemMain.
Import ListNotations.
Local Open Scope Z_scope.
Local Notation euclid64 := (euclid_space B64Num).

Section Conf.
Context {G : Type} (rgen0 : G) (cpus : Z) {E : Type}.

Lemma default_int_twice z d : default_int (default_int z d) d = default_int z d.
Proof. unfold default_int. destruct (Z.eqb_spec z 0) as [->|H]; [destruct (d =? 0); reflexivity|]. destruct (Z.eqb_spec z 0); [contradiction|reflexivity]. Qed.
Lemma kmeans_defaults_twice (c : kmeans_conf G) :
  kmeans_set_defaults rgen0 cpus (kmeans_set_defaults rgen0 cpus c) = kmeans_set_defaults rgen0 cpus c.
Proof. unfold kmeans_set_defaults. cbn. rewrite default_int_twice. destruct (km_rgen c); reflexivity. Qed.
Lemma core_new_defaults (c : kmeans_conf G) :
  core_new_algo (kmeans_ops rgen0 cpus) (kmeans_set_defaults rgen0 cpus c) = core_new_algo (kmeans_ops rgen0 cpus) c.
Proof. unfold core_new_algo, prepare_conf, kmeans_ops, kmeans_verify. cbn [co_set_defaults co_verify co_ctrl]. rewrite !kmeans_defaults_twice. reflexivity. Qed.
Lemma core_new_conf (c c' : kmeans_conf G) : core_new_algo (kmeans_ops rgen0 cpus) c = Ok c' -> c' = kmeans_set_defaults rgen0 cpus c.
Proof.
  unfold core_new_algo, prepare_conf, kmeans_ops, kmeans_verify. cbn [co_set_defaults co_verify co_ctrl]. rewrite kmeans_defaults_twice.
  destruct (km_k _ <? 1); [discriminate|]. destruct (ctrl_verify _); [discriminate|]. congruence.
Qed.

Lemma create_eq (c : kmeans_conf G) (data : list E) : kmeans_create rgen0 cpus c data =
  match new_data_buffer data (km_frame_size c), core_new_algo (kmeans_ops rgen0 cpus) c with
  | Ok b, Ok c' => Ok (mkKmeansAlgo c' (kmeans_strategy (kmeans_set_defaults rgen0 cpus c)) b seq0)
  | _, _ => Panic
  end.
Proof.
  unfold kmeans_create, kmeans_new_algo, kmeans_verify. cbn [fst]. rewrite core_new_defaults.
  replace (km_frame_size (kmeans_set_defaults rgen0 cpus c)) with (km_frame_size c) by reflexivity.
  destruct (new_data_buffer data (km_frame_size c)) as [b|]; cbn [obind]; [|reflexivity].
  destruct (core_new_algo (kmeans_ops rgen0 cpus) c) as [c'|] eqn:H; cbn [obind]; [|reflexivity].
  apply core_new_conf in H. subst c'. reflexivity.
Qed.

(** C95 *)
Lemma copy_conf_main (a a' : kmeans_algo G E) (c : kmeans_conf G) : kmeans_copy rgen0 cpus a c = Ok a' ->
  km_k (ka_conf a') = km_k c /\ km_ctrl (ka_conf a') = km_ctrl c /\ ka_ctrl a' = seq0 /\
  (km_frame_size c = km_frame_size (ka_conf a) -> km_par c = km_par (ka_conf a) ->
   (km_par c = true -> default_int (km_num_cpu c) cpus = default_int (km_num_cpu (ka_conf a)) cpus) ->
   kmeans_create rgen0 cpus c (bdata (ka_buffer a)) = Ok a').
Proof.
  unfold kmeans_copy. rewrite !create_eq.
  destruct (new_data_buffer (bdata (ka_buffer a)) (km_frame_size (ka_conf a))) as [b|] eqn:Hb; [|discriminate].
  destruct (core_new_algo (kmeans_ops rgen0 cpus) (ka_conf a)) as [c0|]; [|discriminate]. cbn [obind ka_par ka_buffer].
  destruct (core_new_algo (kmeans_ops rgen0 cpus) c) as [c1|] eqn:Hc; [|discriminate]. cbn [obind]. intros H. injection H as <-.
  cbn [ka_conf ka_ctrl]. pose proof (core_new_conf c c1 Hc) as E1.
  assert (K1 : km_k c1 = km_k c) by (rewrite E1; reflexivity). assert (K2 : km_ctrl c1 = km_ctrl c) by (rewrite E1; reflexivity).
  split; [exact K1|]. split; [exact K2|]. split; [reflexivity|].
  intros H1 H2 H3. rewrite H1, Hb. f_equal. f_equal. unfold kmeans_strategy, kmeans_set_defaults. cbn [km_par km_num_cpu].
  rewrite <- H2. destruct (km_par c); [|reflexivity]. f_equal. apply H3. reflexivity.
Qed.
End Conf.

Definition ctrl1 : ctrl_conf := mkCtrl 1 (b64_of_Z 0) 0 0 0 None.
Definition km_conf (par : bool) (frame : Z) : kmeans_conf unit := mkKmeansConf ctrl1 par 1 frame None 0.

Lemma copy_frame : exists a a' b : kmeans_algo unit Z,
  kmeans_create tt 4 (km_conf false 0) [1; 2; 3] = Ok a /\ kmeans_copy tt 4 a (km_conf true 2) = Ok a' /\
  km_frame_size (ka_conf a') = 2 /\ bdata (ka_buffer a') = [1; 2; 3] /\ km_par (ka_conf a') = true /\ ka_par a' = None /\
  kmeans_create tt 4 (km_conf true 2) [1; 2; 3] = Ok b /\ bdata (ka_buffer b) = [2; 3] /\ ka_par b = Some 4.
Proof. do 3 eexists. repeat (split; [reflexivity|]). reflexivity. Qed.

Definition ctrl_free : ctrl_conf := mkCtrl 0 (b64_of_Z 0) 0 0 0 None.
Definition st_conf (size after : Z) : streaming_conf unit :=
  mkStreamingConf ctrl_free size (b64_of_Z 0) (b64_of_Z 0) (b64_of_Z 0) after None.
Lemma copy_streaming_conf : exists a a' b : streaming_algo unit bool,
  streaming_create tt (st_conf 1 5) [] = Ok a /\ streaming_copy tt a (st_conf 10 2) = Ok a' /\
  sc_buffer_size (sa_conf a') = 10 /\ sc_out_after (sa_conf a') = 2 /\
  sc_buffer_size (sa_impl_conf a') = 1 /\ sc_out_after (sa_impl_conf a') = 5 /\
  streaming_create tt (st_conf 10 2) [] = Ok b /\ sc_buffer_size (sa_impl_conf b) = 10 /\
  snd (streaming_push (sc_buffer_size (sa_impl_conf a')) (fst (streaming_push (sc_buffer_size (sa_impl_conf a')) (sa_impl a') true)) true) = true.
Proof. do 3 eexists. repeat (split; [reflexivity|]). reflexivity. Qed.

(** C96 *)
Definition far : b64 := b64_of_Z 0.
Definition near : b64 := b64_of_Z 9.
Definition with_impl {G E} (a : streaming_algo G E) (s : streaming E b64) (q : seq_st (list E)) : streaming_algo G E :=
  mkStreamingAlgo (sa_conf a) (sa_impl_conf a) s q.

Section StreamCopy.
Context {G : Type} (rgen0 : G) {E : Type}.
Lemma copy_streaming_main (a a' : streaming_algo G E) (c : streaming_conf G) : streaming_copy rgen0 a c = Ok a' ->
  slen (s_clust (sa_impl a)) <= sc_buffer_size (sa_impl_conf a') /\
  s_queue (sa_impl a') = s_clust (sa_impl a) /\ s_clust (sa_impl a') = [] /\ s_cards (sa_impl a') = [] /\
  s_max (sa_impl a') = b64_of_Z 0 /\ s_count (sa_impl a') = 0 /\ sa_ctrl a' = seq0.
Proof.
  unfold streaming_copy, streaming_create, streaming_new_algo.
  set (c0 := fst (streaming_verify rgen0 (sa_conf a))).
  destruct (Z.ltb_spec (sc_buffer_size c0) (slen (s_clust (sa_impl a)))); [discriminate|].
  destruct (sc_buffer_size c0 <? 0); cbn [obind]; [discriminate|].
  destruct (core_new_algo (streaming_ops rgen0) c0) as [c1|] eqn:H1; cbn [obind]; [|discriminate].
  destruct (core_new_algo (streaming_ops rgen0) c) as [c2|]; cbn [obind]; [|discriminate].
  intros H2. injection H2 as <-. cbn. split; [|repeat split].
  unfold core_new_algo, prepare_conf, streaming_ops, streaming_verify in H1. cbn [co_set_defaults co_verify co_ctrl] in H1.
  destruct (sc_out_after _ <? 2); [discriminate|]. destruct (ctrl_verify _); [discriminate|]. injection H1 as <-. cbn.
  fold c0 in H. unfold slen in *. subst c0. cbn in *. rewrite !default_int_twice. exact H.
Qed.
End StreamCopy.

Definition streaming_of {G} (a : streaming_algo G bool) :=
  streaming_implem B64Num two_point_space (sc_buffer_size (sa_impl_conf a)) (sc_out_after (sa_impl_conf a)) (sc_out_ratio (sa_impl_conf a)) (fun x => x).
Definition learning : list (sys_action bool b64) :=
  [YCall (YPlay far) 1; YProgress (STurn far 0 2); YProgress (STurn near 0 3); YCall (YPush false 4) 4].
Lemma copy_forgets : exists (a0 a' : streaming_algo unit bool) q s,
  streaming_create tt (st_conf 10 5) [true; false; true] = Ok a0 /\
  sys_acts (ctrl_of (sc_ctrl (sa_conf a0))) (streaming_of a0) learning (seq0, sa_impl a0) = Some (q, s) /\
  s_clust s = [true; false] /\ s_cards s = [2; 1] /\ s_queue s = [false] /\ b64_eqb (s_max s) (b64_of_Z 3) = true /\
  streaming_copy tt (with_impl a0 s q) (st_conf 10 5) = Ok a' /\
  s_clust (sa_impl a') = [] /\ s_cards (sa_impl a') = [] /\ s_queue (sa_impl a') = [true; false] /\ b64_eqb (s_max (sa_impl a')) (b64_of_Z 0) = true.
Proof.
  assert (H : match streaming_create tt (st_conf 10 5) [true; false; true] with Panic => False | Ok a0 =>
    match sys_acts (ctrl_of (sc_ctrl (sa_conf a0))) (streaming_of a0) learning (seq0, sa_impl a0) with None => False | Some (q, s) =>
      s_clust s = [true; false] /\ s_cards s = [2; 1] /\ s_queue s = [false] /\ b64_eqb (s_max s) (b64_of_Z 3) = true /\
      match streaming_copy tt (with_impl a0 s q) (st_conf 10 5) with Panic => False | Ok a' =>
        s_clust (sa_impl a') = [] /\ s_cards (sa_impl a') = [] /\ s_queue (sa_impl a') = [true; false] /\ b64_eqb (s_max (sa_impl a')) (b64_of_Z 0) = true
      end end end) by (vm_compute; repeat split; reflexivity).
  destruct (streaming_create _ _ _) as [a0|] eqn:Ha; [|contradiction]. destruct (sys_acts _ _ _ _) as [[q s]|] eqn:Hs; [|contradiction]. destruct H as (H1 & H2 & H3 & H4 & H).
  destruct (streaming_copy _ _ _) as [a'|] eqn:Hc; [|contradiction].
  exists a0, a', q, s. split; [reflexivity|]. split; [exact Hs|]. repeat (split; [assumption|]). exact H.
Qed.

Definition two_centers : list (sys_action bool b64) :=
  [YCall (YPlay far) 1; YCall (YPush false 2) 2; YProgress (STurn far 0 3)].
Lemma copy_panics : exists (a0 : streaming_algo unit bool) q s,
  streaming_create tt (st_conf 1 5) [true] = Ok a0 /\
  sys_acts (ctrl_of (sc_ctrl (sa_conf a0))) (streaming_of a0) two_centers (seq0, sa_impl a0) = Some (q, s) /\
  s_clust s = [true; false] /\ streaming_copy tt (with_impl a0 s q) (sa_conf a0) = Panic.
Proof.
  assert (H : match streaming_create tt (st_conf 1 5) [true] with Panic => False | Ok a0 =>
    match sys_acts (ctrl_of (sc_ctrl (sa_conf a0))) (streaming_of a0) two_centers (seq0, sa_impl a0) with None => False | Some (q, s) =>
      s_clust s = [true; false] /\ streaming_copy tt (with_impl a0 s q) (sa_conf a0) = Panic
      end end) by (vm_compute; repeat split; reflexivity).
  destruct (streaming_create _ _ _) as [a0|] eqn:Ha; [|contradiction]. destruct (sys_acts _ _ _ _) as [[q s]|] eqn:Hs; [|contradiction].
  exists a0, q, s. split; [reflexivity|]. split; [exact Hs|]. exact H.
Qed.

(** C97 *)
Lemma buffer_same {E} (data : list E) size : (0 < size -> Z.of_nat (length data) <= size) ->
  exists b, new_data_buffer data size = Ok b /\ bdata b = data /\ bpipe b = [].
Proof.
  intros H. destruct (new_data_buffer_repr size data) as (b & Hb & Hr & Hp). exists b. split; [exact Hb|]. split; [|exact Hp].
  unfold new_data_buffer in Hb. destruct (Z.ltb_spec (slen data) size) as [L1|L1]; [injection Hb as <-; reflexivity|].
  destruct (Z.ltb_spec 0 size) as [L|L]; [|injection Hb as <-; reflexivity]. specialize (H L).
  unfold slen, sslice in *. assert (Heq : Z.of_nat (length data) = size) by lia. rewrite Heq, Z.sub_diag in Hb. cbn [Z.to_nat skipn] in Hb.
  destruct (_ || _); [discriminate|]. cbn [obind] in Hb. injection Hb as <-. cbn [bdata]. rewrite firstn_all2 by lia. reflexivity.
Qed.

Lemma iterations_fun {E F} (N : Num F) (Sp : Space E F) par data n : forall c c1 c2,
  iterations N Sp par data n c c1 -> iterations N Sp par data n c c2 -> c1 = c2.
Proof.
  induction n as [|n IH]; intros c c1 c2 H1 H2.
  - inversion H1; inversion H2. congruence.
  - inversion H1 as [|? ? a1 ? S1 R1]. inversion H2 as [|? ? a2 ? S2 R2]. subst. rewrite S1 in S2. injection S2 as S2. apply some_inj in S2. subst a2. eapply IH; eassumption.
Qed.

Section CopyBatch.
Context {G : Type} (rgen0 : G) (cpus : Z).
Context {E F : Type} (N : Num F) (good : F -> Prop) (HN : NumOrd N good) (Sp : Space E F).
Context {D : Type} (initializer : Z -> D -> list E -> option (option (list E) * option nat)).
Notation im a := (kmeans_implem N Sp (initializer (km_k (ka_conf a))) (ka_par a)).
Notation cf a := (ctrl_of (km_ctrl (ka_conf a))).

Lemma create_again (c : kmeans_conf G) (elemts data : list E) a0 : kmeans_create rgen0 cpus c elemts = Ok a0 ->
  (0 < km_frame_size c -> Z.of_nat (length data) <= km_frame_size c) ->
  exists b, new_data_buffer data (km_frame_size c) = Ok b /\ bdata b = data /\ bpipe b = [] /\
    kmeans_create rgen0 cpus (ka_conf a0) data = Ok (mkKmeansAlgo (ka_conf a0) (ka_par a0) b seq0).
Proof.
  rewrite create_eq. destruct (new_data_buffer elemts (km_frame_size c)); [|discriminate].
  destruct (core_new_algo (kmeans_ops rgen0 cpus) c) as [c1|] eqn:Hc; [|discriminate]. intros H Hl. injection H as <-. cbn [ka_conf ka_par].
  destruct (buffer_same data (km_frame_size c) Hl) as (b & H1 & H2 & H3). exists b. split; [exact H1|]. split; [exact H2|]. split; [exact H3|].
  pose proof (core_new_conf _ _ _ _ Hc) as E1. rewrite create_eq.
  replace (km_frame_size c1) with (km_frame_size c) by (rewrite E1; reflexivity). rewrite H1.
  replace (core_new_algo (kmeans_ops rgen0 cpus) c1) with (Ok c1) by (rewrite E1, core_new_defaults, Hc, <- E1; reflexivity).
  f_equal. f_equal. rewrite E1, kmeans_defaults_twice. reflexivity.
Qed.

Lemma copy_batch_main (P : E -> Prop) M (c : kmeans_conf G) elemts a0 xs q b :
  kmeans_create rgen0 cpus c elemts = Ok a0 -> valid_par (ka_par a0) -> kept Sp M P ->
  initializes (initializer (km_k c)) (Z.to_nat (km_k c)) P -> Forall P elemts -> pushes_only P xs ->
  sys_acts (cf a0) (im a0) xs (seq0, ka_buffer a0) = Some (q, b) -> Z.of_nat (length elemts) + total_pushed (q_log q) <= M ->
  exists a', kmeans_copy rgen0 cpus (mkKmeansAlgo (ka_conf a0) (ka_par a0) b q) (ka_conf a0) = Ok a' /\
    ka_conf a' = ka_conf a0 /\ ka_par a' = ka_par a0 /\ ka_ctrl a' = seq0 /\ bdata (ka_buffer a') = bdata b /\
    let cc := km_ctrl (ka_conf a0) in
    (bpipe b = [] -> q_locked q = false -> cc_finishing cc = None -> cc_timeout cc <= 0 -> 0 <= cc_iter cc <= 2 ^ 53 -> 0 <= cc_iter_per_data cc ->
     0 < cc_iter cc \/ 0 < cc_iter_per_data cc -> cc_iter_per_data cc = 0 \/ st_value (q_status q) <> Created ->
     CtrlSpec.pushes (q_log q) <= 2 ^ 53 ->
     forall d start mid ps now start' mid' ps' now' q1 b1 e1 q2 b2 e2,
       sys_do (cf a0) (im a0) (YBatch d start mid ps) now (q, b) = Some ((q1, b1), e1) ->
       sys_do (cf a') (im a') (YBatch d start' mid' ps') now' (ka_ctrl a', ka_buffer a') = Some ((q2, b2), e2) ->
       e1 = e2 /\ q_status q1 = q_status q2 /\ m_centroids (q_model q1) = m_centroids (q_model q2) /\ bdata b1 = bdata b2).
Proof.
  intros Hc Hpar HP Hi HE Hx Hs HM. pose proof Hc as Hc'. rewrite create_eq in Hc'.
  destruct (new_data_buffer elemts (km_frame_size c)) as [b0|] eqn:Hb0; [|discriminate].
  destruct (core_new_algo (kmeans_ops rgen0 cpus) c) as [c1|] eqn:Hc1; [|discriminate]. injection Hc' as E0.
  assert (K1 : km_k (ka_conf a0) = km_k c) by (rewrite <- E0; cbn; rewrite (core_new_conf _ _ _ _ Hc1); reflexivity).
  assert (B1 : ka_buffer a0 = b0) by (rewrite <- E0; reflexivity).
  assert (Kp : (0 < Z.to_nat (km_k c))%nat).
  { unfold core_new_algo, prepare_conf, kmeans_ops, kmeans_verify in Hc1. cbn [co_set_defaults co_verify co_ctrl] in Hc1.
    destruct (Z.ltb_spec (km_k (kmeans_set_defaults rgen0 cpus (kmeans_set_defaults rgen0 cpus c))) 1) as [L|L]; [discriminate|].
    cbn [kmeans_set_defaults km_k] in L. lia. }
  rewrite <- K1 in Hi. rewrite <- K1 in Kp. rewrite B1 in Hs.
  destruct (kmeans_use N good HN Sp (initializer (km_k (ka_conf a0))) (ka_par a0) (cf a0) (km_frame_size c) _ P M elemts Hpar Kp HP Hi xs b0 q b Hb0 HE Hx Hs HM)
    as (HF & _ & HL & _).
  destruct (create_again c elemts (bdata b) a0 Hc HL) as (bc & N1 & N2 & N3 & N4).
  assert (Hcopy : kmeans_copy rgen0 cpus (mkKmeansAlgo (ka_conf a0) (ka_par a0) b q) (ka_conf a0) = Ok (mkKmeansAlgo (ka_conf a0) (ka_par a0) bc seq0)).
  { unfold kmeans_copy. cbn [ka_conf ka_buffer]. rewrite N4. cbn [obind ka_par ka_buffer].
    replace (core_new_algo (kmeans_ops rgen0 cpus) (ka_conf a0)) with (Ok (ka_conf a0)); [reflexivity|].
    rewrite <- E0. cbn [ka_conf]. pose proof (core_new_conf _ _ _ _ Hc1) as E1. rewrite E1 at 2. rewrite core_new_defaults, Hc1. reflexivity. }
  eexists. split; [exact Hcopy|]. cbn [ka_conf ka_par ka_ctrl ka_buffer]. split; [reflexivity|]. split; [reflexivity|]. split; [reflexivity|]. split; [exact N2|].
  intros Hpipe Hu HB1 HT1 HB2 HB3 HB4 Hipd Hpu d start mid ps now start' mid' ps' now' q1 b1 e1 q2 b2 e2 D1 D2.
  assert (HB : only_budget (cf a0)) by (split; [exact HB1|]; split; [exact (proj1 HB2)|]; split; [exact HB3|exact HB4]).
  assert (HT : cf_timeout (cf a0) = false) by (apply Z.ltb_ge; exact HT1).
  assert (Hit : cf_iter (cf a0) <= 2 ^ 53) by exact (proj2 HB2).
  change (cc_iter_per_data (km_ctrl (ka_conf a0))) with (cf_ipd (cf a0)) in Hipd.
  set (n := if status_eqb (st_value (q_status q)) Created then CtrlSpec.pushes (q_log q) else 0).
  assert (Bn : budget (cf a0) n = cf_iter (cf a0)).
  { unfold budget. destruct Hipd as [->|Hne]; [lia|]. unfold n. destruct (status_eqb (st_value (q_status q)) Created) eqn:Hst; [|lia].
    destruct (st_value (q_status q)); try discriminate Hst. congruence. }
  assert (Bn0 : budget (cf a0) 0 = cf_iter (cf a0)) by (unfold budget; lia).
  assert (Hn : n <= 2 ^ 53) by (unfold n; destruct (status_eqb _ _); [exact Hpu|lia]).
  destruct (kmeans_batch_main N good HN Sp (initializer (km_k (ka_conf a0))) (ka_par a0) (cf a0) (km_frame_size c) _ P M elemts Hpar Kp HP Hi
    xs b0 q b n Hb0 HE Hx Hs HM Hu HB HT eq_refl Hn) as (bb1 & A1 & A2 & _ & A3); [lia|].
  assert (Hbb : bdata bb1 = bdata b).
  { unfold buffer_apply in A1. rewrite Hpipe in A1. cbn [ofold] in A1. injection A1 as <-. reflexivity. }
  assert (HF1 : Forall P (bdata b)) by (apply Forall_app in HF; apply HF).
  destruct (kmeans_batch_main N good HN Sp (initializer (km_k (ka_conf a0))) (ka_par a0) (cf a0) (km_frame_size c) _ P M (bdata b) Hpar Kp HP Hi
    [] bc seq0 bc 0 N1 HF1) as (bb2 & C1 & C2 & _ & C3); try reflexivity; try assumption; try lia.
  { intros x t w []. }
  { cbn [q_log seq0]. pose proof (kmeans_data_bound N good HN Sp (initializer (km_k (ka_conf a0))) (ka_par a0) (cf a0) (km_frame_size c) _ P M elemts Hpar Kp HP Hi
      xs b0 q b Hb0 HE Hx Hs HM). unfold total_pushed at 1. cbn [filter length]. lia. }
  assert (Hbc : bb2 = bc /\ bdata bb2 = bdata b).
  { unfold buffer_apply in C1. rewrite N3 in C1. cbn [ofold] in C1. injection C1 as <-. rewrite <- N2. rewrite <- N3. destruct bc; split; reflexivity. }
  destruct Hbc as [_ Hbc].
  specialize (A3 d start mid ps now). specialize (C3 d start' mid' ps' now'). rewrite Hbb in A3. rewrite Hbc in C3.
  destruct (initializer (km_k (ka_conf a0)) d (bdata b)) as [[o [m|]]|].
  - destruct A3 as (qa & A3 & _ & A4 & A5). destruct C3 as (qc & C3 & _ & C4 & C5). rewrite D1 in A3. cbn [ka_ctrl ka_conf ka_par ka_buffer] in D2. rewrite D2 in C3.
    injection A3 as -> -> ->. injection C3 as -> -> ->. repeat split; congruence.
  - destruct A3 as (ca & c2 & -> & I1 & A3 & _). destruct C3 as (cc & c3 & X & I2 & C3 & _). injection X as <-.
    destruct (A3 _ _ _ D1) as (-> & -> & A5 & _ & A6 & _). destruct (C3 _ _ _ D2) as (-> & -> & C5 & _ & C6 & _).
    rewrite Bn in I1. rewrite Bn0 in I2. pose proof (iterations_fun _ _ _ _ _ _ _ _ I1 I2) as ->.
    repeat split; congruence.
  - rewrite A3 in D1. discriminate.
Qed.
End CopyBatch.

(** C98 *)
Lemma predict_values : forall (E F : Type) (N : Num F) (Sp : Space E F) c x,
  predict_opt N Sp (option_map (map Some) c) x = predict N Sp c x.
Proof.
  intros E F N Sp c x. unfold predict_opt, predict. destruct c as [c|]; [|reflexivity]. cbn [option_map].
  assert (H : no_nil (map Some c) = Ok c) by (induction c as [|y c IH]; [reflexivity|cbn; rewrite IH; reflexivity]). rewrite H. reflexivity.
Qed.

Lemma kmeans_predict : forall par cf size k (kc : nat) d (D : Type) (initializer : D -> list (list b64) -> option (option (list (list b64)) * option nat)) elemts,
  valid_par par -> -1074 <= k <= 970 -> (0 < kc)%nat -> initializes initializer kc (box_vec k d) -> forall xs b0 q b,
  new_data_buffer elemts size = Ok b0 -> Forall (box_vec k d) elemts -> pushes_only (box_vec k d) xs ->
  sys_acts cf (kmeans_implem B64Num euclid64 initializer par) xs (seq0, b0) = Some (q, b) ->
  Z.of_nat (length elemts) + total_pushed (q_log q) < 2 ^ 53 ->
  forall x, length x = d -> Forall (fun v => is_finite v = true) x ->
  match m_centroids (q_model q) with
  | None | Some [] => predict B64Num euclid64 (m_centroids (q_model q)) x = Ok (None, -1, b64_of_Z (-1))
  | Some c => exists l cl, predict B64Num euclid64 (m_centroids (q_model q)) x = Ok (Some cl, Z.of_nat l, sdist euclid64 x cl) /\ first_nearest64 euclid64 c x l cl
  end.
Proof.
  intros par cf size k kc d D initializer elemts Hp Hk Hkc Hi xs b0 q b Hb HE Hx Hs HM x Lx Fx.
  destruct (kmeans_use B64Num _ B64NumOrd _ initializer par cf size kc (box_vec k d) (2 ^ 53 - 1) elemts Hp Hkc (kept_box k d Hk) Hi xs b0 q b Hb HE Hx Hs ltac:(lia))
    as (_ & _ & _ & HC & _).
  destruct (m_centroids (q_model q)) as [[|c0 c]|]; try reflexivity. specialize (HC _ eq_refl). unfold predict.
  apply predict_finite; [discriminate|exact Fx|]. apply Forall_forall. intros v Hv. rewrite Forall_forall in HC. destruct (HC v Hv) as [L B]. split; [|etransitivity; [exact L|symmetry; exact Lx]].
  eapply Forall_impl; [|exact B]. intros a Ha. apply Ha.
Qed.

Lemma streaming_predict : forall bs oa ratio to64 cf k d (elemts : list (list b64)) xs q s,
  -1020 <= k <= 970 -> Z.of_nat (length elemts) <= bs -> Forall (box_vec k d) elemts -> pushes_only (box_vec k d) xs ->
  sys_acts cf (streaming_implem B64Num euclid64 bs oa ratio to64) xs (seq0, new_streaming B64Num elemts) = Some (q, s) ->
  Z.of_nat (length elemts) + total_pushed (q_log q) < 2 ^ 53 ->
  forall x, length x = d -> Forall (fun v => is_finite v = true) x ->
  match m_centroids (q_model q) with
  | None => predict B64Num euclid64 (m_centroids (q_model q)) x = Ok (None, -1, b64_of_Z (-1))
  | Some c => exists l cl, predict B64Num euclid64 (m_centroids (q_model q)) x = Ok (Some cl, Z.of_nat l, sdist euclid64 x cl) /\ first_nearest64 euclid64 c x l cl
  end.
Proof.
  intros bs oa ratio to64 cf k d elemts xs q s Hk Hbs HE Hx Hs HM x Lx Fx.
  destruct (streaming_use B64Num _ B64NumOrd euclid64 bs oa ratio to64 cf (box_vec k d) elemts xs q s Hbs Hx Hs) as (ops & rs & H1 & H2 & H3 & H4 & H5 & H6 & H7 & _).
  destruct (m_centroids (q_model q)) as [c|]; [|reflexivity]. destruct (H7 c eq_refl) as [Hc [pre Hpre]]. unfold predict.
  assert (HB : Forall (box_vec k d) (s_clust s)).
  { refine (proj1 (float_streaming_main k d bs oa ratio elemts ops rs s Hk _ H1 _)); [|apply Forall_app; auto].
    destruct (sexec_queue B64Num euclid64 bs oa ratio _ ops rs s H1) as [HT _]. cbn [s_queue new_streaming] in HT. rewrite app_length in HT. lia. }
  apply predict_finite; [exact Hc|exact Fx|]. apply Forall_forall. intros v Hv. rewrite Forall_forall in HB. destruct (HB v) as [L B]; [rewrite Hpre; apply in_or_app; auto|].
  split; [|etransitivity; [exact L|symmetry; exact Lx]]. eapply Forall_impl; [|exact B]. intros a Ha. apply Ha.
Qed.

(** Init of a k-means algorithm with RandInitializer or PPInitializer, K = 2, and one element. *)
Definition after_init (r : option (outcome (list (option (list b64)) * option init_error))) : option (seq_st (list (option (list b64))) * option algo_error) :=
  match r with
  | Some (Ok (l, e)) => Some (init_seq (Some l, option_map error_code e) seq0)
  | _ => None
  end.
Lemma predict_nil : exists q q',
  after_init (rand_initializer euclid64 2 [v64 [5]] []) = Some (q, Some (ErrImpl 2)) /\ st_value (q_status q) = Finished /\
  predict_opt B64Num euclid64 (m_centroids (q_model q)) (v64 [5]) = Panic /\
  after_init (Some (pp_initializer B64Num euclid64 4 2 [v64 [5]] 0 (fun _ => b64_of_Z 0))) = Some (q', Some (ErrImpl 2)) /\ st_value (q_status q') = Finished /\
  predict_opt B64Num euclid64 (m_centroids (q_model q')) (v64 [5]) = Panic.
Proof. do 2 eexists. repeat (split; [reflexivity|]). reflexivity. Qed.

Definition copied : list (sys_action (list b64) unit) :=
  [YCall (YPush (v64 [0]%Z) 1) 1; YCall (YPush (v64 [8]%Z) 2) 2; YCall (YBatch tt 3 [] [(4, four_turns); (5, [])]) 5].
