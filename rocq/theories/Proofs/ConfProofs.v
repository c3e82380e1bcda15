(** Proofs about finishing conditions and configurations: C30, C31. *)
From Coq Require Import String List ZArith Lia Bool Reals Lra.
From Flocq Require Import Core IEEE754.BinarySingleNaN.
From Verif Require Import Base.Go Base.Num Model.Status Model.Finish Model.Buffer Model.Conf Spec.BufferSpec Spec.ConfSpec
  Proofs.NumLaws Proofs.BufferProofs.
Import ListNotations.
Local Open Scope Z_scope.

(** ** C30 *)
Lemma b64_of_Z_exact (z : Z) : Z.abs z <= 2 ^ 53 -> B2R (b64_of_Z z) = IZR z /\ is_finite (b64_of_Z z) = true.
Proof.
  intros H. unfold b64_of_Z.
  pose proof (binary_normalize_correct prec64 emax64 prec64_gt_0 prec64_lt_emax mode_NE z 0 false) as Hc.
  cbv zeta in Hc.
  assert (Hf : F2R (Float radix2 z 0) = IZR z).
  { unfold F2R. cbn. lra. }
  rewrite Hf in Hc.
  assert (Hg : generic_format radix2 (SpecFloat.fexp prec64 emax64) (IZR z)).
  { rewrite <- Hf. destruct (Z.eq_dec (Z.abs z) (2 ^ 53)) as [He|Hne].
    - assert (Hz : z = 2 ^ 53 \/ z = - 2 ^ 53) by lia.
      assert (Hp : generic_format radix2 (SpecFloat.fexp prec64 emax64) (bpow radix2 53)).
      { apply generic_format_bpow. unfold SpecFloat.fexp, SpecFloat.emin, prec64, emax64. lia. }
      rewrite Hf. destruct Hz as [-> | ->].
      + rewrite <- (IZR_Zpower radix2 53) in Hp by lia. exact Hp.
      + rewrite <- (IZR_Zpower radix2 53) in Hp by lia. rewrite opp_IZR. apply generic_format_opp. exact Hp.
    - apply generic_format_F2R. intros Hz. unfold cexp, SpecFloat.fexp, SpecFloat.emin.
      assert (Hm : (mag radix2 (F2R (Float radix2 z 0)) <= 53)%Z).
      { apply mag_le_bpow; rewrite Hf.
        - apply IZR_neq. exact Hz.
        - rewrite <- abs_IZR, <- (IZR_Zpower radix2 53) by lia. apply IZR_lt. change (Zpower radix2 53) with (2 ^ 53). lia. }
      unfold prec64, emax64. lia. }
  rewrite round_generic in Hc by (try exact Hg; apply valid_rnd_N || idtac; auto with typeclass_instances).
  rewrite Rlt_bool_true in Hc.
  - destruct Hc as (H1 & H2 & _). auto.
  - rewrite <- abs_IZR, <- (IZR_Zpower radix2 emax64) by (unfold emax64; lia). apply IZR_lt.
    apply (Z.le_lt_trans _ _ _ H). unfold emax64. reflexivity.
Qed.

Lemma int_of_b64_of_Z (z : Z) : Z.abs z <= 2 ^ 53 -> int_of_b64 (b64_of_Z z) = z.
Proof.
  intros H. destruct (b64_of_Z_exact z H) as [HR _]. unfold int_of_b64. apply eq_IZR.
  rewrite (Btrunc_correct _ _ prec64_lt_emax), HR. apply round_generic.
  - apply valid_rnd_ZR.
  - replace (IZR z) with (F2R (Float radix2 z 0)) by (unfold F2R; cbn; lra). apply generic_format_F2R.
    intros _. unfold cexp, FIX_exp. cbn. lia.
Qed.

Definition fin_of (o : option finishing) (m : fin_model) : bool :=
  match o with None => false | Some g => finishing_is_finished g m end.

Lemma and_loop (m : fin_model) : forall (l : list (option finishing)) (cond : bool),
  (fix loop (l : list (option finishing)) (cond : bool) : bool :=
     match l with
     | [] => cond
     | o :: l' => let cond := match o with None => false | Some g => finishing_is_finished g m end in
                  if negb cond then cond else loop l' cond
     end) l cond = match l with [] => cond | _ => forallb (fun o => is_finished o m) l end.
Proof.
  induction l as [|o l IH]; intros cond; [reflexivity|]. cbn [forallb].
  change (match o with None => false | Some g => finishing_is_finished g m end) with (is_finished o m).
  destruct (is_finished o m) eqn:Ho; cbn [negb andb]; [|reflexivity].
  change (match o with None => false | Some g => finishing_is_finished g m end) with (is_finished o m).
  rewrite IH. destruct l; [reflexivity|reflexivity].
Qed.

Lemma or_loop (m : fin_model) : forall (l : list (option finishing)) (cond : bool),
  (fix loop (l : list (option finishing)) (cond : bool) : bool :=
     match l with
     | [] => cond
     | o :: l' => let cond := match o with None => false | Some g => finishing_is_finished g m end in
                  if cond then cond else loop l' cond
     end) l cond = match l with [] => cond | _ => existsb (fun o => is_finished o m) l end.
Proof.
  induction l as [|o l IH]; intros cond; [reflexivity|]. cbn [existsb].
  change (match o with None => false | Some g => finishing_is_finished g m end) with (is_finished o m).
  destruct (is_finished o m) eqn:Ho; cbn [orb]; [reflexivity|].
  change (match o with None => false | Some g => finishing_is_finished g m end) with (is_finished o m).
  rewrite IH. destruct l; reflexivity.
Qed.

Lemma status_eqb_eq a b : status_eqb a b = true <-> a = b.
Proof. destruct a, b; cbn; split; congruence. Qed.

Lemma status_loop_spec l v : forall cond, status_loop l v cond = match l with [] => cond | _ => existsb (fun s => status_eqb s v) l end.
Proof.
  induction l as [|s l IH]; intros cond; [reflexivity|]. cbn [status_loop existsb].
  destruct (status_eqb s v) eqn:Hs; [reflexivity|]. rewrite IH. destruct l; reflexivity.
Qed.

Lemma finish_main : forall (m : fin_model),
  is_finished None m = false /\
  (forall l, is_finished (Some (FAnd l)) m = true <-> l <> [] /\ forall f, In f l -> is_finished f m = true) /\
  (forall l, is_finished (Some (FOr l)) m = true <-> exists f, In f l /\ is_finished f m = true) /\
  (forall iter ipd, is_finished (Some (FIter iter ipd)) m = true <->
     (0 < iter \/ 0 < ipd) /\
     iter + int_of_b64 (figure (fm_figures m) "pushedData") * ipd <= int_of_b64 (figure (fm_figures m) "iterations")) /\
  (forall l error, is_finished (Some (FStatus l error)) m = true <->
     (error = true /\ st_error (fm_status m) <> None) \/ In (st_value (fm_status m)) l).
Proof.
  intros m. split; [reflexivity|]. split; [|split; [|split]].
  - intros l. cbn [is_finished finishing_is_finished]. rewrite and_loop. destruct l as [|o l].
    + split; [discriminate|intros [H _]; contradiction].
    + rewrite forallb_forall. split; [intros H; split; [discriminate|exact H]|intros [_ H]; exact H].
  - intros l. cbn [is_finished finishing_is_finished]. rewrite or_loop. destruct l as [|o l].
    + split; [discriminate|intros (f & [] & _)].
    + rewrite existsb_exists. split; auto.
  - intros iter ipd. cbn [is_finished finishing_is_finished]. unfold iter_is_finished.
    destruct (Z.ltb_spec 0 iter), (Z.ltb_spec 0 ipd); cbn [orb]; rewrite ?Z.leb_le; split; try discriminate; intuition lia.
  - intros l error. cbn [is_finished finishing_is_finished]. unfold status_is_finished. rewrite status_loop_spec.
    destruct (st_error (fm_status m)) as [e|]; destruct error; destruct l as [|s l]; cbn [andb negb].
    all: try (split; [discriminate|]; intros [[? ?]|[]]; congruence).
    all: try (split; auto; fail).
    all: try (split; [intros _; left; split; [reflexivity|discriminate]|reflexivity]).
    all: rewrite existsb_exists; split;
      [intros (x & Hx & He); apply status_eqb_eq in He; subst; auto
      |intros [[? ?]|H]; [congruence|exists (st_value (fm_status m)); split; [exact H|apply status_eqb_eq; reflexivity]]].
Qed.

(** With the figures set by the controller. *)
Lemma finish_iter : forall st iterations pushed iter ipd,
  0 <= iterations <= 2 ^ 53 -> 0 <= pushed <= 2 ^ 53 ->
  forall rf, figure rf "iterations" = b64_of_Z iterations -> figure rf "pushedData" = b64_of_Z pushed ->
  (is_finished (Some (FIter iter ipd)) (mkFinModel st rf) = true <->
   (0 < iter \/ 0 < ipd) /\ iter + pushed * ipd <= iterations).
Proof.
  intros st it pu iter ipd Hi Hp rf H1 H2. destruct (finish_main (mkFinModel st rf)) as (_ & _ & _ & H & _).
  rewrite H. cbn [fm_figures]. rewrite H1, H2, !int_of_b64_of_Z by lia. reflexivity.
Qed.

(** ** C31 *)
Lemma ctrl_verify_ok c : ctrl_verify c = None <-> ctrl_valid c.
Proof.
  unfold ctrl_verify, ctrl_valid.
  destruct (Z.ltb_spec (cc_iter_per_data c) 0); [split; [discriminate|lia]|].
  destruct (Z.ltb_spec (cc_data_per_iter c) 0); [split; [discriminate|lia]|].
  destruct (b64_ltb (cc_iter_freq c) (b64_of_Z 0)); [split; [discriminate|intros (_ & _ & H' & _); discriminate]|].
  destruct (Z.ltb_spec (cc_timeout c) 0); [split; [discriminate|lia]|].
  destruct (Z.ltb_spec (cc_iter c) 0); [split; [discriminate|lia]|].
  split; auto.
Qed.

Section Conf.
Context {G : Type}.

Lemma default_int_idem z d d' : d <> 0 -> default_int (default_int z d) d' = default_int z d.
Proof. unfold default_int. intros H. destruct (Z.eqb_spec z 0); [destruct (Z.eqb_spec d 0); [lia|reflexivity]|destruct (Z.eqb_spec z 0); [lia|reflexivity]]. Qed.
Lemma default_float_idem x d : b64_eqb d (b64_of_Z 0) = false -> default_float (default_float x d) d = default_float x d.
Proof. unfold default_float. intros H. destruct (b64_eqb x (b64_of_Z 0)) eqn:Hx; [rewrite H; reflexivity|rewrite Hx; reflexivity]. Qed.
Lemma default_rgen_idem (r0 r1 : G) r : default_rgen r1 (default_rgen r0 r) = default_rgen r0 r.
Proof. destruct r; reflexivity. Qed.

Lemma kmeans_defaults_idem (r0 r1 : G) cpus c : 1 <= cpus ->
  kmeans_set_defaults r1 cpus (kmeans_set_defaults r0 cpus c) = kmeans_set_defaults r0 cpus c.
Proof. intros H. unfold kmeans_set_defaults. cbn. rewrite default_rgen_idem, default_int_idem by lia. reflexivity. Qed.

Lemma mcmc_defaults_idem (r0 r1 : G) cpus c : 1 <= cpus ->
  mcmc_set_defaults r1 cpus (mcmc_set_defaults r0 cpus c) = mcmc_set_defaults r0 cpus c.
Proof.
  intros H. unfold mcmc_set_defaults. cbn -[b64_of_Z b64_eqb default_float default_int default_rgen].
  rewrite default_rgen_idem, !default_int_idem, !default_float_idem by (try lia; vm_compute; reflexivity).
  destruct (mc_proba_k c); reflexivity.
Qed.

Lemma streaming_defaults_idem (r0 r1 : G) c :
  streaming_set_defaults r1 (streaming_set_defaults r0 c) = streaming_set_defaults r0 c.
Proof.
  unfold streaming_set_defaults. cbn -[b64_of_Z b64_eqb b64_div default_float default_int default_rgen].
  rewrite default_rgen_idem, !default_int_idem, !default_float_idem by (try lia; vm_compute; reflexivity). reflexivity.
Qed.

Lemma kmeans_conf_main : forall E (rgen0 : G) cpus (c : kmeans_conf G) (data : list E), 1 <= cpus ->
  (kmeans_valid c -> exists b, kmeans_new_algo rgen0 cpus c data =
     Ok (mkKmeansConf (km_ctrl c) (km_par c) (km_k c) (km_frame_size c)
           (match km_rgen c with None => Some rgen0 | Some r => Some r end)
           (if km_num_cpu c =? 0 then cpus else km_num_cpu c), b)) /\
  (~ kmeans_valid c -> kmeans_new_algo rgen0 cpus c data = Panic).
Proof.
  intros E rgen0 cpus c data Hcpu. unfold kmeans_new_algo, core_new_algo, prepare_conf, kmeans_verify. cbn [fst kmeans_ops co_set_defaults co_verify co_ctrl].
  destruct (new_data_buffer_repr (km_frame_size (kmeans_set_defaults rgen0 cpus c)) data) as (b & Hb & _). rewrite Hb. cbn [obind].
  unfold kmeans_verify. rewrite !kmeans_defaults_idem by exact Hcpu. cbn [kmeans_set_defaults km_k km_ctrl].
  pose proof (ctrl_verify_ok (km_ctrl c)) as Hok. unfold kmeans_valid. split.
  - intros [H1 H2]. apply Hok in H1. destruct (Z.ltb_spec (km_k c) 1); [lia|]. rewrite H1. cbn [obind]. exists b.
    unfold kmeans_set_defaults, default_rgen, default_int. destruct (km_rgen c); reflexivity.
  - intros H. destruct (Z.ltb_spec (km_k c) 1); [reflexivity|]. destruct (ctrl_verify (km_ctrl c)); [reflexivity|].
    exfalso. apply H. split; [apply Hok; reflexivity|lia].
Qed.

Lemma mcmc_conf_main : forall E (rgen0 : G) cpus (c : mcmc_conf G) (data : list E), 1 <= cpus ->
  (mcmc_valid c -> exists c' b, mcmc_new_algo rgen0 cpus c data = Ok (c', b) /\
     mc_init_k c' = mc_init_k c /\ mc_ctrl c' = mc_ctrl c /\ mc_frame_size c' = mc_frame_size c /\ mc_amp c' = mc_amp c /\
     (mc_max_k c = 0 -> mc_max_k c' = 16) /\ (mc_max_k c <> 0 -> mc_max_k c' = mc_max_k c) /\
     1 <= mc_init_k c' <= mc_max_k c' /\ mc_proba_k c' <> []) /\
  (~ mcmc_valid c -> mcmc_new_algo rgen0 cpus c data = Panic).
Proof.
  intros E rgen0 cpus c data Hcpu. unfold mcmc_new_algo, core_new_algo, prepare_conf, mcmc_verify. cbn [fst mcmc_ops co_set_defaults co_verify co_ctrl].
  destruct (new_data_buffer_repr (mc_frame_size (mcmc_set_defaults rgen0 cpus c)) data) as (b & Hb & _). rewrite Hb. cbn [obind].
  unfold mcmc_verify. rewrite !mcmc_defaults_idem by exact Hcpu. cbn [mcmc_set_defaults mc_init_k mc_max_k mc_ctrl].
  pose proof (ctrl_verify_ok (mc_ctrl c)) as Hok. unfold mcmc_valid, default_int.
  destruct (Z.ltb_spec (mc_init_k c) 1); [split; [lia|reflexivity]|].
  destruct (Z.eqb_spec (mc_max_k c) 0) as [H0|H0].
  - change (16 =? 0) with false. destruct (Z.ltb_spec 16 (mc_init_k c)); cbn [andb negb]; [split; [lia|reflexivity]|].
    destruct (ctrl_verify (mc_ctrl c)) eqn:Hc; cbn [obind].
    + split; [intros [Hx _]; apply Hok in Hx; discriminate|reflexivity].
    + split; [|intros Hx; exfalso; apply Hx; split; [apply Hok; reflexivity|lia]].
      intros _. do 2 eexists. split; [reflexivity|]. unfold mcmc_set_defaults, default_int. rewrite H0. change (0 =? 0) with true. cbn -[b64_of_Z].
      repeat (split; [reflexivity||(intros ?; reflexivity)||lia|]). destruct (mc_proba_k c); discriminate.
  - destruct (Z.eqb_spec (mc_max_k c) 0); [lia|]. rewrite andb_true_r.
    destruct (Z.ltb_spec (mc_max_k c) (mc_init_k c)); [split; [lia|reflexivity]|].
    destruct (ctrl_verify (mc_ctrl c)) eqn:Hc; cbn [obind].
    + split; [intros [Hx _]; apply Hok in Hx; discriminate|reflexivity].
    + split; [|intros Hx; exfalso; apply Hx; split; [apply Hok; reflexivity|lia]].
      intros _. do 2 eexists. split; [reflexivity|]. unfold mcmc_set_defaults, default_int. cbn -[b64_of_Z].
      destruct (Z.eqb_spec (mc_max_k c) 0); [lia|].
      repeat (split; [reflexivity||(intros ?; reflexivity || lia)||lia|]). destruct (mc_proba_k c); discriminate.
Qed.

Lemma streaming_conf_main : forall E (rgen0 : G) (c : streaming_conf G) (data : list E),
  (streaming_valid c data -> exists c', streaming_new_algo rgen0 c data = Ok (c', data) /\
     sc_ctrl c' = sc_ctrl c /\ sc_out_after c' = (if sc_out_after c =? 0 then 5 else sc_out_after c) /\
     sc_buffer_size c' = (if sc_buffer_size c =? 0 then 100 else sc_buffer_size c) /\
     2 <= sc_out_after c' /\ Z.of_nat (length data) <= sc_buffer_size c') /\
  (~ streaming_valid c data -> streaming_new_algo rgen0 c data = Panic).
Proof.
  intros E rgen0 c data. unfold streaming_new_algo, core_new_algo, prepare_conf, streaming_verify. cbn [fst streaming_ops co_set_defaults co_verify co_ctrl].
  unfold streaming_verify. rewrite !streaming_defaults_idem. cbn [streaming_set_defaults sc_buffer_size sc_out_after sc_ctrl].
  pose proof (ctrl_verify_ok (sc_ctrl c)) as Hok. unfold streaming_valid, default_int, slen.
  set (bs := if sc_buffer_size c =? 0 then 100 else sc_buffer_size c).
  set (oa := if sc_out_after c =? 0 then 5 else sc_out_after c).
  assert (Hbs : (sc_buffer_size c = 0 /\ Z.of_nat (length data) <= 100) \/ (sc_buffer_size c <> 0 /\ Z.of_nat (length data) <= sc_buffer_size c) <-> Z.of_nat (length data) <= bs).
  { unfold bs. destruct (Z.eqb_spec (sc_buffer_size c) 0); lia. }
  assert (Hoa : sc_out_after c = 0 \/ 2 <= sc_out_after c <-> 2 <= oa).
  { unfold oa. destruct (Z.eqb_spec (sc_out_after c) 0); lia. }
  rewrite Hbs, Hoa.
  destruct (Z.ltb_spec bs (Z.of_nat (length data))); [split; [lia|reflexivity]|].
  destruct (Z.ltb_spec bs 0); [lia|]. cbn [obind].
  destruct (Z.ltb_spec oa 2); [split; [lia|reflexivity]|].
  destruct (ctrl_verify (sc_ctrl c)) eqn:Hc; cbn [obind].
  - split; [intros [Hx _]; apply Hok in Hx; discriminate|reflexivity].
  - split; [|intros Hx; exfalso; apply Hx; split; [apply Hok; reflexivity|lia]].
    intros _. eexists. split; [reflexivity|]. unfold streaming_set_defaults, default_int. cbn [sc_ctrl sc_out_after sc_buffer_size].
    fold bs oa. auto.
Qed.

(** Preparing twice (with another default generator) is preparing once. *)
Lemma prepare_idem_main : forall (r0 r1 : G) cpus, 1 <= cpus ->
  (forall c, prepare_conf (kmeans_ops r1 cpus) (fst (prepare_conf (kmeans_ops r0 cpus) c)) = prepare_conf (kmeans_ops r0 cpus) c) /\
  (forall c, prepare_conf (mcmc_ops r1 cpus) (fst (prepare_conf (mcmc_ops r0 cpus) c)) = prepare_conf (mcmc_ops r0 cpus) c) /\
  (forall c, prepare_conf (streaming_ops r1) (fst (prepare_conf (streaming_ops r0) c)) = prepare_conf (streaming_ops r0) c).
Proof.
  intros r0 r1 cpus H. split; [|split]; intros c; unfold prepare_conf; cbn [kmeans_ops mcmc_ops streaming_ops co_set_defaults co_verify co_ctrl].
  - assert (He : fst (let '(c0, err) := kmeans_verify r0 cpus (kmeans_set_defaults r0 cpus c) in
       match err with None => (c0, ctrl_verify (km_ctrl c0)) | Some e => (c0, Some e) end) = kmeans_set_defaults r0 cpus c).
    { unfold kmeans_verify. rewrite kmeans_defaults_idem by exact H. destruct (km_k _ <? 1); reflexivity. }
    rewrite He. unfold kmeans_verify. rewrite !kmeans_defaults_idem by exact H. reflexivity.
  - assert (He : fst (let '(c0, err) := mcmc_verify r0 cpus (mcmc_set_defaults r0 cpus c) in
       match err with None => (c0, ctrl_verify (mc_ctrl c0)) | Some e => (c0, Some e) end) = mcmc_set_defaults r0 cpus c).
    { unfold mcmc_verify. rewrite mcmc_defaults_idem by exact H. destruct (mc_init_k _ <? 1); [reflexivity|]. destruct (_ && _); reflexivity. }
    rewrite He. unfold mcmc_verify. rewrite !mcmc_defaults_idem by exact H. reflexivity.
  - assert (He : fst (let '(c0, err) := streaming_verify r0 (streaming_set_defaults r0 c) in
       match err with None => (c0, ctrl_verify (sc_ctrl c0)) | Some e => (c0, Some e) end) = streaming_set_defaults r0 c).
    { unfold streaming_verify. rewrite streaming_defaults_idem. destruct (sc_out_after _ <? 2); reflexivity. }
    rewrite He. unfold streaming_verify. rewrite !streaming_defaults_idem. reflexivity.
Qed.

End Conf.
