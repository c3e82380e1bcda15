(** C112: the slices of mcmc in memory. *)
From Coq Require Import List ZArith Lia Bool Arith.
From Verif Require Import Base.Go Base.Num Model.Clustering Model.Par Model.Buffer Model.Kmeans Model.KmeansInit Model.Mcmc Model.Heap Model.HeapPar Model.HeapMcmc
  Spec.HeapMcmcSpec Proofs.GoLemmas Proofs.NumLaws Proofs.ParProofs Proofs.ParReduceProofs Proofs.HeapProofs Proofs.HeapParProofs Proofs.McmcProofs.
Import ListNotations.

Section S.
Context {E F G : Type} (N : Num F) (good : F -> Prop) (HN : NumOrd N good) (Sp : Space E F).
Context (pow : F -> F -> F) (log exp : F -> F) (cpus : Z) (Hcpus : (0 < cpus)%Z) (D : distrib E F G) (conf : mparams F).
Notation mem := (mem E).

Lemma somes_elements (l : list (option E)) : somes l = elements l.
Proof. induction l as [|[x|] l IH]; cbn; [reflexivity|rewrite IH; reflexivity|reflexivity]. Qed.

Lemma keeps_alloc (m : mem) a : keeps m (m ++ [a]).
Proof. split; [rewrite app_length; lia|]. intros t Ht. split; [apply app_wf; exact Ht|apply read_app; apply Ht]. Qed.
Lemma alloc_at (m : mem) (a : list (option E)) : wf (m ++ [a]) (mkSlice (length m) (length a)) /\ read (m ++ [a]) (mkSlice (length m) (length a)) = a.
Proof.
  assert (H : array (m ++ [a]) (length m) = a) by (unfold array; rewrite app_nth2, Nat.sub_diag by lia; reflexivity).
  split; [split; cbn [sl_arr sl_len]; [rewrite app_length; cbn; lia|rewrite H; lia]|]. unfold read. cbn [sl_arr sl_len]. rewrite H. apply firstn_all.
Qed.
Lemma halloc_ok (m : mem) (l : list E) : keeps m (fst (halloc m l)) /\ wf (fst (halloc m l)) (snd (halloc m l)) /\ read (fst (halloc m l)) (snd (halloc m l)) = map Some l.
Proof.
  unfold halloc. cbn [fst snd]. split; [apply keeps_alloc|]. pose proof (alloc_at m (map Some l)) as H. rewrite map_length in H. exact H.
Qed.

(** [s] holds [l]. *)
Definition at_ (m : mem) (s : slice) (l : list E) : Prop := wf m s /\ read m s = map Some l.
Lemma at_keeps m m' s l : keeps m m' -> at_ m s l -> at_ m' s l.
Proof. intros [_ K] [H1 H2]. destruct (K s H1) as [A1 A2]. split; [exact A1|congruence]. Qed.
Lemma at_elements m s l : at_ m s l -> elements (read m s) = Ok l.
Proof. intros [_ ->]. apply elements_some. Qed.
Lemma at_len m s l : at_ m s l -> sl_len s = length l.
Proof. intros [H1 H2]. rewrite <- (read_length _ _ H1), H2. apply map_length. Qed.

(** ** One iteration of the strategy *)
Lemma all_done_b (ws : list (worker E)) : forallb (fun w => match w_todo w with [] => true | _ => false end) ws = true <-> Forall (fun w => w_todo w = []) ws.
Proof.
  rewrite forallb_forall, Forall_forall. split; intros H w Hw; specialize (H w Hw); destruct (w_todo w); congruence.
Qed.

Lemma some_schedule (m0 : mem) c (cs : list E) parts : wf m0 c -> read m0 c = map Some cs -> parts_ok N Sp cs parts -> forall n p, steps_left (snd p) = n -> par_inv N Sp m0 (sl_len c) cs parts p ->
  exists schedule m ws, par_steps N Sp c p schedule = Some (Ok (m, ws)) /\ Forall (fun w => w_todo w = []) ws.
Proof.
  intros Hw Hc Hok. induction n as [|n IH]; intros p Hn Hp.
  - exists [], (fst p), (snd p). destruct p as [m ws]. split; [reflexivity|]. cbn [snd] in *. clear -Hn. unfold steps_left in Hn. induction ws as [|w ws IH]; [constructor|]. cbn in Hn.
    constructor; [destruct (w_todo w); [reflexivity|discriminate Hn]|apply IH; destruct (w_todo w); [exact Hn|discriminate Hn]].
  - destruct (all_done (snd p)) as [H|(w & Hin & Ht)].
    + exfalso. assert (steps_left (snd p) = 0); [|lia]. unfold steps_left. clear -H. induction H as [|w ws Hw _ IH]; [reflexivity|]. cbn. rewrite Hw. exact IH.
    + apply In_nth_error in Hin. destruct Hin as [i Hi]. pose proof (par_step_inv N Sp m0 c cs parts p i Hw Hc Hok Hp) as HS.
      destruct (par_step N Sp c p i) as [[p'|]|] eqn:Q; [|contradiction|].
      * pose proof (left_step _ _ _ _ _ _ Q) as L. destruct (IH p') as (schedule & m & ws & H1 & H2); [lia|exact HS|]. exists (i :: schedule), m, ws. split; [|exact H2]. cbn [par_steps]. rewrite Q. exact H1.
      * exfalso. unfold par_step in Q. rewrite Hi in Q. unfold worker_step in Q. destruct (w_todo w); [contradiction|discriminate Q].
Qed.

Lemma empty_strategy (data : list E) : data = [] -> par_iterate N Sp cpus [] data = Ok [].
Proof.
  intros ->. unfold par_iterate, par_reduce_dba. destruct (par_parts (@nil E) cpus (fun part => reduce_dba N Sp [] part) Hcpus) as (chunks & C1 & C2 & C3).
  set (ranges := par_ranges (slen []) cpus) in *. destruct ranges as [ranges|]; cbn [obind] in *.
  - rewrite C3. assert (H : omap (fun part => reduce_dba N Sp [] part) chunks = Ok (repeat ([], []) (length chunks))).
    { clear -C1. induction chunks as [|ch chunks IH]; [reflexivity|]. cbn [concat] in C1. apply app_eq_nil in C1. destruct C1 as [-> C1]. cbn [omap]. rewrite (IH C1). reflexivity. }
    rewrite H. cbn [obind]. destruct chunks as [|ch chunks]; [cbn in C2; lia|]. unfold dba_aggregate. cbn [length repeat ofold dba_aggregate_step obind].
    assert (A : forall n, ofold (dba_aggregate_step Sp) (repeat ([], []) n) (Some ([], [])) = Ok (Some ([], []))) by (induction n as [|n IH]; [reflexivity|exact IH]).
    rewrite A. reflexivity.
  - exfalso. assert (H : exists r, omap (fun part => reduce_dba N Sp [] part) chunks = Ok r).
    { clear -C1. induction chunks as [|ch chunks IH]; [eexists; reflexivity|]. cbn [concat] in C1. apply app_eq_nil in C1. destruct C1 as [-> C1]. destruct (IH C1) as [r Hr]. cbn [omap]. rewrite Hr. eexists. reflexivity. }
    destruct H as [r Hr]. rewrite Hr in C3. discriminate C3.
Qed.

Lemma hstrategy_sim (m : mem) s cs data : at_ m s cs ->
  match par_iterate N Sp cpus cs data with
  | Ok v => (forall schedule, match hstrategy N Sp cpus m s data schedule with
                              | None => True | Some Panic => False
                              | Some (Ok (m', r)) => keeps m m' /\ wf m' r /\ read m' r = v end) /\
            exists schedule m' r, hstrategy N Sp cpus m s data schedule = Some (Ok (m', r))
  | Panic => forall schedule m' r, hstrategy N Sp cpus m s data schedule <> Some (Ok (m', r))
  end.
Proof.
  intros [Hw Hc]. destruct (par_iterate N Sp cpus cs data) as [v|] eqn:Hv.
  - destruct (par_heap N Sp m s cs data cpus v Hw Hc Hv) as (parts & P1 & P2). unfold hstrategy. rewrite P1. split.
    + intros schedule. destruct (P2 schedule _ eq_refl) as [A1 A2]. destruct (par_steps N Sp s (hstart m s parts) schedule) as [[[m1 ws]|]|]; [|contradiction|exact I].
      destruct (forallb _ ws) eqn:Q; [|exact I]. apply all_done_b in Q. destruct (A2 m1 ws eq_refl) as (_ & [(i & x & y & B)|[_ (m' & r & B1 & B2 & B3 & B4 & B5)]]).
      * exfalso. unfold par_step in B. cbn [fst snd] in B. destruct (nth_error ws i) as [w|] eqn:Hi; [|discriminate B]. unfold worker_step in B.
        rewrite Forall_forall in Q. rewrite (Q w (nth_error_In _ _ Hi)) in B. discriminate B.
      * rewrite B1. auto.
    + pose proof (parts_are_ok N Sp cs data cpus v parts Hv P1) as Hok.
      destruct (some_schedule m s cs parts Hw Hc Hok _ _ eq_refl (hstart_inv N Sp m s cs parts)) as (schedule & m1 & ws & S1 & S2). exists schedule. rewrite S1. pose proof S2 as S3. apply all_done_b in S3. rewrite S3.
      destruct (P2 schedule _ eq_refl) as [_ A2]. destruct (A2 m1 ws S1) as (_ & [(i & x & y & B)|[_ (m' & r & B1 & _)]]); [|rewrite B1; eauto].
      exfalso. unfold par_step in B. cbn [fst snd] in B. destruct (nth_error ws i) as [w|] eqn:Hi; [|discriminate B]. unfold worker_step in B.
      rewrite Forall_forall in S2. rewrite (S2 w (nth_error_In _ _ Hi)) in B. discriminate B.
  - destruct cs as [|c0 cs]; [|exfalso; destruct (par_total N Sp good HN (c0 :: cs) data cpus ltac:(discriminate) Hcpus) as (v & H & _); congruence].
    destruct data as [|x data]; [rewrite empty_strategy in Hv by reflexivity; discriminate Hv|]. intros schedule m' r H. unfold hstrategy in H.
    destruct (hpar_chunks (x :: data) cpus) as [parts|] eqn:P1; [|discriminate H]. pose proof (chunks_concat _ _ _ P1) as P2.
    destruct (par_steps N Sp s (hstart m s parts) schedule) as [[[m1 ws]|]|] eqn:Q; [|discriminate H|discriminate H]. destruct (forallb _ ws) eqn:Hd; [|discriminate H]. apply all_done_b in Hd.
    pose proof (left_steps N Sp s schedule _ _ Q) as L. rewrite left_hstart, P2 in L. cbn [snd] in L.
    assert (Z0 : steps_left ws = 0) by (clear -Hd; unfold steps_left; induction Hd as [|w ws Hw _ IH]; [reflexivity|cbn; rewrite Hw; exact IH]).
    rewrite Z0 in L. destruct schedule as [|i schedule]; [cbn in L; lia|]. cbn [par_steps] in Q.
    assert (K : par_step N Sp s (hstart m s parts) i = None \/ par_step N Sp s (hstart m s parts) i = Some Panic).
    { unfold par_step. destruct (nth_error (snd (hstart m s parts)) i) as [w|] eqn:Hi; [|left; reflexivity]. unfold worker_step. destruct (w_todo w) as [|y todo]; [left; reflexivity|right].
      destruct (hstart_inv N Sp m s [] parts) as (K1 & _ & _). destruct (proj2 K1 s Hw) as [_ K2]. rewrite K2, Hc. cbn [map elements obind]. unfold assign. cbn. 
      destruct (hdba_add Sp (w_dbas w) (-1) y (fst (hstart m s parts), w_cards w)) eqn:QQ; [|reflexivity]. exfalso. revert QQ. unfold hdba_add. cbn. discriminate. }
    destruct K as [K|K]; rewrite K in Q; discriminate Q.
Qed.

(** ** mcmc *)
Definition store_rel (m : mem) : list (Z * slice) -> list (Z * list E) -> Prop := Forall2 (fun h v => fst h = fst v /\ at_ m (snd h) (snd v)).
Lemma store_keeps m m' hs vs : keeps m m' -> store_rel m hs vs -> store_rel m' hs vs.
Proof. intros K. apply f2_impl. intros a b [H1 H2]. split; [exact H1|eapply at_keeps; eauto]. Qed.
Lemma hstore_get_sim m hs vs k : store_rel m hs vs -> match store_get vs k with Some c => exists s, hstore_get hs k = Some s /\ at_ m s c | None => hstore_get hs k = None end.
Proof.
  induction 1 as [|[k1 s] [k2 c] hs vs [H1 H2] _ IH]; cbn [store_get hstore_get]; [reflexivity|]. cbn [fst snd] in *. subst k2. destruct (k1 =? k)%Z; [eauto|exact IH].
Qed.

Lemma get_centers_sim m hs vs data k clust cl r del : store_rel m hs vs -> at_ m clust cl ->
  match get_centers N Sp cpus vs data k cl r del with
  | Panic => hget_centers N Sp cpus m hs data k clust r del = Panic
  | Ok (c, e) => exists m' s, hget_centers N Sp cpus m hs data k clust r del = Ok (m', s, e) /\ keeps m m' /\ at_ m' s c
  end.
Proof.
  intros HS HC. unfold get_centers, hget_centers. pose proof (hstore_get_sim m hs vs k HS) as H. destruct (store_get vs k) as [c|].
  - destruct H as (s & -> & H). exists m, s. split; [reflexivity|]. split; [apply keeps_refl|exact H].
  - rewrite H. rewrite (at_elements _ _ _ HC). cbn [obind]. unfold gen_centers. destruct (slen cl <? k)%Z.
    + destruct (add_center N Sp cpus data cl r) as [[c e]|]; cbn [obind fst snd]; [|reflexivity]. destruct (halloc_ok m c) as (A1 & A2 & A3). destruct (halloc m c) as [m' s].
      exists m', s. split; [reflexivity|]. split; [exact A1|split; assumption].
    + destruct (k <? slen cl)%Z.
      * destruct (del_center Sp cl del) as [c|]; cbn [obind]; [|reflexivity]. destruct (halloc_ok m c) as (A1 & A2 & A3). destruct (halloc m c) as [m' s].
        exists m', s. split; [reflexivity|]. split; [exact A1|split; assumption].
      * exists m, clust. split; [reflexivity|]. split; [apply keeps_refl|exact HC].
Qed.

Definition prop_rel (m : mem) (h : hproposal F) (p : proposal E F) : Prop := hp_k h = pr_k p /\ hp_loss h = pr_loss p /\ hp_pdf h = pr_pdf p /\ at_ m (hp_centers h) (pr_centers p).
Definition impl_rel (m : mem) (x : hmimpl E F) (v : mimpl E F) : Prop :=
  hm_buffer x = mi_buffer v /\ store_rel m (hm_store x) (mi_store v) /\ hm_acc x = mi_acc v /\ hm_lambda x = mi_lambda v /\ hm_rho x = mi_rho v /\ hm_rgibbs x = mi_rgibbs v /\
  hm_time x = mi_time v /\ hm_dim x = mi_dim v /\ prop_rel m (hm_current x) (mi_current v).
Lemma prop_keeps m m' h p : keeps m m' -> prop_rel m h p -> prop_rel m' h p.
Proof. intros K (H1 & H2 & H3 & H4). repeat (split; [assumption|]). eapply at_keeps; eauto. Qed.
Lemma impl_keeps m m' x v : keeps m m' -> impl_rel m x v -> impl_rel m' x v.
Proof. intros K (H1 & H2 & H3 & H4 & H5 & H6 & H7 & H8 & H9). unfold impl_rel. split; [exact H1|]. split; [eapply store_keeps; eauto|]. repeat (split; [assumption|]). eapply prop_keeps; eauto. Qed.

Lemma get_k_centers_sim m x v clust cl data (dr : draws F G) : impl_rel m x v -> at_ m clust cl ->
  match get_k_centers N Sp cpus conf v (mi_current v) cl data dr with
  | Panic => hget_k_centers N Sp cpus conf m x clust data dr = Panic
  | Ok (k, c) => exists m' s, hget_k_centers N Sp cpus conf m x clust data dr = Ok (m', k, s) /\ keeps m m' /\ at_ m' s c
  end.
Proof.
  intros (H1 & H2 & _ & _ & _ & _ & _ & _ & (C1 & _)) HC. unfold get_k_centers, hget_k_centers. rewrite C1. destruct (next_k N conf (pr_k (mi_current v)) data (d_k dr)) as [k|]; cbn [obind]; [|reflexivity].
  pose proof (get_centers_sim m _ _ data k clust cl (d_add dr) (d_del dr) H2 HC) as S. destruct (get_centers N Sp cpus (mi_store v) data k cl (d_add dr) (d_del dr)) as [[c e]|]; cbn [obind].
  - destruct S as (m1 & s1 & -> & K1 & A1). cbn [obind fst snd]. destruct e as [e|]; [|eauto 6].
    pose proof (get_centers_sim m1 _ _ data (pr_k (mi_current v)) clust cl (d_add' dr) (d_del' dr) (store_keeps _ _ _ _ K1 H2) (at_keeps _ _ _ _ K1 HC)) as S.
    destruct (get_centers N Sp cpus (mi_store v) data (pr_k (mi_current v)) cl (d_add' dr) (d_del' dr)) as [[c2 e2]|]; cbn [obind].
    + destruct S as (m2 & s2 & -> & K2 & A2). cbn [obind fst snd]. exists m2, s2. split; [reflexivity|]. split; [eapply keeps_trans; eauto|exact A2].
    + rewrite S. reflexivity.
  - rewrite S. reflexivity.
Qed.

Lemma propose_sim m x v clust cl data time dr : impl_rel m x v -> at_ m clust cl ->
  match propose N Sp pow cpus D conf v (mi_current v) cl data time dr with
  | Ok p => (forall schedule, match hpropose N Sp pow cpus D conf m x clust data time dr schedule with
                              | None => True | Some Panic => False
                              | Some (Ok (m', h)) => keeps m m' /\ prop_rel m' h p end) /\
            exists schedule m' h, hpropose N Sp pow cpus D conf m x clust data time dr schedule = Some (Ok (m', h))
  | Panic => forall schedule m' h, hpropose N Sp pow cpus D conf m x clust data time dr schedule <> Some (Ok (m', h))
  end.
Proof.
  intros HI HC. unfold propose, hpropose. pose proof (get_k_centers_sim m x v clust cl data dr HI HC) as S. destruct (get_k_centers N Sp cpus conf v (mi_current v) cl data dr) as [[k c]|]; cbn [obind].
  2: { rewrite S. cbn [obind]. intros; discriminate. }
  destruct S as (m1 & s1 & -> & K1 & A1). cbn [obind]. rewrite (at_elements _ _ _ A1). cbn [obind]. destruct (alter D c time (d_sample dr)) as [a|]; cbn [obind]; [|intros; discriminate].
  destruct (halloc_ok m1 a) as (B1 & B2 & B3). destruct (halloc m1 a) as [m2 s2]. cbn [fst snd] in *. pose proof (hstrategy_sim m2 s2 a data (conj B2 B3)) as S. cbn [strategy_iter].
  assert (K2 : keeps m m2) by (eapply keeps_trans; eauto). destruct (par_iterate N Sp cpus a data) as [w|]; cbn [obind].
  2: { intros schedule m' h H. destruct (hstrategy N Sp cpus m2 s2 data schedule) as [[[m3 s3]|]|] eqn:Q; [|discriminate H|discriminate H]. exact (S schedule m3 s3 Q). }
  destruct S as [S1 (sch & m4 & s4 & S2)]. rewrite somes_elements.
  destruct (elements w) as [cs|] eqn:Q3; cbn [obind].
  2: { intros schedule m' h H. specialize (S1 schedule). destruct (hstrategy N Sp cpus m2 s2 data schedule) as [[[m3 s3]|]|]; [|discriminate H|discriminate H]. destruct S1 as (_ & _ & S1). cbn [obind] in H. rewrite S1, Q3 in H. discriminate H. }
  assert (Hcs : w = map Some cs) by (rewrite <- somes_elements in Q3; apply somes_ok; exact Q3).
  destruct (strategy_loss N Sp pow conf cs data) as [loss|] eqn:Q4; cbn [obind].
  2: { intros schedule m' h H. specialize (S1 schedule). destruct (hstrategy N Sp cpus m2 s2 data schedule) as [[[m3 s3]|]|]; [|discriminate H|discriminate H]. destruct S1 as (_ & _ & S1). cbn [obind] in H. rewrite S1, Q3 in H. cbn [obind] in H. rewrite Q4 in H. discriminate H. }
  destruct (proba N D cs cs time) as [pdf|] eqn:Q5; cbn [obind].
  2: { intros schedule m' h H. specialize (S1 schedule). destruct (hstrategy N Sp cpus m2 s2 data schedule) as [[[m3 s3]|]|]; [|discriminate H|discriminate H]. destruct S1 as (_ & _ & S1). cbn [obind] in H. rewrite S1, Q3 in H. cbn [obind] in H. rewrite Q4 in H. cbn [obind] in H. rewrite Q5 in H. discriminate H. }
  split.
  - intros schedule. specialize (S1 schedule). destruct (hstrategy N Sp cpus m2 s2 data schedule) as [[[m3 s3]|]|]; [|contradiction|exact I]. destruct S1 as (T1 & T2 & T3). cbn [obind]. rewrite T3, Q3. cbn [obind]. rewrite Q4. cbn [obind]. rewrite Q5. cbn [obind].
    split; [eapply keeps_trans; eauto|]. repeat (split; [reflexivity|]). split; [exact T2|]. cbn [hp_centers pr_centers]. congruence.
  - exists sch. pose proof (S1 sch) as T. rewrite S2 in T |- *. destruct T as (_ & _ & T3). cbn [obind]. rewrite T3, Q3. cbn [obind]. rewrite Q4. cbn [obind]. rewrite Q5. cbn [obind]. eauto.
Qed.

Lemma figures_sim m dim h p h' p' time : prop_rel m h p -> prop_rel m h' p' ->
  accept_figures N log exp conf dim (hfigures_of h : proposal E F) (hfigures_of h') time = accept_figures N log exp conf dim p p' time.
Proof. intros (H1 & H2 & H3 & _) (H4 & H5 & H6 & _). unfold accept_figures, hfigures_of. cbn [pr_k pr_loss pr_pdf]. congruence. Qed.

Lemma iterate_sim m x v clust cl dr : impl_rel m x v -> at_ m clust cl ->
  match mcmc_iterate N Sp pow log exp cpus D conf v cl dr with
  | Ok (v', c', f) => (forall schedule, match hmcmc_iterate N Sp pow log exp cpus D conf m x clust dr schedule with
                              | None => True | Some Panic => False
                              | Some (Ok (m', x', s', f')) => keeps m m' /\ impl_rel m' x' v' /\ at_ m' s' c' /\ f' = f end) /\
            exists schedule m' x' s' f', hmcmc_iterate N Sp pow log exp cpus D conf m x clust dr schedule = Some (Ok (m', x', s', f'))
  | Panic => forall schedule m' x' s' f', hmcmc_iterate N Sp pow log exp cpus D conf m x clust dr schedule <> Some (Ok (m', x', s', f'))
  end.
Proof.
  intros HI HC. unfold mcmc_iterate, hmcmc_iterate, do_iter. pose proof HI as (H1 & H2 & H3 & H4 & H5 & H6 & H7 & H8 & H9). rewrite H1. set (data := bdata (mi_buffer v)). set (time := slen data).
  pose proof (propose_sim m x v clust cl data time dr HI HC) as S. destruct (propose N Sp pow cpus D conf v (mi_current v) cl data time dr) as [p|]; cbn [obind].
  2: { intros schedule m' x' s' f' H. specialize (S schedule). destruct (hpropose N Sp pow cpus D conf m x clust data time dr schedule) as [[[m1 h]|]|]; [|discriminate H|discriminate H]. exact (S m1 h eq_refl). }
  destruct S as [S1 (sch & m4 & h4 & S2)]. unfold accept. rewrite H8.
  assert (FIG : forall m' h, keeps m m' -> prop_rel m' h p -> accept_figures N log exp conf (mi_dim v) (hfigures_of (hm_current x) : proposal E F) (hfigures_of h) time = accept_figures N log exp conf (mi_dim v) (mi_current v) p time).
  { intros m' h K P. apply (figures_sim m'); [eapply prop_keeps; eauto|exact P]. }
  destruct (accept_figures N log exp conf (mi_dim v) (mi_current v) p time) as [[lambda rho] rgibbs] eqn:QF.
  assert (Hb : forall A (f : mimpl E F * list E -> outcome A) (b : bool) a c, (let* mc := (if b then Ok a else Ok c) in f mc) = f (if b then a else c)) by (intros A f [] a c; reflexivity). rewrite Hb. clear Hb.
  set (ok := nltb N (d_u dr) rho).
  assert (HB : mi_buffer (fst (if ok then
       (mkMimpl (mi_buffer v) (store_set (mi_store v) (pr_centers p)) (mi_acc v + 1) lambda rho rgibbs (mi_time v) (mi_dim v) p, pr_centers p)
       else (mkMimpl (mi_buffer v) (mi_store v) (mi_acc v) lambda rho rgibbs (mi_time v) (mi_dim v) (mi_current v), cl))) = mi_buffer v) by (destruct ok; reflexivity).
  destruct (if ok then _ else _) as [v1 c1] eqn:QV. cbn [fst] in HB. cbn [mi_buffer]. rewrite HB.
  destruct (buffer_apply (mi_buffer v)) as [b|]; cbn [obind].
  2: { intros schedule m' x' s' f' H. specialize (S1 schedule). destruct (hpropose N Sp pow cpus D conf m x clust data time dr schedule) as [[[m1 h]|]|]; [|discriminate H|discriminate H]. cbn [obind] in H. destruct S1 as [K P]. rewrite (FIG m1 h K P) in H. discriminate H. }
  split.
  - intros schedule. specialize (S1 schedule). destruct (hpropose N Sp pow cpus D conf m x clust data time dr schedule) as [[[m1 h]|]|]; [|contradiction|exact I]. destruct S1 as [K P]. cbn [obind]. rewrite (FIG m1 h K P). fold ok.
    split; [exact K|]. pose proof P as (P1 & P2 & P3 & P4). destruct ok; injection QV as <- <-; cbn [set_buffer mi_buffer mi_store mi_acc mi_lambda mi_rho mi_rgibbs mi_time mi_dim mi_current].
    + split; [|split; [exact P4|unfold mruntime_figures; cbn; congruence]]. unfold impl_rel. cbn. split; [reflexivity|].
      split; [unfold hstore_set, store_set; constructor; [|eapply store_keeps; eauto]; cbn [fst snd]; split; [rewrite (at_len _ _ _ P4); reflexivity|exact P4]|].
      split; [congruence|]. repeat (split; [reflexivity|]). exact P.
    + split; [|split; [eapply at_keeps; eauto|unfold mruntime_figures; cbn; congruence]]. unfold impl_rel. cbn. split; [reflexivity|].
      split; [eapply store_keeps; eauto|]. split; [congruence|]. repeat (split; [reflexivity|]). eapply prop_keeps; eauto.
  - exists sch. rewrite S2. cbn [obind]. pose proof (S1 sch) as T. rewrite S2 in T. destruct T as [K P]. rewrite (FIG m4 h4 K P). eauto 10.
Qed.

Context {I : Type} (initializer : I -> Z -> list E -> outcome (list (option E) * option init_error)).
Context (hinitializer : I -> mem -> Z -> list E -> outcome (mem * slice * option init_error)) (m0 : mem) (HIN : initializer_in m0 initializer hinitializer).

Lemma init_sim m x v i : keeps m0 m -> impl_rel m x v ->
  match mcmc_init N Sp pow D conf initializer v i with
  | Panic => hmcmc_init N Sp pow D conf hinitializer m x i = Panic
  | Ok (v', l, err) => exists m' x' s, hmcmc_init N Sp pow D conf hinitializer m x i = Ok (m', x', s, err) /\ keeps m m' /\ impl_rel m' x' v' /\ wf m' s /\ read m' s = l /\
      (err = None -> exists c, l = map Some c)
  end.
Proof.
  intros K (H1 & H2 & H3 & H4 & H5 & H6 & H7 & H8 & H9). unfold mcmc_init, hmcmc_init. rewrite H1. destruct (buffer_apply (mi_buffer v)) as [b|]; cbn [obind]; [|reflexivity].
  pose proof (HIN i m (mp_init_k conf) (bdata b) K) as H. destruct (initializer i (mp_init_k conf) (bdata b)) as [[l err]|]; cbn [obind]; [|rewrite H; reflexivity].
  destruct H as (m' & s & -> & K' & W & R). cbn [obind]. destruct err as [e|].
  - exists m', (hset_buffer x b), s. split; [reflexivity|]. split; [exact K'|]. split; [|split; [exact W|split; [exact R|discriminate]]].
    unfold impl_rel, hset_buffer, set_buffer. cbn. split; [reflexivity|]. split; [eapply store_keeps; eauto|]. repeat (split; [assumption|]). eapply prop_keeps; eauto.
  - rewrite R, somes_elements. destruct (elements l) as [c|] eqn:Q; cbn [obind]; [|reflexivity]. assert (Hc : l = map Some c) by (rewrite <- somes_elements in Q; apply somes_ok; exact Q).
    destruct (strategy_loss N Sp pow conf c (bdata b)) as [loss|]; cbn [obind]; [|reflexivity]. destruct (proba N D c c (slen (bdata b))) as [pdf|]; cbn [obind]; [|reflexivity].
    eexists m', _, s. split; [reflexivity|]. split; [exact K'|]. split; [|split; [exact W|split; [exact R|eauto]]].
    unfold impl_rel, hset_buffer, set_buffer. cbn. split; [reflexivity|]. split; [eapply store_keeps; eauto|]. repeat (split; [first [assumption|reflexivity]|]).
    cbn. congruence.
Qed.

Definition sys_rel (h : hmsys E F) (s : @msys E F) : Prop :=
  keeps m0 (hs_mem h) /\ impl_rel (hs_mem h) (hs_impl h) (ms_impl s) /\ wf (hs_mem h) (hs_centroids h) /\ read (hs_mem h) (hs_centroids h) = ms_centroids s /\ hs_ready h = ms_ready s /\
  (ms_ready s = true -> exists c, ms_centroids s = map Some c).

Lemma step_sim h s e o h' : sys_rel h s -> hmstep N Sp pow log exp cpus D conf hinitializer h e o h' ->
  exists s', mstep N Sp pow log exp cpus D conf initializer s (event_of e) o s' /\ sys_rel h' s' /\ keeps (hs_mem h) (hs_mem h').
Proof.
  intros (K & HI & W & R & Q & C) H. inversion H as [h1 x alive b Hp|h1 i m x c err Hi|h1 dr schedule m x c f Hr Hi|h1 dr schedule Hr Hi]; subst; cbn [event_of].
  - eexists. split; [apply ms_push; rewrite <- (proj1 HI); exact Hp|]. split; [|apply keeps_refl]. unfold sys_rel. cbn. split; [exact K|]. split; [|auto].
    destruct HI as (H1 & H2 & H3 & H4 & H5 & H6 & H7 & H8 & H9). unfold impl_rel, hset_buffer, set_buffer. cbn. auto 10.
  - pose proof (init_sim (hs_mem h) (hs_impl h) (ms_impl s) i K HI) as S. rewrite Hi in S. destruct (mcmc_init N Sp pow D conf initializer (ms_impl s) i) as [[[v' l] err']|] eqn:QI; [|discriminate S].
    destruct S as (m' & x' & s' & S1 & S2 & S3 & S4 & S5 & S6). injection S1 as <- <- <- <-. eexists. split; [apply ms_init; exact QI|]. split; [|exact S2].
    unfold sys_rel. cbn. split; [eapply keeps_trans; eauto|]. split; [exact S3|]. split; [exact S4|]. split; [exact S5|]. split; [reflexivity|]. destruct err; [discriminate|]. intros _. apply S6. reflexivity.
  - rewrite Q in Hr. destruct (C Hr) as [cl Hcl]. pose proof (iterate_sim (hs_mem h) (hs_impl h) (ms_impl s) (hs_centroids h) cl dr HI (conj W (eq_trans R Hcl))) as S.
    destruct (mcmc_iterate N Sp pow log exp cpus D conf (ms_impl s) cl dr) as [[[v' c'] f']|] eqn:QI; [|exfalso; exact (S _ _ _ _ _ Hi)].
    destruct S as [S _]. specialize (S schedule). rewrite Hi in S. destruct S as (S1 & S2 & S3 & ->). eexists. split; [eapply ms_iterate; [exact Hr|exact Hcl|exact QI]|]. split; [|exact S1].
    unfold sys_rel. cbn. split; [eapply keeps_trans; eauto|]. split; [exact S2|]. split; [apply S3|]. split; [apply S3|]. split; [reflexivity|]. eauto.
  - rewrite Q in Hr. destruct (C Hr) as [cl Hcl]. pose proof (iterate_sim (hs_mem h) (hs_impl h) (ms_impl s) (hs_centroids h) cl dr HI (conj W (eq_trans R Hcl))) as S.
    destruct (mcmc_iterate N Sp pow log exp cpus D conf (ms_impl s) cl dr) as [[[v' c'] f']|] eqn:QI.
    + destruct S as [S _]. specialize (S schedule). rewrite Hi in S. contradiction.
    + eexists. split; [eapply ms_iterate_panic; [exact Hr|exact Hcl|exact QI]|]. split; [|apply keeps_refl]. unfold sys_rel. cbn. split; [exact K|]. split; [exact HI|]. split; [exact W|]. split; [exact R|]. split; [reflexivity|discriminate].
Qed.

Lemma step_back h s e o s' : sys_rel h s -> mstep N Sp pow log exp cpus D conf initializer s e o s' -> o <> OutPanic ->
  exists e' h', event_of e' = e /\ hmstep N Sp pow log exp cpus D conf hinitializer h e' o h' /\ sys_rel h' s'.
Proof.
  intros HR H Hn. pose proof HR as (K & HI & W & R & Q & C).
  assert (G1 : exists e' h', event_of e' = e /\ hmstep N Sp pow log exp cpus D conf hinitializer h e' o h').
  { inversion H as [s1 x alive b Hp|s1 i v l err Hi|s1 dr cl v c' f Hr Hcl Hi|s1 dr cl Hr Hcl Hi]; subst.
    - exists (HEvPush x alive). eexists. split; [reflexivity|]. apply hms_push. rewrite (proj1 HI). exact Hp.
    - pose proof (init_sim (hs_mem h) (hs_impl h) (ms_impl s) i K HI) as S. rewrite Hi in S. destruct S as (m' & x' & t & S1 & _). exists (HEvInit i). eexists. split; [reflexivity|]. apply hms_init. exact S1.
    - pose proof (iterate_sim (hs_mem h) (hs_impl h) (ms_impl s) (hs_centroids h) cl dr HI (conj W (eq_trans R Hcl))) as S. rewrite Hi in S. destruct S as [S (schedule & m' & x' & t & f' & S2)].
      pose proof (S schedule) as T. rewrite S2 in T. destruct T as (_ & _ & _ & ->). exists (HEvIterate dr schedule). eexists. split; [reflexivity|]. eapply hms_iterate; [congruence|exact S2].
    - contradiction. }
  destruct G1 as (e' & h' & He & Hs). exists e', h'. split; [exact He|]. split; [exact Hs|]. destruct (step_sim h s e' o h' HR Hs) as (s2 & M & HR' & _). rewrite He in M.
  assert (s2 = s'); [|congruence]. clear -M H Hn. inversion H; subst; inversion M; subst; try congruence; f_equal; try congruence.
  all: repeat match goal with
    | A : ?t = map Some ?a, B : ?t = map Some ?b |- _ => assert (a = b) by (apply (f_equal somes) in A; apply (f_equal somes) in B; rewrite somes_map in A, B; congruence); clear B; subst
    end; congruence.
Qed.

Lemma steps_sim h es os h' : hmsteps N Sp pow log exp cpus D conf hinitializer h es os h' -> forall s, sys_rel h s ->
  exists s', msteps N Sp pow log exp cpus D conf initializer s (map event_of es) os s' /\ sys_rel h' s' /\ keeps (hs_mem h) (hs_mem h').
Proof.
  induction 1 as [h|h e o h1 es os h2 H _ IH]; intros s HR.
  - exists s. split; [constructor|]. split; [exact HR|apply keeps_refl].
  - destruct (step_sim h s e o h1 HR H) as (s1 & M1 & R1 & K1). destruct (IH s1 R1) as (s2 & M2 & R2 & K2). exists s2. split; [econstructor; eauto|]. split; [exact R2|eapply keeps_trans; eauto].
Qed.
Lemma steps_back s es os s' : msteps N Sp pow log exp cpus D conf initializer s es os s' -> ~ In OutPanic os -> forall h, sys_rel h s ->
  exists es' h', map event_of es' = es /\ hmsteps N Sp pow log exp cpus D conf hinitializer h es' os h'.
Proof.
  induction 1 as [s|s e o s1 es os s2 H _ IH]; intros Hn h HR.
  - exists [], h. split; [reflexivity|constructor].
  - destruct (step_back h s e o s1 HR H) as (e' & h1 & E1 & S1 & R1); [intros ->; apply Hn; left; reflexivity|].
    destruct (IH (fun Hi => Hn (or_intror Hi)) h1 R1) as (es' & h2 & E2 & S2). exists (e' :: es'), h2. split; [cbn; congruence|econstructor; eauto].
Qed.

Lemma new_rel data frame_size h0 : new_hmsys N m0 data frame_size = Ok h0 -> exists s0, new_msys N data frame_size = Ok s0 /\ sys_rel h0 s0.
Proof.
  unfold new_hmsys, new_msys, new_mcmc. destruct (new_data_buffer data frame_size) as [b|]; cbn [obind]; [|discriminate]. intros H. injection H as <-. eexists. split; [reflexivity|].
  destruct (alloc_at m0 []) as [W R]. cbn [length] in *. unfold sys_rel. cbn. split; [apply keeps_alloc|]. split; [|split; [exact W|split; [exact R|split; [reflexivity|discriminate]]]].
  unfold impl_rel. cbn. repeat (split; [first [exact W|reflexivity|constructor]|]). exact R.
Qed.
End S.

(** ** The statements of C112 *)
Section Main.
Context {E F G I : Type} (N : Num F) (good : F -> Prop) (HN : NumOrd N good) (Sp : Space E F) (pow : F -> F -> F) (log exp : F -> F) (cpus : Z) (D : distrib E F G) (conf : mparams F).
Context (initializer : I -> Z -> list E -> outcome (list (option E) * option init_error)) (hinitializer : I -> mem E -> Z -> list E -> outcome (mem E * slice * option init_error)).

Lemma mcmc_snapshots : (0 < cpus)%Z -> forall m0 data frame_size h0, initializer_in m0 initializer hinitializer -> new_hmsys N m0 data frame_size = Ok h0 ->
  forall es1 os1 h1 es2 os2 h2, hmsteps N Sp pow log exp cpus D conf hinitializer h0 es1 os1 h1 -> hmsteps N Sp pow log exp cpus D conf hinitializer h1 es2 os2 h2 ->
  valid (hs_mem h1) (hs_centroids h1) /\ extends m0 (hs_mem h1) /\ extends (hs_mem h1) (hs_mem h2).
Proof.
  intros Hc m0 data fs h0 HIN H0 es1 os1 h1 es2 os2 h2 H1 H2. destruct (new_rel N m0 data fs h0 H0) as (s0 & _ & R0).
  destruct (steps_sim N good HN Sp pow log exp cpus Hc D conf initializer hinitializer m0 HIN h0 es1 os1 h1 H1 s0 R0) as (s1 & _ & R1 & _).
  destruct (steps_sim N good HN Sp pow log exp cpus Hc D conf initializer hinitializer m0 HIN h1 es2 os2 h2 H2 s1 R1) as (s2 & _ & _ & K2).
  split; [apply R1|]. split; [apply R1|exact K2].
Qed.
Lemma mcmc_heap_values : (0 < cpus)%Z -> forall m0 data frame_size h0 s0, initializer_in m0 initializer hinitializer -> new_hmsys N m0 data frame_size = Ok h0 -> new_msys N data frame_size = Ok s0 ->
  (forall es os h, hmsteps N Sp pow log exp cpus D conf hinitializer h0 es os h ->
     exists s, msteps N Sp pow log exp cpus D conf initializer s0 (map event_of es) os s /\ read (hs_mem h) (hs_centroids h) = ms_centroids s /\ hs_ready h = ms_ready s) /\
  (forall es os s, msteps N Sp pow log exp cpus D conf initializer s0 es os s -> ~ In OutPanic os ->
     exists es' h, map event_of es' = es /\ hmsteps N Sp pow log exp cpus D conf hinitializer h0 es' os h).
Proof.
  intros Hc m0 data fs h0 s0 HIN H0 HS. destruct (new_rel N m0 data fs h0 H0) as (s0' & HS' & R0). rewrite HS in HS'. injection HS' as <-. split.
  - intros es os h H. destruct (steps_sim N good HN Sp pow log exp cpus Hc D conf initializer hinitializer m0 HIN h0 es os h H s0 R0) as (s & M & (_ & _ & _ & R & Q & _) & _). eauto.
  - intros es os s H Hn. exact (steps_back N good HN Sp pow log exp cpus Hc D conf initializer hinitializer m0 HIN s0 es os s H Hn h0 R0).
Qed.
End Main.

Lemma new_slice_in {E I} (initializer : I -> Z -> list E -> outcome (list (option E) * option init_error)) m0 : initializer_in m0 initializer (in_new_slice initializer).
Proof.
  intros i m k data _. unfold in_new_slice. destruct (initializer i k data) as [[l err]|]; cbn [obind fst snd]; [|reflexivity]. destruct (alloc_at m l) as [A1 A2].
  eexists _, _. split; [reflexivity|]. split; [apply keeps_alloc|]. split; [exact A1|exact A2].
Qed.
Lemma the_slice_in {E} (m0 : mem E) t : valid m0 t -> initializer_in m0 (the_elements (read m0 t)) (the_slice t).
Proof.
  intros Ht i m k data [_ K]. destruct (K t Ht) as [A1 A2]. exists m, t. split; [reflexivity|]. split; [apply keeps_refl|]. split; [exact A1|exact A2].
Qed.

(** ** An execution that computes *)
Section Run.
Context {E F G I : Type} (N : Num F) (Sp : Space E F) (pow : F -> F -> F) (log exp : F -> F) (cpus : Z) (D : distrib E F G) (conf : mparams F).
Context (hinitializer : I -> mem E -> Z -> list E -> outcome (mem E * slice * option init_error)).
Fixpoint hrun (h : hmsys E F) (es : list (hmevent E F G I)) : option (list (@mout F) * hmsys E F) :=
  match es with
  | [] => Some ([], h)
  | e :: r =>
      match (match e with
             | HEvPush x alive =>
                 match buffer_push (hm_buffer (hs_impl h)) x alive with
                 | Some (Ok b) => Some (OutPush, mkHMsys (hs_mem h) (hset_buffer (hs_impl h) b) (hs_centroids h) (hs_ready h))
                 | _ => None
                 end
             | HEvInit i =>
                 match hmcmc_init N Sp pow D conf hinitializer (hs_mem h) (hs_impl h) i with
                 | Ok (m, x, c, err) => Some (OutInit err, mkHMsys m x c (match err with None => true | Some _ => false end))
                 | Panic => None
                 end
             | HEvIterate dr schedule =>
                 if hs_ready h then
                   match hmcmc_iterate N Sp pow log exp cpus D conf (hs_mem h) (hs_impl h) (hs_centroids h) dr schedule with
                   | Some (Ok (m, x, c, f)) => Some (OutFigures (d_u dr) f, mkHMsys m x c true)
                   | _ => None
                   end
                 else None
             end) with
      | Some (o, h1) => match hrun h1 r with Some (os, h2) => Some (o :: os, h2) | None => None end
      | None => None
      end
  end.
Lemma hrun_ok es : forall h os h', hrun h es = Some (os, h') -> hmsteps N Sp pow log exp cpus D conf hinitializer h es os h'.
Proof.
  induction es as [|e es IH]; intros h os h' H; cbn [hrun] in H; [injection H as <- <-; constructor|].
  match type of H with (match ?t with _ => _ end) = _ => destruct t as [[o h1]|] eqn:Q; [|discriminate] end.
  destruct (hrun h1 es) as [[os1 h2]|] eqn:Q1; [|discriminate]. injection H as <- <-. econstructor; [|apply IH; exact Q1]. clear IH Q1. destruct e as [x alive|i|dr schedule].
  - destruct (buffer_push (hm_buffer (hs_impl h)) x alive) as [[b|]|] eqn:Hb; try discriminate. injection Q as <- <-. apply hms_push. exact Hb.
  - destruct (hmcmc_init N Sp pow D conf hinitializer (hs_mem h) (hs_impl h) i) as [[[[m x] c] err]|] eqn:Hb; [|discriminate]. injection Q as <- <-. apply hms_init. exact Hb.
  - destruct (hs_ready h) eqn:Hr; [|discriminate]. destruct (hmcmc_iterate N Sp pow log exp cpus D conf (hs_mem h) (hs_impl h) (hs_centroids h) dr schedule) as [[[[[m x] c] f]|]|] eqn:Hb; try discriminate.
    injection Q as <- <-. apply hms_iterate; assumption.
Qed.
End Run.
