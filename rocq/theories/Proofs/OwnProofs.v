(** Who made the centroids (C107). *)
From Coq Require Import List ZArith Lia Bool.
From Verif Require Import Base.Go Base.Num Model.Clustering Model.Par Model.Buffer Model.Euclid Model.Kmeans Model.KmeansInit Model.Streaming Model.Mcmc
  Model.Status Model.Finish Model.CtrlLang Model.CtrlCode Model.CtrlSeq Model.System Model.SystemMcmc
  Spec.McmcSpec Spec.NearestSpec Spec.CtrlSpec Spec.CtrlSeqSpec Spec.SystemSpec Spec.OwnSpec
  Proofs.GoLemmas Proofs.McmcProofs Proofs.ParReduceProofs Proofs.StreamingProofs Proofs.CtrlSeqProofs Proofs.SystemProofs Proofs.SystemKmeans Proofs.SystemMcmc
  Proofs.CtrlSeqEx Proofs.SystemMain Proofs.McmcCases Proofs.SystemMcmcMain.
Import ListNotations.
Local Open Scope Z_scope.
Local Notation euclid64 := (euclid_space B64Num).

Lemma nth_upd {A} (l : list A) n a i x : nth_error (upd l n a) i = Some x -> (i = n /\ x = a) \/ nth_error l i = Some x.
Proof.
  revert n i. induction l as [|b l IH]; intros [|n] [|i] H; cbn in H; try discriminate; auto.
  - injection H as ->. auto.
  - destruct (IH n i H) as [[-> ->]|H']; auto.
Qed.

Section Step.
Context {E F : Type} (N : Num F) (Sp : Space E F).

(** Entry [i] is nil, satisfies [Q i], at least. *)
Definition at_each (Q : nat -> E -> Prop) (l : list (option E)) : Prop := forall i x, nth_error l i = Some (Some x) -> Q i x.

Lemma each_set (Q : nat -> E -> Prop) l i o l' : at_each Q l -> (forall n x, i = Z.of_nat n -> o = Some x -> Q n x) -> sset l i o = Ok l' -> at_each Q l'.
Proof.
  intros H Ho Hs. destruct (sset_ok _ _ _ _ Hs) as (n & -> & _ & ->). intros j x Hj.
  destruct (nth_upd _ _ _ _ _ Hj) as [[-> E0]|Hj']; [|apply H; exact Hj']. apply Ho; [reflexivity|congruence].
Qed.
Lemma each_nones (Q : nat -> E -> Prop) n : at_each Q (repeat None n).
Proof. intros i x H. apply nth_error_In in H. apply repeat_spec in H. discriminate. Qed.

Lemma add_each (Q : nat -> E -> Prop) label x means cards means' cards' : (forall n y, made Sp y -> Q n y) -> at_each Q means ->
  dba_add Sp label x (means, cards) = Ok (means', cards') -> at_each Q means'.
Proof.
  intros HQ H Ha. unfold dba_add in Ha. apply obind_ok in Ha as (n & _ & Ha). destruct (n =? 0).
  - apply obind_ok in Ha as (m1 & A1 & Ha). apply obind_ok in Ha as (c1 & _ & [= <- <-]).
    apply (each_set _ _ _ _ _ H) in A1; [exact A1|]. intros k y _ [= <-]. apply HQ, made_copy.
  - apply obind_ok in Ha as (o & _ & Ha). destruct o as [o|]; [|discriminate].
    apply obind_ok in Ha as (m1 & A1 & Ha). apply obind_ok in Ha as (c1 & _ & [= <- <-]).
    apply (each_set _ _ _ _ _ H) in A1; [exact A1|]. intros k y _ [= <-]. apply HQ, made_combine.
Qed.

Lemma reduce_each c data means cards : reduce_dba N Sp c data = Ok (means, cards) -> at_each (fun _ => made Sp) means.
Proof.
  intros H. unfold reduce_dba in H. change (at_each (fun _ => made Sp) (fst (means, cards))).
  refine (ofold_inv _ (fun st => at_each (fun _ => made Sp) (fst st)) _ _ _ _ _ H); [apply each_nones|].
  intros [m1 c1] x [m2 c2] Hi _ Hs. apply obind_ok in Hs as ([[? ix] ?] & _ & Hs). cbn [fst] in *.
  apply (add_each _ _ _ _ _ _ _ (fun _ y Hy => Hy) Hi Hs).
Qed.

Lemma combine_each agg other r : at_each (fun _ => made Sp) (fst agg) -> at_each (fun _ => made Sp) (fst other) ->
  dba_combine Sp agg other = Ok r -> at_each (fun _ => made Sp) (fst r).
Proof.
  intros Ha Ho H. unfold dba_combine in H.
  refine (ofold_inv _ (fun st => at_each (fun _ => made Sp) (fst st)) _ _ _ Ha _ H).
  intros [dbas cards] i [dbas' cards'] Hi _ Hs. cbn [fst] in *. apply obind_ok in Hs as (ci & _ & Hs). destruct (ci =? 0).
  - apply obind_ok in Hs as (od & O1 & Hs). apply obind_ok in Hs as (d1 & D1 & Hs). apply obind_ok in Hs as (oc & _ & Hs). apply obind_ok in Hs as (c1 & _ & [= <- <-]).
    apply (each_set _ _ _ _ _ Hi) in D1; [exact D1|]. intros n x -> ->. apply sget_ok in O1 as [_ O1]. rewrite Nat2Z.id in O1. apply (Ho n x O1).
  - apply obind_ok in Hs as (oc & _ & Hs). destruct (0 <? oc); [|injection Hs as <- <-; exact Hi].
    apply obind_ok in Hs as (ad & _ & Hs). apply obind_ok in Hs as (od & _ & Hs). destruct ad as [ad|], od as [od|]; try discriminate.
    apply obind_ok in Hs as (d1 & D1 & Hs). apply obind_ok in Hs as (c1 & _ & [= <- <-]).
    apply (each_set _ _ _ _ _ Hi) in D1; [exact D1|]. intros n x _ [= <-]. apply made_combine.
Qed.

Lemma aggregate_each parts r : Forall (fun p : list (option E) * list Z => at_each (fun _ => made Sp) (fst p)) parts ->
  dba_aggregate Sp parts = Ok r -> at_each (fun _ => made Sp) (fst r).
Proof.
  intros Hp H. unfold dba_aggregate in H. apply obind_ok in H as (o & Ho & H).
  assert (HO : forall a, o = Some a -> at_each (fun _ => made Sp) (fst a)).
  { refine (ofold_inv _ (fun o => forall a, o = Some a -> at_each (fun _ => made Sp) (fst a)) _ _ _ _ _ Ho); [discriminate|].
    intros s x s' Hi Hx Hs a Ha. subst s'. rewrite Forall_forall in Hp. unfold dba_aggregate_step in Hs. destruct s as [s|].
    - apply obind_ok in Hs as (r1 & R1 & [= <-]). apply (combine_each s x); auto.
    - injection Hs as <-. auto. }
  destruct o as [a|]; injection H as <-; [auto|]. intros i x Hx. destruct i; discriminate.
Qed.

(** An iteration makes each centroid, or keeps the one it had. *)
Lemma iterate_each par c data l : strategy_iterate N Sp par c data = Ok l -> at_each (fun i x => made Sp x \/ nth_error c i = Some x) l.
Proof.
  destruct par as [degree|]; cbn [strategy_iterate]; intros H.
  - unfold par_iterate in H. apply obind_ok in H as ([l' cards] & H & [= <-]). unfold par_reduce_dba in H.
    apply obind_ok in H as (ranges & _ & H). apply obind_ok in H as (parts & Hp & H). apply obind_ok in H as (aggr & Ha & H).
    assert (Hm : at_each (fun _ => made Sp) (fst aggr)).
    { apply (aggregate_each parts); [|exact Ha]. apply omap_ok_inv in Hp. clear Ha H. induction Hp as [|[[s e] k] [p1 p2] rs ps Hx _ IH]; constructor; [|exact IH].
      apply obind_ok in Hx as (part & _ & Hx). apply (reduce_each _ _ _ _ Hx). }
    unfold build_result in H. apply obind_ok in H as (res & Hr & [= <- <-]). cbn [fst].
    refine (ofold_inv _ (at_each (fun i x => made Sp x \/ nth_error c i = Some x)) _ _ _ (each_nones _ _) _ Hr).
    intros s i s' Hi _ Hs. apply obind_ok in Hs as (ci & _ & Hs). destruct (0 <? ci); apply obind_ok in Hs as (d & D1 & Hs); apply (each_set _ _ _ _ _ Hi) in Hs; auto.
    + intros n x -> ->. left. apply sget_ok in D1 as [_ D1]. rewrite Nat2Z.id in D1. apply (Hm n x D1).
    + intros n x -> [= ->]. right. apply sget_ok in D1 as [_ D1]. rewrite Nat2Z.id in D1. exact D1.
  - unfold seq_iterate in H. apply obind_ok in H as ([means cards] & Hr & H). apply reduce_each in Hr. cbn [fst] in H. unfold seq_build_result in H.
    refine (ofold_inv _ (at_each (fun i x => made Sp x \/ nth_error c i = Some x)) _ _ _ _ _ H); [intros i x Hx; left; apply (Hr i x Hx)|].
    intros s i s' Hi _ Hs. apply obind_ok in Hs as (o & _ & Hs). destruct o as [o|]; [injection Hs as <-; exact Hi|].
    apply obind_ok in Hs as (d & D1 & Hs). apply (each_set _ _ _ _ _ Hi) in Hs; [exact Hs|].
    intros n x -> [= ->]. right. apply sget_ok in D1 as [_ D1]. rewrite Nat2Z.id in D1. exact D1.
Qed.

(** ** Initializers *)
Lemma all_some_each (Q : nat -> E -> Prop) (l : list (option E)) c : at_each Q l -> all_some l = Some c -> forall i x, nth_error c i = Some x -> Q i x.
Proof.
  intros H Hs i x Hx. rewrite (all_some_inv _ _ Hs) in H. apply H. rewrite nth_error_map, Hx. reflexivity.
Qed.

Lemma given_copies k : copies Sp (with_given Sp k).
Proof.
  intros d data c e H. unfold with_given, init_result_of, given_initializer in H. destruct (check k data); [injection H as <- _; constructor|].
  assert (G : forall n i l, given_loop Sp n i data = Ok l -> forall c, all_some l = Some c -> Forall (made Sp) c).
  { induction n as [|n IH]; intros i l Hl c0 Hc; cbn [given_loop] in Hl; [injection Hl as <-; injection Hc as <-; constructor|].
    apply obind_ok in Hl as (x & _ & Hl). apply obind_ok in Hl as (r & Hr & [= <-]). cbn [all_some] in Hc.
    destruct (all_some r) as [c1|] eqn:A; [|discriminate]. injection Hc as <-. constructor; [apply made_copy|apply (IH _ _ Hr _ A)]. }
  destruct (given_loop Sp (Z.to_nat k) 0 data) as [l|] eqn:Hl; [|discriminate]. cbn [obind] in H. injection H as H _. apply (G _ _ _ Hl _ H).
Qed.

Lemma nones_some n c : all_some (repeat (@None E) n) = Some c -> c = [].
Proof. destruct n; cbn; congruence. Qed.

Lemma rand_copies k : copies Sp (with_rand Sp k).
Proof.
  intros draws data c e H. unfold with_rand, rand_initializer, smake in H. destruct (k <? 0); [discriminate|].
  destruct (check k data).
  { injection H as H _. rewrite (nones_some _ _ H). constructor. }
  assert (G : forall draws n chosen l l', rand_loop Sp draws n data chosen l = Some (Ok l') -> Forall (made Sp) l -> Forall (made Sp) l').
  { clear H. intros ds. induction ds as [|z ds IH]; intros [|n] chosen l l' Hl HF; cbn [rand_loop] in Hl; try discriminate;
      try (injection Hl as <-; exact HF).
    destruct (existsb (Z.eqb z) chosen); [apply (IH _ _ _ _ Hl HF)|]. destruct (sget data z) as [x|]; [|discriminate].
    apply (IH _ _ _ _ Hl). apply Forall_app. split; [exact HF|]. constructor; [apply made_copy|constructor]. }
  destruct (rand_loop Sp draws (Z.to_nat k) data [] []) as [[l|]|] eqn:Hl; try discriminate.
  cbn [init_result_of] in H. rewrite all_some_map in H. injection H as <- _. apply (G _ _ _ _ _ Hl (Forall_nil _)).
Qed.

(** kmeans++ copies all but the first one. *)
Lemma pp_loop_made degree data rs : forall n i found found' err, pp_loop N Sp degree n i found data rs = Ok (found', err) ->
  exists more, found' = found ++ more /\ Forall (made Sp) more.
Proof.
  induction n as [|n IH]; intros i found found' err H; cbn [pp_loop] in H; [injection H as <- _; exists []; rewrite app_nil_r; auto|].
  apply obind_ok in H as ([x er] & Hx & H). unfold pp_iter in Hx. apply obind_ok in Hx as (ld & _ & Hx). apply obind_ok in Hx as ([dr er'] & _ & Hx).
  apply obind_ok in Hx as (y & _ & [= <- <-]). cbn [fst snd] in H. destruct er' as [e|].
  - injection H as <- _. exists [scopy Sp y]. split; [reflexivity|]. constructor; [apply made_copy|constructor].
  - destruct (IH _ _ _ _ H) as (more & -> & HF). exists (scopy Sp y :: more). rewrite <- app_assoc. split; [reflexivity|]. constructor; [apply made_copy|exact HF].
Qed.
Lemma pp_each degree k draw rs data l err : pp_initializer N Sp degree k data draw rs = Ok (l, err) ->
  at_each (fun i x => made Sp x \/ (i = 0%nat /\ sget data draw = Ok x)) l.
Proof.
  intros H. unfold pp_initializer, smake in H. destruct (k <? 0); [discriminate|]. cbn [obind] in H. destruct (check k data); [injection H as <- _; apply each_nones|].
  apply obind_ok in H as (c0 & H0 & H). apply obind_ok in H as ([found er] & Hl & [= <- _]). destruct (pp_loop_made _ _ _ _ _ _ _ _ Hl) as (more & -> & HF).
  intros i x Hx. cbn [app map] in Hx. destruct i as [|i]; [injection Hx as ->; right; auto|]. cbn [nth_error] in Hx. left.
  destruct (Nat.lt_ge_cases i (length (map Some more))) as [Hi|Hi].
  - rewrite nth_error_app1 in Hx by exact Hi. rewrite nth_error_map in Hx. destruct (nth_error more i) as [y|] eqn:Hy; [|discriminate]. injection Hx as ->.
    rewrite Forall_forall in HF. apply HF. apply (nth_error_In _ _ Hy).
  - rewrite nth_error_app2 in Hx by exact Hi. apply nth_error_In, repeat_spec in Hx. discriminate.
Qed.

(** ** k-means under the controller *)
Lemma actions_ok {D} (xs : list (sys_action E D)) : Forall (action_ok (fun _ => True)) xs.
Proof. apply Forall_forall. intros [[]|] _; exact Logic.I. Qed.

Section Kmeans.
Context {D : Type} (initializer : D -> list E -> option (option (list E) * option nat)) (par : option Z).
Variable Q : nat -> E -> Prop.
Hypothesis HQ : forall i x, made Sp x -> Q i x.
Hypothesis Hinit : forall d data c e, initializer d data = Some (Some c, e) -> forall i x, nth_error c i = Some x -> Q i x.
Definition cents (_ : list (event (list E))) (c : option (list E)) (_ : buffer E) : Prop := forall c', c = Some c' -> forall i x, nth_error c' i = Some x -> Q i x.

Lemma own_preserved : preserved (kmeans_implem N Sp initializer par) (fun _ => True) cents cents.
Proof.
  split.
  - intros e log c i _. split; intros H; exact H.
  - intros log c i H. exact H.
  - intros d log c i i' r H Hit. cbn [im_iterate kmeans_implem] in Hit. set (c0 := match c with Some c => c | None => [] end) in Hit.
    assert (H0 : forall j x, nth_error c0 j = Some x -> Q j x).
    { unfold c0. destruct c as [c|]; [apply (H c eq_refl)|]. intros [|j] x Hx; discriminate. }
    destruct (strategy_iterate N Sp par c0 (bdata i)) as [l|] eqn:Hs; [|injection Hit as <- <-; exact H].
    destruct (buffer_apply i) as [b'|]; [|injection Hit as <- <-; exact H].
    destruct (all_some l) as [c'|] eqn:A; injection Hit as <- <-; [|exact H].
    intros c1 [= <-] j x Hx. destruct (all_some_each _ _ _ (iterate_each _ _ _ _ Hs) A j x Hx) as [Hm|Hk]; auto.
  - intros d log c i i' c' e H Hi. cbn [im_init kmeans_implem] in Hi. destruct (buffer_apply i) as [b1|]; [|discriminate].
    destruct (initializer d (bdata b1)) as [r|] eqn:R; [|discriminate]. injection Hi as <- ->.
    assert (V : cents log c' b1) by (intros c1 -> j x Hx; apply (Hinit _ _ _ _ R j x Hx)). destruct e; exact V.
  - intros x log c i i' err _. split; intros H _; destruct err; exact H.
Qed.

Lemma own_kmeans cf xs b0 q b c : sys_acts cf (kmeans_implem N Sp initializer par) xs (seq0, b0) = Some (q, b) -> m_centroids (q_model q) = Some c ->
  forall i x, nth_error c i = Some x -> Q i x.
Proof.
  intros Hs Hc. pose proof (sys_invariant cf _ _ _ _ own_preserved xs b0 (q, b)) as H. unfold holds_in in H. cbn [fst snd] in H.
  assert (V : cents (q_log q) (m_centroids (q_model q)) b).
  { destruct (st_alive (q_status q)); apply H; auto using actions_ok; discriminate. }
  exact (V c Hc).
Qed.
End Kmeans.

Lemma kmeans_made : forall (D : Type) (initializer : D -> list E -> option (option (list E) * option nat)) par cf xs b0 q b c, copies Sp initializer ->
  sys_acts cf (kmeans_implem N Sp initializer par) xs (seq0, b0) = Some (q, b) -> m_centroids (q_model q) = Some c -> Forall (made Sp) c.
Proof.
  intros D initializer par cf xs b0 q b c Hi Hs Hc. apply Forall_forall. intros x Hx. apply In_nth_error in Hx as [i Hx].
  apply (own_kmeans initializer par (fun _ => made Sp)) with (i := i) (x := x) (2 := fun d data c e H j y Hy => proj1 (Forall_forall _ _) (Hi d data c e H) y (nth_error_In _ _ Hy)) (3 := Hs) (4 := Hc); auto.
Qed.

Lemma kmeans_pp_made : forall degree k par cf xs b0 q b c0 c,
  sys_acts cf (kmeans_implem N Sp (with_pp N Sp degree k) par) xs (seq0, b0) = Some (q, b) -> m_centroids (q_model q) = Some (c0 :: c) -> Forall (made Sp) c.
Proof.
  intros degree k par cf xs b0 q b c0 c Hs Hc. apply Forall_forall. intros x Hx. apply In_nth_error in Hx as [i Hx].
  assert (V : S i = 0%nat \/ made Sp x).
  { apply (own_kmeans (with_pp N Sp degree k) par (fun j y => j = 0%nat \/ made Sp y)) with (3 := Hs) (4 := Hc); auto.
    intros [draw rs] data c' e H j y Hy. unfold with_pp, init_result_of in H. cbn [fst snd] in H.
    destruct (pp_initializer N Sp degree k data draw rs) as [[l er]|] eqn:P; [|discriminate]. injection H as H _.
    destruct (all_some_each _ _ _ (pp_each _ _ _ _ _ _ _ P) H j y Hy) as [V|[V _]]; auto. }
  destruct V as [V|V]; [discriminate|exact V].
Qed.
End Step.

(** ** MCMC *)
Section McmcOwn.
Context {E F G I : Type} (N : Num F) (Sp : Space E F) (pow : F -> F -> F) (log exp : F -> F) (cpus : Z) (Di : distrib E F G) (conf : mparams F).
Context (initializer : I -> Z -> list E -> outcome (list (option E) * option init_error)) (to64 : F -> b64).
Notation own := (made_or_sampled Sp Di).
Notation im := (mcmc_implem N Sp pow log exp cpus Di conf initializer to64).
Hypothesis Hinit : forall i k data l e c, initializer i k data = Ok (l, e) -> all_some l = Some c -> Forall own c.

Definition own_m (m : mimpl E F) : Prop := Forall (fun kc => Forall own (snd kc)) (mi_store m).
Definition own_st (_ : list (event (list E))) (c : option (list E)) (m : mimpl E F) : Prop := own_m m /\ forall c', c = Some c' -> Forall own c'.

Lemma store_own s k c : Forall (fun kc : Z * list E => Forall own (snd kc)) s -> store_get s k = Some c -> Forall own c.
Proof.
  induction 1 as [|[k' c'] s H _ IH]; cbn [store_get]; [discriminate|]. destruct (k' =? k); [intros [= <-]; exact H|exact IH].
Qed.
Lemma copies_own (l : list E) : Forall own (map (scopy Sp) l).
Proof. apply Forall_map, Forall_forall. intros x _. apply ms_made, made_copy. Qed.
Lemma get_own s data k clust r del c e : Forall (fun kc : Z * list E => Forall own (snd kc)) s -> Forall own clust ->
  get_centers N Sp cpus s data k clust r del = Ok (c, e) -> Forall own c.
Proof.
  intros Hs Hc H. unfold get_centers in H. destruct (store_get s k) as [c1|] eqn:S1; [injection H as <- _; apply (store_own _ _ _ Hs S1)|].
  unfold gen_centers in H. destruct (slen clust <? k).
  - unfold Mcmc.add_center, pp_iter in H. apply obind_ok in H as ([x er] & Hx & [= <- _]). apply obind_ok in Hx as (ld & _ & Hx). apply obind_ok in Hx as ([dr er'] & _ & Hx).
    apply obind_ok in Hx as (y & _ & [= <- _]). apply Forall_app. split; [apply copies_own|]. constructor; [apply ms_made, made_copy|constructor].
  - destruct (k <? slen clust); [|injection H as <- _; exact Hc]. apply obind_ok in H as (c1 & H1 & [= <- _]). unfold del_center in H1.
    destruct (slen clust <=? 0); [discriminate|]. apply omap_ok_inv in H1. induction H1 as [|i y l ys Hy _ IH]; constructor; [|exact IH].
    apply obind_ok in Hy as (z & _ & [= <-]). apply ms_made, made_copy.
Qed.
Lemma alter_own time g : forall clust i c, Forall own clust -> alter_loop Di clust time g i = Ok c -> Forall own c.
Proof.
  intros clust. induction clust as [|x clust IH]; intros i c H Ha; cbn [alter_loop] in Ha; [injection Ha as <-; constructor|].
  inversion H as [|? ? Hx Hr]; subst. apply obind_ok in Ha as (y & Hy & Ha). apply obind_ok in Ha as (ys & Hys & [= <-]).
  constructor; [apply (ms_sampled _ _ _ _ _ _ Hx Hy)|apply (IH _ _ Hr Hys)].
Qed.
Lemma iter_own : forall n c data c', Forall own c -> strategy_iter N Sp cpus n c data = Ok c' -> Forall own c'.
Proof.
  induction n as [|n IH]; intros c data c' H Hs; cbn [strategy_iter] in Hs; [injection Hs as <-; exact H|].
  apply obind_ok in Hs as (r & Hr & Hs). apply obind_ok in Hs as (c1 & H1 & Hs). apply somes_ok in H1. subst r. apply (IH c1 data c'); [|exact Hs].
  apply Forall_forall. intros x Hx. apply In_nth_error in Hx as [i Hx].
  destruct (iterate_each N Sp (Some cpus) c data (map Some c1) Hr i x) as [Hm|Hk]; [rewrite nth_error_map, Hx; reflexivity|apply ms_made; exact Hm|].
  rewrite Forall_forall in H. apply H. apply (nth_error_In _ _ Hk).
Qed.
Lemma mcmc_step_own m c dr m' c' f : own_m m -> Forall own c -> mcmc_iterate N Sp pow log exp cpus Di conf m c dr = Ok (m', c', f) -> own_m m' /\ Forall own c'.
Proof.
  intros Hm Hc H. unfold mcmc_iterate in H. apply obind_ok in H as ([m1 c1] & H & H'). apply obind_ok in H' as (b & _ & [= <- <- _]).
  unfold own_m. cbn [mi_store set_buffer]. fold (own_m m1). unfold do_iter in H. apply obind_ok in H as (p & Hp & H).
  assert (Hpo : Forall own (pr_centers p)).
  { unfold propose in Hp. apply obind_ok in Hp as ([k cs] & Hk & Hp). apply obind_ok in Hp as (c2 & H2 & Hp). apply obind_ok in Hp as (c3 & H3 & Hp).
    apply obind_ok in Hp as (lo & _ & Hp). apply obind_ok in Hp as (pd & _ & [= <-]). cbn [pr_centers].
    assert (Hcs : Forall own cs).
    { unfold get_k_centers in Hk. apply obind_ok in Hk as (k1 & _ & Hk). apply obind_ok in Hk as ([ce e] & H1 & Hk). cbn [fst snd] in Hk.
      destruct e as [e|].
      - apply obind_ok in Hk as ([ce' e'] & H1' & [= _ <-]). apply (get_own _ _ _ _ _ _ _ _ Hm Hc H1').
      - injection Hk as _ <-. apply (get_own _ _ _ _ _ _ _ _ Hm Hc H1). }
    apply (iter_own _ _ _ _ (alter_own _ _ _ _ _ Hcs H2) H3). }
  destruct (accept_figures N log exp conf (mi_dim m) (mi_current m) p (slen (bdata (mi_buffer m)))) as [[la rh] rg].
  destruct (accept _ _ _ _ _ _ _ _ _); injection H as <- <-; [|split; [exact Hm|exact Hc]].
  split; [|exact Hpo]. unfold own_m, store_set. cbn [mi_store]. constructor; [exact Hpo|exact Hm].
Qed.

Lemma mcmc_own_preserved : preserved im (fun _ => True) own_st own_st.
Proof.
  split.
  - intros e lg c i _. split; intros H; exact H.
  - intros lg c i H. exact H.
  - intros d lg c m m' r [Hm Hc] Hit. cbn [im_iterate mcmc_implem] in Hit.
    destruct (mcmc_iterate N Sp pow log exp cpus Di conf m (match c with Some c => c | None => [] end) (snd d)) as [[[m1 c1] f]|] eqn:Hs; injection Hit as <- <-; [|split; assumption].
    assert (H0 : Forall own (match c with Some c => c | None => [] end)) by (destruct c as [c|]; [apply Hc; reflexivity|constructor]).
    destruct (mcmc_step_own _ _ _ _ _ _ Hm H0 Hs) as [V1 V2]. split; [exact V1|]. intros c' [= <-]. exact V2.
  - intros d lg c m m' c' e [Hm Hc] Hi. cbn [im_init mcmc_implem] in Hi.
    destruct (mcmc_init N Sp pow Di conf initializer m (fst d)) as [[[m1 cs] er]|] eqn:Hs; [|discriminate]. injection Hi as <- <- _.
    assert (V : own_m m1 /\ forall c', all_some cs = Some c' -> Forall own c').
    { unfold mcmc_init in Hs. apply obind_ok in Hs as (b & _ & Hs). apply obind_ok in Hs as ([l er'] & Hr & Hs). destruct er' as [er'|].
      - injection Hs as <- <- _. split; [exact Hm|]. intros c1 A. apply (Hinit _ _ _ _ _ _ Hr A).
      - apply obind_ok in Hs as (cc & _ & Hs). apply obind_ok in Hs as (lo & _ & Hs). apply obind_ok in Hs as (pd & _ & [= <- <- _]).
        split; [exact Hm|]. intros c1 A. apply (Hinit _ _ _ _ _ _ Hr A). }
    destruct e; exact V.
  - intros x lg c m m' err _. cbn [im_push mcmc_implem].
    split; intros [Hm Hc] Hp.
    + destruct (buffer_push (mi_buffer m) x true) as [[b|]|]; try discriminate Hp. injection Hp as <- <-. split; [exact Hm|exact Hc].
    + destruct (buffer_push (mi_buffer m) x false) as [[b|]|]; try discriminate Hp. injection Hp as <- <-. split; [exact Hm|exact Hc].
Qed.

Lemma own_mcmc cf elemts size m0 xs q m c : new_mcmc N elemts size = Ok m0 ->
  sys_acts cf im xs (seq0, m0) = Some (q, m) -> m_centroids (q_model q) = Some c -> Forall own c.
Proof.
  intros Hn Hs Hc. pose proof (sys_invariant cf im _ _ _ mcmc_own_preserved xs m0 (q, m)) as H. unfold holds_in in H. cbn [fst snd] in H.
  assert (H0 : own_st [] None m0).
  { split; [|discriminate]. unfold new_mcmc in Hn. apply obind_ok in Hn as (b & _ & [= <-]). constructor. }
  assert (V : own_st (q_log q) (m_centroids (q_model q)) m).
  { destruct (st_alive (q_status q)); apply H; auto using actions_ok. }
  apply V. exact Hc.
Qed.
End McmcOwn.

(** ** Streaming *)
Section StreamingOwn.
Context {E F : Type} (N : Num F) (Sp : Space E F) (bs oa : Z) (ratio : F) (to64 : F -> b64) (P : E -> Prop).
Notation im := (streaming_implem N Sp bs oa ratio to64).

(** A center with its cardinality. *)
Definition center_own (x : E) (n : Z) : Prop := (n = 1 /\ P x) \/ (2 <= n /\ made Sp x).
Definition own_s (_ : list (event (list E))) (_ : option (list E)) (s : streaming E F) : Prop :=
  Forall P (s_queue s) /\ Forall2 center_own (s_clust s) (s_cards s).

Lemma forall2_upd {A B} (R : A -> B -> Prop) : forall l m i a b, Forall2 R l m -> R a b -> Forall2 R (upd l i a) (upd m i b).
Proof. intros l m i a b H. revert i. induction H as [|x y l m Hx H IH]; intros [|i] Hr; cbn [upd]; constructor; auto. Qed.
Lemma forall2_nth {A B} (R : A -> B -> Prop) : forall l m i a b, Forall2 R l m -> nth_error l i = Some a -> nth_error m i = Some b -> R a b.
Proof. intros l m i a b H. revert i. induction H as [|x y l m Hx H IH]; intros [|i] Ha Hb; cbn in *; try discriminate; [congruence|eauto]. Qed.

Lemma process_own s x t s' : P x -> Forall2 center_own (s_clust s) (s_cards s) -> process N Sp oa ratio s x t = Ok s' ->
  Forall2 center_own (s_clust s') (s_cards s') /\ s_queue s' = s_queue s.
Proof.
  intros Hx H Hp. unfold process in Hp. apply obind_ok in Hp as ([[cl lab] di] & _ & Hp).
  destruct (relative_distance N (s_max s) di) as [mx rel]. apply obind_ok in Hp as (s1 & H1 & [= <-]). cbn [s_clust s_cards s_queue].
  assert (Hadd : Forall2 center_own (s_clust s ++ [x]) (s_cards s ++ [1])).
  { apply Forall2_app; [exact H|]. constructor; [left; auto|constructor]. }
  destruct (_ && _) in H1; [injection H1 as <-; split; [exact Hadd|reflexivity]|].
  destruct (nltb N t rel) in H1; [injection H1 as <-; split; [exact Hadd|reflexivity]|].
  unfold update_center in H1. cbn [s_clust s_cards s_queue s_max s_count] in H1. apply obind_ok in H1 as (c & C1 & H1). apply obind_ok in H1 as (n & N1 & H1).
  apply obind_ok in H1 as (clust & S1 & H1). apply obind_ok in H1 as (cards & S2 & [= <-]). cbn [s_clust s_cards s_queue]. split; [|reflexivity].
  apply sset_ok in S1 as (i & -> & _ & ->). apply sset_ok in S2 as (i' & E' & _ & ->). assert (i' = i) by lia. subst i'.
  apply sget_ok in C1 as [_ C1]. apply sget_ok in N1 as [_ N1]. rewrite Nat2Z.id in *.
  apply forall2_upd; [exact H|]. right. split; [|apply made_combine]. destruct (forall2_nth _ _ _ _ _ _ H C1 N1) as [[-> _]|[V _]]; lia.
Qed.

Lemma streaming_own_preserved : preserved im P own_s own_s.
Proof.
  split.
  - intros e lg c i _. split; intros H; exact H.
  - intros lg c i H. exact H.
  - intros t lg c s s' r [Hq H] Hit. cbn [im_iterate streaming_implem] in Hit.
    destruct (streaming_iterate N Sp oa ratio s t) as [[s1 o]|] eqn:Hs; injection Hit as <- <-; [|split; assumption].
    assert (V : own_s lg c s1).
    { unfold streaming_iterate in Hs. destruct (s_queue s) as [|x qu] eqn:Eq; [injection Hs as <- _; split; [rewrite Eq; constructor|exact H]|].
      apply obind_ok in Hs as (s2 & Hp & [= <- _]). inversion Hq as [|? ? Hx Hr]; subst.
      destruct (process_own (mkStreaming (s_max s) (s_clust s) (s_cards s) qu (s_count s)) x t s2 Hx H Hp) as [V1 V2]. split; [rewrite V2; exact Hr|exact V1]. }
    destruct o; exact V.
  - intros t lg c s s' c' e [Hq H] Hi. cbn [im_init streaming_implem] in Hi. unfold streaming_init in Hi. destruct (s_queue s) as [|x qu] eqn:Eq.
    + injection Hi as <- <- <-. split; [rewrite Eq; constructor|exact H].
    + injection Hi as <- <- <-. inversion Hq as [|? ? Hx Hr]; subst. split; [exact Hr|]. cbn [s_clust s_cards add_center].
      apply Forall2_app; [exact H|]. constructor; [left; auto|constructor].
  - intros x lg c s s' err Hx. cbn [im_push streaming_implem].
    assert (V : own_s lg c s -> (let (s', full) := streaming_push bs s x in Some (s', if full then Some 2%nat else None)) = Some (s', err) -> own_s lg c s').
    { intros [Hq H] Hp. unfold streaming_push in Hp. destruct (slen (s_queue s) <? bs); injection Hp as <- _; [|split; assumption].
      split; [|exact H]. cbn [s_queue]. apply Forall_app. split; [exact Hq|]. constructor; [exact Hx|constructor]. }
    split; intros H Hp; specialize (V H Hp); destruct err; exact V.
Qed.

Lemma own_streaming cf elemts xs q s : Forall P elemts -> pushes_only P xs ->
  sys_acts cf im xs (seq0, new_streaming N elemts) = Some (q, s) -> Forall2 (fun x n => (n = 1 /\ P x) \/ (2 <= n /\ made Sp x)) (s_clust s) (s_cards s).
Proof.
  intros He Hx Hs. pose proof (sys_invariant cf im P _ _ streaming_own_preserved xs (new_streaming N elemts) (q, s)) as H. unfold holds_in in H. cbn [fst snd] in H.
  assert (H0 : own_s [] None (new_streaming N elemts)) by (split; [exact He|constructor]).
  assert (Hok : Forall (action_ok P) xs).
  { apply Forall_forall. intros [c now|p] Hin; [|exact Logic.I]. destruct c; try exact Logic.I. exact (Hx _ _ _ Hin). }
  assert (V : own_s (q_log q) (m_centroids (q_model q)) s) by (destruct (st_alive (q_status q)); apply H; auto).
  apply V.
Qed.
End StreamingOwn.

Lemma mcmc_made : forall (E F G I : Type) (N : Num F) (Sp : Space E F) pow log exp cpus (D : distrib E F G) conf
  (initializer : I -> Z -> list E -> outcome (list (option E) * option init_error)) (to64 : F -> b64) cf elemts size m0 xs q m c,
  copies_k Sp initializer -> new_mcmc N elemts size = Ok m0 ->
  sys_acts cf (mcmc_implem N Sp pow log exp cpus D conf initializer to64) xs (seq0, m0) = Some (q, m) -> m_centroids (q_model q) = Some c -> Forall (made_or_sampled Sp D) c.
Proof.
  intros E F G I N Sp pow log exp cpus D conf initializer to64 cf elemts size m0 xs q m c Hi. apply own_mcmc.
  intros i k data l e c0 H A. rewrite (all_some_inv _ _ A) in H. eapply Forall_impl; [|apply (Hi _ _ _ _ _ H)]. apply ms_made.
Qed.

Lemma initializers_copy : forall (E F : Type) (Sp : Space E F),
  (forall k, copies Sp (with_given Sp k)) /\ (forall k, copies Sp (with_rand Sp k)) /\ copies_k Sp (use_given Sp) /\ copies_k Sp (use_rand Sp).
Proof.
  intros E F Sp. split; [apply given_copies|]. split; [apply rand_copies|]. split.
  - intros [] k data c e H. unfold use_given in H. apply (given_copies Sp k tt data c (option_map error_code e)). unfold with_given. rewrite H. cbn [init_result_of]. rewrite all_some_map. reflexivity.
  - intros ds k data c e H. unfold use_rand in H. apply (rand_copies Sp k ds data c (option_map error_code e)). unfold with_rand.
    destruct (rand_initializer Sp k data ds) as [r|]; [|discriminate]. rewrite H. cbn [init_result_of]. rewrite all_some_map. reflexivity.
Qed.

(** ** Witnesses *)
Lemma tracked_made : forall (E F : Type) (Sp : Space E F) x, made (tracked Sp) x -> fst x = true.
Proof. intros E F Sp x []; reflexivity. Qed.

Definition mine (l : list Z) : bool * list b64 := (false, v64 l).
Definition pp_own := kmeans_implem B64Num (tracked euclid64) (with_pp B64Num (tracked euclid64) 2 2) None.
Definition pp_session : list (sys_action (bool * list b64) (Z * (nat -> b64))) :=
  [YCall (YPush (mine [0]) 1) 1; YCall (YPush (mine [10]) 2) 2; YCall (YInit (0, fun _ => quarter)) 3].
Definition tbuffer0 : buffer (bool * list b64) := match new_data_buffer [] 0 with Ok b => b | Panic => mkBuffer [] [] InfiniteSize end.
Lemma pp_own_ex : exists q b, sys_acts conf_free pp_own pp_session (seq0, tbuffer0) = Some (q, b) /\
  pushes_only (fun x => fst x = false) pp_session /\ q_status q = new_status Ready /\
  exists c, m_centroids (q_model q) = Some (mine [0] :: c) /\ ~ made (tracked euclid64) (mine [0]).
Proof.
  assert (H : match sys_acts conf_free pp_own pp_session (seq0, tbuffer0) with
    | Some (q, b) => q_status q = new_status Ready /\ match m_centroids (q_model q) with Some (x :: _) => (fst x, map show64 (snd x)) = (false, map show64 (v64 [0])) /\ x = mine [0] | _ => False end
    | None => False end) by (vm_compute; auto).
  destruct (sys_acts _ _ _ _) as [[q b]|]; [|contradiction]. destruct H as [H1 H2]. exists q, b. split; [reflexivity|].
  split; [intros x t now [Hx|[Hx|[Hx|[]]]]; try discriminate Hx; injection Hx as <- _ _; reflexivity|]. split; [exact H1|].
  destruct (m_centroids (q_model q)) as [[|x c]|]; [contradiction| |contradiction]. destruct H2 as [_ ->]. exists c. split; [reflexivity|].
  intros Hm. apply tracked_made in Hm. discriminate Hm.
Qed.

Definition streaming_own := streaming_implem B64Num (tracked two_point_space) 10 5 (b64_of_Z 2) (fun x => x).
Definition own_elemts : list (bool * bool) := [(false, true); (false, false); (false, true)].
Definition streaming_session : list (sys_action (bool * bool) b64) :=
  [YCall (YPlay (b64_of_Z 0)) 1; YProgress (STurn (b64_of_Z 0) 0 2); YProgress (STurn (b64_of_Z 0) 0 3)].
Lemma streaming_own_ex : exists q s c, sys_acts conf_free streaming_own streaming_session (seq0, new_streaming B64Num own_elemts) = Some (q, s) /\
  m_centroids (q_model q) = Some c /\ In (false, false) own_elemts /\ In (false, false) c /\ ~ made (tracked two_point_space) (false, false) /\ s_cards s = [2; 1] /\ c = [(true, true); (false, false)].
Proof.
  assert (H : match sys_acts conf_free streaming_own streaming_session (seq0, new_streaming B64Num own_elemts) with
    | Some (q, s) => m_centroids (q_model q) = Some [(true, true); (false, false)] /\ s_cards s = [2; 1] | None => False end) by (vm_compute; auto).
  destruct (sys_acts _ _ _ _) as [[q s]|]; [|contradiction]. destruct H as [H1 H2]. exists q, s, [(true, true); (false, false)]. split; [reflexivity|]. split; [exact H1|].
  split; [right; left; reflexivity|]. split; [right; left; reflexivity|]. split; [|auto]. intros Hm. apply tracked_made in Hm. discriminate Hm.
Qed.

Definition given_own := kmeans_implem B64Num (tracked euclid64) (with_given (tracked euclid64) 2) (Some 2).
Definition given_session : list (sys_action (bool * list b64) unit) :=
  [YCall (YPush (mine [0]) 1) 1; YCall (YPush (mine [10]) 2) 2; YCall (YPlay tt) 3; YCall (YPush (mine [12]) 4) 4; YProgress (STurn tt 0 5); YProgress (STurn tt 0 6)].
Definition mcmc_own := mcmc_implem B64Num (tracked (euclid_space B64Num)) (fun x _ => b64_mul x x) (fun x => x) (fun x => x) 2 (dirac B64Num) conf64 (use_given (tracked (euclid_space B64Num))) (fun x => x).
Definition mcmc_own0 : mimpl (bool * list b64) b64 :=
  match new_mcmc B64Num (@nil (bool * list b64)) 0 with Ok m => m | Panic => mkMimpl (mkBuffer [] [] InfiniteSize) [] 0 quarter quarter quarter 0 0 (mkProposal 0 [] quarter quarter) end.
Definition mcmc_own_session : list (sys_action (bool * list b64) (unit * draws b64 unit)) :=
  [YCall (YPush (mine [0]) 1) 1; YCall (YPush (mine [2]) 2) 2; YCall (YPush (mine [10]) 3) 3; YCall (YPlay (mdraw quarter quarter)) 4;
   YProgress (STurn (mdraw (b64_div (b64_of_Z 3) (b64_of_Z 4)) (b64_of_Z 0)) 0 5); YProgress (STurn (mdraw quarter (b64_of_Z 0)) 0 6)].
(** The marks of the published centroids. *)
Definition marks {E I} (r : option (seq_st (list (bool * E)) * I)) : option (list bool) :=
  match r with Some (q, _) => option_map (map fst) (m_centroids (q_model q)) | None => None end.
(** Results as shown by the Examples of C107. *)
Definition shown (r : outcome (list b64)) := match r with Ok v => Ok (map show64 v) | Panic => Panic end.
Definition shown_mem {A : Type} (r : outcome (list (list b64) * A)) := match r with Ok (m, a) => Ok (map (map show64) m, a) | Panic => Panic end.
