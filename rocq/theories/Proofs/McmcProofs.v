(** Proofs about the MCMC implementation. *)
From Coq Require Import List ZArith Lia Bool Reals Lra.
From Verif Require Import Base.Go Base.Num Model.Clustering Model.Par Model.Buffer Model.Kmeans
  Model.KmeansInit Model.Mcmc Spec.McmcSpec Proofs.GoLemmas Proofs.NumLaws.
Import ListNotations.
Local Open Scope Z_scope.

(** ** Generic *)
Lemma obind_ok {A B} (m : outcome A) (f : A -> outcome B) b :
  obind m f = Ok b -> exists a, m = Ok a /\ f a = Ok b.
Proof. destruct m as [a|]; cbn; [eauto|discriminate]. Qed.

Lemma ofold_inv {A S} (f : S -> A -> outcome S) (Inv : S -> Prop) l : forall s s',
  Inv s -> (forall s x s', Inv s -> In x l -> f s x = Ok s' -> Inv s') ->
  ofold f l s = Ok s' -> Inv s'.
Proof.
  induction l as [|x l IH]; intros s s' H0 Hs H; cbn in H; [injection H as <-; exact H0|].
  apply obind_ok in H. destruct H as (s1 & H1 & H2). apply (IH s1); [|intros; eapply Hs; eauto; right; assumption|exact H2].
  apply (Hs s x); [exact H0|left; reflexivity|exact H1].
Qed.

Lemma sset_length {A} (l : list A) i a l' : sset l i a = Ok l' -> length l' = length l.
Proof.
  unfold sset. destruct (i <? 0); [discriminate|]. destruct (Nat.ltb _ _); [|discriminate]. intros [= <-]. apply upd_length.
Qed.

Lemma map_Some_inj {A} : forall l1 l2 : list A, map Some l1 = map Some l2 -> l1 = l2.
Proof. induction l1 as [|a l1 IH]; intros [|b l2] H; try discriminate; [reflexivity|]. cbn in H. injection H as -> H. f_equal. auto. Qed.

Lemma somes_ok {E} : forall (l : list (option E)) c, somes l = Ok c -> l = map Some c.
Proof.
  induction l as [|[x|] l IH]; intros c H; cbn in H; try discriminate; [injection H as <-; reflexivity|].
  apply obind_ok in H. destruct H as (y & Hy & [= <-]). cbn. f_equal. auto.
Qed.

Lemma somes_map {E} : forall (c : list E), somes (map Some c) = Ok c.
Proof. induction c as [|x c IH]; cbn; [reflexivity|]. rewrite IH. reflexivity. Qed.

Lemma omap_length {A B} (f : A -> outcome B) l : forall r, omap f l = Ok r -> length r = length l.
Proof.
  induction l as [|x l IH]; intros r H; cbn in H; [injection H as <-; reflexivity|].
  apply obind_ok in H. destruct H as (y & _ & H). apply obind_ok in H. destruct H as (ys & Hys & [= <-]). cbn. f_equal. auto.
Qed.

(** ** The initializers are exact *)
Section Exact.
Context {E F : Type} (N : Num F) (Sp : Space E F).

Lemma check_none k (l : list E) : check k l = None -> 1 <= k <= Z.of_nat (length l).
Proof. unfold check, slen. destruct (Z.ltb_spec k 1); [discriminate|]. destruct (Z.ltb_spec (Z.of_nat (length l)) k); [discriminate|]. lia. Qed.

Lemma given_loop_length elemts : forall n i cs, given_loop Sp n i elemts = Ok cs ->
  exists c, cs = map Some c /\ length c = n.
Proof.
  induction n as [|n IH]; intros i cs H; cbn [given_loop] in H; [injection H as <-; exists []; auto|].
  apply obind_ok in H. destruct H as (e & _ & H). apply obind_ok in H. destruct H as (r & Hr & [= <-]).
  destruct (IH _ _ Hr) as (c & -> & Hc). exists (scopy Sp e :: c). split; [reflexivity|]. cbn. lia.
Qed.

Lemma given_exact : init_exact (use_given Sp).
Proof.
  intros i k data cs. unfold use_given, given_initializer. destruct (check k data) eqn:Hc; [discriminate|]. intros H.
  apply obind_ok in H. destruct H as (c & H & [= <-]). destruct (given_loop_length _ _ _ _ H) as (c' & -> & Hl).
  exists c'. pose proof (check_none _ _ Hc). split; [reflexivity|]. lia.
Qed.

Lemma pp_loop_length degree elemts rs : forall n i found r,
  pp_loop N Sp degree n i found elemts rs = Ok (r, None) -> length r = (length found + n)%nat.
Proof.
  induction n as [|n IH]; intros i found r H; cbn [pp_loop] in H; [injection H as <-; lia|].
  apply obind_ok in H. destruct H as ([c e] & _ & H). cbn [snd fst] in H. destruct e; [discriminate|].
  apply IH in H. rewrite app_length in H. cbn in H. lia.
Qed.

Lemma pp_exact degree : init_exact (use_pp N Sp degree).
Proof.
  intros i k data cs. unfold use_pp, pp_initializer. intros H. apply obind_ok in H. destruct H as (z & _ & H).
  destruct (check k data) eqn:Hc; [discriminate|]. apply obind_ok in H. destruct H as (c0 & _ & H).
  apply obind_ok in H. destruct H as ([found err] & H & H'). injection H' as <- ->.
  apply pp_loop_length in H. cbn [length] in H. pose proof (check_none _ _ Hc).
  exists found. replace (Z.to_nat k - length found)%nat with 0%nat by lia. cbn. rewrite app_nil_r. split; [reflexivity|]. lia.
Qed.

Lemma rand_loop_length elemts : forall draws n chosen cs r,
  rand_loop Sp draws n elemts chosen cs = Some (Ok r) -> length r = (length cs + n)%nat.
Proof.
  induction draws as [|d draws IH]; intros [|n] chosen cs r H; cbn [rand_loop] in H; try discriminate; try (injection H as <-; lia).
  destruct (existsb (Z.eqb d) chosen); [apply IH in H; exact H|]. destruct (sget elemts d); [|discriminate].
  apply IH in H. rewrite app_length in H. cbn in H. lia.
Qed.

Lemma rand_exact : init_exact (use_rand Sp).
Proof.
  intros i k data cs. unfold use_rand, rand_initializer. destruct (smake None k); [|discriminate].
  destruct (check k data) eqn:Hc; [discriminate|]. destruct (rand_loop Sp i (Z.to_nat k) data [] []) as [[c|]|] eqn:H; try discriminate.
  intros [= <-]. apply rand_loop_length in H. cbn [length] in H. pose proof (check_none _ _ Hc). exists c. split; [reflexivity|]. lia.
Qed.

Lemma initializers_exact : init_exact (use_given Sp) /\ init_exact (use_rand Sp) /\ forall degree, init_exact (use_pp N Sp degree).
Proof. split; [exact given_exact|]. split; [exact rand_exact|exact pp_exact]. Qed.
End Exact.

(** ** Lengths *)
Section Lengths.
Context {E F G : Type} (N : Num F) (Sp : Space E F).

Lemma dba_add_length label x st st' : dba_add Sp label x st = Ok st' -> length (fst st') = length (fst st).
Proof.
  destruct st as [means cards]. unfold dba_add. intros H. apply obind_ok in H. destruct H as (n & _ & H). destruct (n =? 0).
  - apply obind_ok in H. destruct H as (m1 & H1 & H). apply obind_ok in H. destruct H as (c1 & _ & [= <-]). apply (sset_length _ _ _ _ H1).
  - apply obind_ok in H. destruct H as ([m|] & _ & H); [|discriminate].
    apply obind_ok in H. destruct H as (m1 & H1 & H). apply obind_ok in H. destruct H as (c1 & _ & [= <-]). apply (sset_length _ _ _ _ H1).
Qed.

Lemma reduce_dba_length c xs r : reduce_dba N Sp c xs = Ok r -> length (fst r) = length c.
Proof.
  unfold reduce_dba. intros H. apply (ofold_inv _ (fun st => length (fst st) = length c)) in H; [exact H|apply repeat_length|].
  intros st x st' Hst _ Hx. apply obind_ok in Hx. destruct Hx as ([[a ix] d] & _ & Hx). apply dba_add_length in Hx. congruence.
Qed.

Lemma dba_combine_length a o r : dba_combine Sp a o = Ok r -> length (fst r) = length (fst a).
Proof.
  unfold dba_combine. intros H. apply (ofold_inv _ (fun st => length (fst st) = length (fst a))) in H; [exact H|reflexivity|].
  intros [dbas cards] i st' Hst _ Hx. cbn [fst] in Hst.
  apply obind_ok in Hx. destruct Hx as (ci & _ & Hx). destruct (ci =? 0).
  - apply obind_ok in Hx. destruct Hx as (od & _ & Hx). apply obind_ok in Hx. destruct Hx as (d1 & H1 & Hx).
    apply obind_ok in Hx. destruct Hx as (oc & _ & Hx). apply obind_ok in Hx. destruct Hx as (c1 & _ & [= <-]).
    apply sset_length in H1. cbn [fst]. congruence.
  - apply obind_ok in Hx. destruct Hx as (oc & _ & Hx). destruct (0 <? oc); [|injection Hx as <-; exact Hst].
    apply obind_ok in Hx. destruct Hx as ([ad|] & _ & Hx); apply obind_ok in Hx; destruct Hx as ([od|] & _ & Hx); try discriminate.
    apply obind_ok in Hx. destruct Hx as (d1 & H1 & Hx). apply obind_ok in Hx. destruct Hx as (c1 & _ & [= <-]).
    apply sset_length in H1. cbn [fst]. congruence.
Qed.

Lemma par_loop_length : forall n i start offset size degree rem,
  length (par_loop n i start offset size degree rem) = n.
Proof. induction n as [|n IH]; intros; cbn [par_loop length]; [reflexivity|]. f_equal. apply IH. Qed.

Lemma par_iterate_length degree c data r : par_iterate N Sp degree c data = Ok r -> length r = length c.
Proof.
  unfold par_iterate, par_reduce_dba. intros H. apply obind_ok in H. destruct H as (r0 & H & [= <-]).
  apply obind_ok in H. destruct H as (ranges & Hr & H). apply obind_ok in H. destruct H as (parts & Hp & H).
  apply obind_ok in H. destruct H as (aggr & Ha & H).
  assert (Hne : ranges <> []).
  { unfold par_ranges, idiv, imod in Hr. destruct (Z.eqb_spec degree 0); [discriminate|]. cbn [obind] in Hr.
    destruct (Z.ltb_spec degree 0); [discriminate|]. injection Hr as <-. intros Hnil.
    pose proof (par_loop_length (Z.to_nat degree) 0 0 (slen data ÷ degree) (slen data) degree (Z.rem (slen data) degree)) as Hl.
    rewrite Hnil in Hl. cbn in Hl. lia. }
  assert (Hlen : Forall (fun p : list (option E) * list Z => length (fst p) = length c) parts).
  { clear -Hp. revert parts Hp. induction ranges as [|[[s e] k] rs IH]; intros parts H; cbn [omap] in H; [injection H as <-; constructor|].
    apply obind_ok in H. destruct H as (y & Hy & H). apply obind_ok in H. destruct H as (ys & Hys & [= <-]).
    apply obind_ok in Hy. destruct Hy as (part & _ & Hy). constructor; [apply (reduce_dba_length _ _ _ Hy)|]. apply IH. exact Hys. }
  assert (Hpne : parts <> []) by (intros ->; apply omap_length in Hp; destruct ranges; [contradiction|discriminate]).
  assert (Hal : length (fst aggr) = length c).
  { unfold dba_aggregate in Ha. apply obind_ok in Ha. destruct Ha as (oa & Ho & Ha).
    destruct parts as [|p parts]; [contradiction|]. cbn [ofold dba_aggregate_step obind] in Ho. inversion Hlen as [|? ? Hl1 Hl2]; subst.
    apply (ofold_inv _ (fun a => match a with Some a => length (fst a) = length c | None => False end)) in Ho.
    - destruct oa as [a|]; [|contradiction]. injection Ha as <-. exact Ho.
    - exact Hl1.
    - intros [a|] q s' Hs _ Hq; [|contradiction]. cbn [dba_aggregate_step] in Hq. apply obind_ok in Hq. destruct Hq as (r & Hq & [= <-]).
      apply dba_combine_length in Hq. congruence. }
  unfold build_result in H. apply obind_ok in H. destruct H as (res & H & [= <-]). cbn [fst].
  apply (ofold_inv _ (fun l : list (option E) => length l = length c)) in H; [exact H|rewrite repeat_length; exact Hal|].
  intros l i l' Hl _ Hx. apply obind_ok in Hx. destruct Hx as (ci & _ & Hx).
  destruct (0 <? ci); apply obind_ok in Hx; destruct Hx as (d & _ & Hx); apply sset_length in Hx; congruence.
Qed.

Lemma strategy_iter_length cpus data : forall n c r, strategy_iter N Sp cpus n c data = Ok r -> length r = length c.
Proof.
  induction n as [|n IH]; intros c r H; cbn [strategy_iter] in H; [injection H as <-; reflexivity|].
  apply obind_ok in H. destruct H as (p & Hp & H). apply obind_ok in H. destruct H as (c1 & H1 & H).
  apply par_iterate_length in Hp. apply somes_ok in H1. subst p. rewrite map_length in Hp. apply IH in H. congruence.
Qed.

Lemma alter_length (D : distrib E F G) time g : forall c i r, alter_loop D c time g i = Ok r -> length r = length c.
Proof.
  induction c as [|x c IH]; intros i r H; cbn [alter_loop] in H; [injection H as <-; reflexivity|].
  apply obind_ok in H. destruct H as (y & _ & H). apply obind_ok in H. destruct H as (ys & Hys & [= <-]). cbn. f_equal. eauto.
Qed.

Lemma add_center_length cpus data prev r c e : add_center N Sp cpus data prev r = Ok (c, e) -> length c = S (length prev).
Proof.
  unfold add_center. intros H. apply obind_ok in H. destruct H as (ce & _ & [= <- _]). rewrite app_length, map_length. cbn. lia.
Qed.

Lemma del_center_length prev del c : del_center Sp prev del = Ok c -> S (length c) = length prev.
Proof.
  unfold del_center, slen. destruct (Z.leb_spec (Z.of_nat (length prev)) 0); [discriminate|]. intros Hm. apply omap_length in Hm.
  rewrite map_length, seq_length in Hm. lia.
Qed.

Lemma store_push_data (b : buffer E) x b' : store b x = Ok b' -> (length (bdata b) <= length (bdata b'))%nat.
Proof.
  unfold store. intros H. apply obind_ok in H. destruct H as ([s data] & H & [= <-]). cbn [bdata].
  destruct (bstrategy b) as [size pos|]; cbn [strategy_push] in H.
  - destruct (_ <? slen (bdata b)).
    + apply obind_ok in H. destruct H as (d & Hd & [= _ <-]). apply sset_length in Hd. lia.
    + injection H as _ <-. rewrite app_length. lia.
  - injection H as _ <-. rewrite app_length. lia.
Qed.

Lemma apply_data (b b' : buffer E) : buffer_apply b = Ok b' -> (length (bdata b) <= length (bdata b'))%nat.
Proof.
  unfold buffer_apply. intros H. apply (ofold_inv _ (fun b1 => length (bdata b) <= length (bdata b1))%nat) in H; [exact H|cbn; lia|].
  intros s x s' Hs _ Hx. apply store_push_data in Hx. lia.
Qed.

Lemma push_data (b : buffer E) x alive b' : buffer_push b x alive = Some (Ok b') -> (length (bdata b) <= length (bdata b'))%nat.
Proof.
  unfold buffer_push. destruct alive.
  - destruct (_ <? _); [|discriminate]. intros [= <-]. cbn. lia.
  - intros [= H]. apply (store_push_data _ _ _ H).
Qed.

End Lengths.

(** ** The invariant *)
Section Invariant.
Context {E F G I : Type} (N : Num F) (Sp : Space E F).
Variables (pow : F -> F -> F) (log exp : F -> F) (cpus : Z) (D : distrib E F G) (conf : mparams F).
Variable initializer : I -> Z -> list E -> outcome (list (option E) * option init_error).

Notation mstep := (mstep N Sp pow log exp cpus D conf initializer).
Notation msteps := (msteps N Sp pow log exp cpus D conf initializer).

Definition store_ok (s : list (Z * list E)) : Prop := forall k c, store_get s k = Some c -> Z.of_nat (length c) = k.

Lemma store_set_ok s c : store_ok s -> store_ok (store_set s c).
Proof.
  intros H k c'. cbn. unfold slen. destruct (Z.eqb_spec (Z.of_nat (length c)) k); [intros [= <-]; assumption|apply H].
Qed.

Lemma next_k_bounds k (data : list E) r k' : 1 <= k <= mp_max_k conf -> k <= slen data ->
  next_k N conf k data r = Ok k' -> 1 <= k' <= mp_max_k conf /\ k' <= slen data /\ Z.abs (k' - k) <= 1.
Proof.
  intros Hk Hd H. unfold next_k in H. apply obind_ok in H. destruct H as ([i e] & _ & H). cbn [fst] in H.
  apply obind_ok in H. destruct H as (d & Hi & [= <-]).
  assert (Hdd : d = -1 \/ d = 0 \/ d = 1).
  { apply sget_ok in Hi. destruct Hi as [_ Hi]. apply nth_error_In in Hi. cbn in Hi. intuition. }
  destruct (Z.ltb_spec (k + d) 1); [lia|]. destruct (Z.ltb_spec (mp_max_k conf) (k + d)); [lia|].
  destruct (Z.ltb_spec (slen data) (k + d)); lia.
Qed.

Lemma get_centers_length s data k c r del c' e : store_ok s -> Z.abs (k - slen c) <= 1 ->
  get_centers N Sp cpus s data k c r del = Ok (c', e) -> slen c' = k.
Proof.
  intros Hs Hk H. unfold get_centers in H. destruct (store_get s k) as [c0|] eqn:Hg.
  - injection H as <- <-. apply (Hs _ _ Hg).
  - unfold gen_centers, slen in *. destruct (Z.ltb_spec (Z.of_nat (length c)) k).
    + apply add_center_length in H. lia.
    + destruct (Z.ltb_spec k (Z.of_nat (length c))).
      * apply obind_ok in H. destruct H as (c1 & Hdc & [= <- _]). apply del_center_length in Hdc. lia.
      * injection H as <- _. lia.
Qed.

Lemma propose_k m cur c data time dr p : store_ok (mi_store m) -> pr_k cur = slen c ->
  1 <= slen c <= mp_max_k conf -> slen c <= slen data ->
  propose N Sp pow cpus D conf m cur c data time dr = Ok p ->
  pr_k p = slen (pr_centers p) /\ 1 <= pr_k p <= mp_max_k conf /\ pr_k p <= slen data /\ Z.abs (pr_k p - slen c) <= 1.
Proof.
  intros Hs Hc Hb Hd H. unfold propose in H. apply obind_ok in H. destruct H as ([k c1] & Hk & H).
  apply obind_ok in H. destruct H as (c2 & H2 & H). apply obind_ok in H. destruct H as (c3 & H3 & H).
  apply obind_ok in H. destruct H as (l & _ & H). apply obind_ok in H. destruct H as (pdf & _ & [= <-]). cbn [pr_k pr_centers].
  apply alter_length in H2. apply strategy_iter_length in H3.
  assert (Hk1 : slen c1 = k /\ 1 <= k <= mp_max_k conf /\ k <= slen data /\ Z.abs (k - slen c) <= 1).
  { unfold get_k_centers in Hk. apply obind_ok in Hk. destruct Hk as (k0 & Hn & Hk). rewrite Hc in *.
    destruct (next_k_bounds _ _ _ _ Hb Hd Hn) as (B1 & B2 & B3).
    apply obind_ok in Hk. destruct Hk as ([c0 e0] & Hg & Hk). cbn [snd fst] in Hk. destruct e0.
    - apply obind_ok in Hk. destruct Hk as ([c0' e0'] & Hg' & [= <- <-]). cbn [fst].
      apply get_centers_length in Hg'; [|exact Hs|lia]. lia.
    - injection Hk as <- <-. apply get_centers_length in Hg; [|exact Hs|lia]. lia. }
  unfold slen in *. lia.
Qed.

Definition good_current (m : mimpl E F) (c : list E) : Prop :=
  pr_centers (mi_current m) = c /\ pr_k (mi_current m) = slen c /\
  1 <= slen c <= mp_max_k conf /\ slen c <= slen (bdata (mi_buffer m)).

Definition ready_ok (s : @msys E F) : Prop :=
  ms_ready s = true -> exists c, ms_centroids s = map Some c /\ good_current (ms_impl s) c.

Lemma iterate_inv m c dr m' c' f : store_ok (mi_store m) -> good_current m c ->
  mcmc_iterate N Sp pow log exp cpus D conf m c dr = Ok (m', c', f) ->
  store_ok (mi_store m') /\ good_current m' c' /\ Z.abs (slen c' - slen c) <= 1 /\
  mi_acc m' = mi_acc m + (if nltb N (d_u dr) (f_rho f) then 1 else 0) /\
  f_acceptations f = mi_acc m' /\ slen (bdata (mi_buffer m)) <= slen (bdata (mi_buffer m')).
Proof.
  intros Hs (G1 & G2 & G3 & G4) H. unfold mcmc_iterate in H. apply obind_ok in H. destruct H as ([m1 c1] & Hd & H).
  apply obind_ok in H. destruct H as (b & Hb & [= <- <- <-]). unfold do_iter in Hd.
  apply obind_ok in Hd. destruct Hd as (p & Hp & Hd). unfold accept in Hd.
  destruct (accept_figures N log exp conf (mi_dim m) (mi_current m) p (slen (bdata (mi_buffer m)))) as [[lambda rho] rgibbs].
  destruct (propose_k _ _ _ _ _ _ _ Hs G2 G3 G4 Hp) as (P1 & P2 & P3 & P4).
  apply apply_data in Hb. unfold good_current, set_buffer, mruntime_figures.
  destruct (nltb N (d_u dr) rho) eqn:Hu; injection Hd as <- <-; cbn in *; rewrite Hu; unfold slen in *.
  - split; [apply store_set_ok; exact Hs|]. repeat split; lia.
  - split; [exact Hs|]. repeat split; try lia; assumption.
Qed.

Hypothesis Hexact : init_exact initializer.
Hypothesis Hk : mp_init_k conf <= mp_max_k conf.

Lemma step_inv s e o s' : store_ok (mi_store (ms_impl s)) -> ready_ok s -> mstep s e o s' ->
  store_ok (mi_store (ms_impl s')) /\ ready_ok s' /\
  mi_acc (ms_impl s') = mi_acc (ms_impl s) + accepted N [o] /\
  data_size s <= data_size s' /\
  (forall u f, o = OutFigures u f -> Z.abs (n_centroids s' - n_centroids s) <= 1 /\ f_acceptations f = mi_acc (ms_impl s')).
Proof.
  intros Hs Hr H. inversion H as [s0 x alive b Hb|s0 i m cs err Hi|s0 dr c m c' f Hrdy Hc Hi|s0 dr c Hrdy Hc Hi]; subst; clear H.
  - pose proof (push_data _ _ _ _ Hb) as Hl. cbn. split; [exact Hs|]. split.
    + intros Hrdy. destruct (Hr Hrdy) as (c & Hc & G1 & G2 & G3 & G4). exists c. split; [exact Hc|].
      unfold good_current. cbn. unfold slen in *. repeat split; try assumption; lia.
    + unfold accepted, data_size. cbn. split; [lia|]. split; [lia|]. discriminate.
  - unfold mcmc_init in Hi. apply obind_ok in Hi. destruct Hi as (b & Hb & Hi). pose proof (apply_data _ _ Hb) as Hl.
    apply obind_ok in Hi. destruct Hi as ([cs0 err0] & Hini & Hi). destruct err0 as [e0|].
    + injection Hi as <- <- <-. cbn. split; [exact Hs|]. split; [discriminate|].
      unfold accepted, data_size. cbn. split; [lia|]. split; [lia|]. discriminate.
    + apply obind_ok in Hi. destruct Hi as (c & Hso & Hi). apply obind_ok in Hi. destruct Hi as (l & _ & Hi).
      apply obind_ok in Hi. destruct Hi as (p & _ & [= <- <- <-]). cbn. split; [exact Hs|]. split.
      * intros _. apply somes_ok in Hso. cbn. exists c. split; [exact Hso|]. unfold good_current. cbn.
        destruct (Hexact _ _ _ _ Hini) as (c1 & E1 & E2 & E3). rewrite Hso in E1. apply map_Some_inj in E1. subst c1.
        unfold slen. repeat split; lia.
      * unfold accepted, data_size. cbn. split; [lia|]. split; [lia|]. discriminate.
  - destruct (Hr Hrdy) as (c0 & Hc0 & Hg). rewrite Hc in Hc0. apply map_Some_inj in Hc0. subst c0.
    destruct (iterate_inv _ _ _ _ _ _ Hs Hg Hi) as (I1 & I2 & I3 & I4 & I5 & I6). cbn. split; [exact I1|]. split; [intros _; exists c'; split; [reflexivity|exact I2]|].
    split; [|split; [exact I6|]].
    + rewrite I4. unfold accepted. cbn [filter]. destruct (nltb N (d_u dr) (f_rho f)); reflexivity.
    + intros u f0 [= _ <-]. split; [|exact I5]. unfold n_centroids. cbn. rewrite Hc, !map_length. exact I3.
  - cbn. split; [exact Hs|]. split; [discriminate|]. unfold accepted, data_size. cbn. split; [lia|]. split; [lia|]. discriminate.
Qed.

Lemma accepted_cons o (os : list (@mout F)) : accepted N (o :: os) = accepted N [o] + accepted N os.
Proof. unfold accepted. cbn [filter]. destruct o as [| | |]; cbn [length]; try lia. destruct (nltb N u (f_rho f)); cbn [length]; lia. Qed.

Lemma accepted_app (os os' : list (@mout F)) : accepted N (os ++ os') = accepted N os + accepted N os'.
Proof. induction os as [|o os IH]; [reflexivity|]. cbn [app]. rewrite accepted_cons, IH, (accepted_cons o os). lia. Qed.

Lemma accepted_le (os : list (@mout F)) : 0 <= accepted N os <= iterations_done os.
Proof.
  unfold accepted, iterations_done. induction os as [|o os IH]; cbn [filter]; [cbn; lia|].
  destruct o; cbn [length] in *; try lia. destruct (nltb N u (f_rho f)); cbn [length]; lia.
Qed.

Lemma steps_inv s es os s' : store_ok (mi_store (ms_impl s)) -> ready_ok s -> msteps s es os s' ->
  store_ok (mi_store (ms_impl s')) /\ ready_ok s' /\ mi_acc (ms_impl s') = mi_acc (ms_impl s) + accepted N os.
Proof.
  intros Hs Hr H. induction H as [s|s e o s1 es os s2 H1 H2 IH]; [split; [exact Hs|]; split; [exact Hr|]; unfold accepted; cbn; lia|].
  destruct (step_inv _ _ _ _ Hs Hr H1) as (A1 & A2 & A3 & _). destruct (IH A1 A2) as (B1 & B2 & B3).
  split; [exact B1|]. split; [exact B2|]. rewrite B3, A3, (accepted_cons o os). lia.
Qed.

Lemma new_inv data fs s : new_msys N data fs = Ok s -> store_ok (mi_store (ms_impl s)) /\ ready_ok s /\ mi_acc (ms_impl s) = 0.
Proof.
  unfold new_msys, new_mcmc. intros H. apply obind_ok in H. destruct H as (m & H & [= <-]).
  apply obind_ok in H. destruct H as (b & _ & [= <-]). cbn. split; [intros k c; discriminate|]. split; [discriminate|reflexivity].
Qed.

End Invariant.

Lemma bounds_main : forall E F G I (N : Num F) (Sp : Space E F) pow log exp cpus (D : distrib E F G) conf
  (initializer : I -> Z -> list E -> outcome (list (option E) * option init_error)),
  init_exact initializer -> mp_init_k conf <= mp_max_k conf ->
  forall data frame_size s0 es os s,
  new_msys N data frame_size = Ok s0 ->
  msteps N Sp pow log exp cpus D conf initializer s0 es os s ->
  (ms_ready s = true -> 1 <= n_centroids s <= Z.min (mp_max_k conf) (data_size s)) /\
  forall dr o s', mstep N Sp pow log exp cpus D conf initializer s (EvIterate dr) o s' ->
    (exists u f, o = OutFigures u f /\ ms_ready s' = true /\
       1 <= n_centroids s' <= Z.min (mp_max_k conf) (data_size s') /\ Z.abs (n_centroids s' - n_centroids s) <= 1) \/
    (o = OutPanic /\ ms_ready s' = false).
Proof.
  intros E F G I N Sp pow log exp cpus D conf ini Hex Hk data fs s0 es os s H0 H.
  destruct (new_inv N conf _ _ _ H0) as (A1 & A2 & _).
  destruct (steps_inv N Sp pow log exp cpus D conf ini Hex Hk _ _ _ _ A1 A2 H) as (B1 & B2 & _).
  assert (HR : forall s : @msys E F, ready_ok conf s -> ms_ready s = true -> 1 <= n_centroids s <= Z.min (mp_max_k conf) (data_size s)).
  { clear. intros s Hr Hrdy. destruct (Hr Hrdy) as (c & Hc & _ & _ & G3 & G4). unfold n_centroids, data_size. rewrite Hc, map_length. unfold slen in *. lia. }
  split; [apply HR; exact B2|]. intros dr o s' Hst.
  destruct (step_inv N Sp pow log exp cpus D conf ini Hex Hk _ _ _ _ B1 B2 Hst) as (C1 & C2 & C3 & C4 & C5).
  inversion Hst; subst.
  - left. destruct (C5 _ _ eq_refl) as [C6 _]. do 2 eexists. split; [reflexivity|]. split; [reflexivity|]. split; [|exact C6].
    apply HR; [exact C2|reflexivity].
  - right. auto.
Qed.

Lemma bookkeeping_main : forall E F G I (N : Num F) (Sp : Space E F) pow log exp cpus (D : distrib E F G) conf
  (initializer : I -> Z -> list E -> outcome (list (option E) * option init_error)),
  init_exact initializer -> mp_init_k conf <= mp_max_k conf ->
  forall data frame_size s0 es os s,
  new_msys N data frame_size = Ok s0 ->
  msteps N Sp pow log exp cpus D conf initializer s0 es os s ->
  (ms_ready s = true ->
     ms_centroids s = map Some (pr_centers (mi_current (ms_impl s))) /\
     pr_k (mi_current (ms_impl s)) = n_centroids s) /\
  (forall k c, store_get (mi_store (ms_impl s)) k = Some c -> Z.of_nat (length c) = k) /\
  mi_acc (ms_impl s) = accepted N os /\ accepted N os <= iterations_done os /\
  (forall before u f after, os = before ++ OutFigures u f :: after ->
     f_acceptations f = accepted N (before ++ [OutFigures u f])).
Proof.
  intros E F G I N Sp pow log exp cpus D conf ini Hex Hk data fs s0 es os s H0 H.
  destruct (new_inv N conf _ _ _ H0) as (A1 & A2 & A3).
  destruct (steps_inv N Sp pow log exp cpus D conf ini Hex Hk _ _ _ _ A1 A2 H) as (B1 & B2 & B3).
  split; [|split; [exact B1|split; [lia|split; [apply accepted_le|]]]].
  - intros Hr. destruct (B2 Hr) as (c & Hc & G1 & G2 & _). rewrite G1, G2. split; [exact Hc|]. unfold n_centroids. rewrite Hc, map_length. reflexivity.
  - intros before u f after ->. clear B1 B2 B3.
    assert (Hgen : forall s1 es s before acc0, store_ok (mi_store (ms_impl s1)) -> ready_ok conf s1 -> mi_acc (ms_impl s1) = acc0 ->
      msteps N Sp pow log exp cpus D conf ini s1 es (before ++ OutFigures u f :: after) s ->
      f_acceptations f = acc0 + accepted N (before ++ [OutFigures u f])).
    { clear -Hex Hk. intros s1 es s before. revert s1 es. induction before as [|o before IH]; intros s1 es acc0 A1 A2 A3 H; cbn [app] in H.
      - inversion H as [|? ? ? s2 ? ? ? H1 H2]; subst. destruct (step_inv N Sp pow log exp cpus D conf ini Hex Hk _ _ _ _ A1 A2 H1) as (_ & _ & C3 & _ & C5).
        destruct (C5 _ _ eq_refl) as [_ C6]. cbn [app]. lia.
      - inversion H as [|? ? ? s2 ? ? ? H1 H2]; subst. destruct (step_inv N Sp pow log exp cpus D conf ini Hex Hk _ _ _ _ A1 A2 H1) as (C1 & C2 & C3 & _).
        rewrite (IH s2 _ _ C1 C2 eq_refl H2). cbn [app]. rewrite (accepted_cons N o (before ++ _)). lia. }
    rewrite (Hgen s0 es s before 0 A1 A2 A3 H). lia.
Qed.
