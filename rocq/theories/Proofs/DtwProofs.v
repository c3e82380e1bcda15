(** Dynamic time warping: the cost matrix and the path (C46-C48). *)
From Coq Require Import List ZArith Lia Bool.
From Verif Require Import Base.Go Base.Num Model.Clustering Model.Dtw Spec.DtwSpec Proofs.GoLemmas.
Import ListNotations.
Local Open Scope Z_scope.

Lemma zrange_empty lo hi : hi < lo -> zrange lo hi = [].
Proof. intros H. unfold zrange. replace (Z.to_nat (hi - lo + 1)) with O by lia. reflexivity. Qed.
Lemma zrange_cons lo hi : lo <= hi -> zrange lo hi = lo :: zrange (lo + 1) hi.
Proof.
  intros H. unfold zrange. replace (Z.to_nat (hi - lo + 1)) with (S (Z.to_nat (hi - (lo + 1) + 1))) by lia.
  cbn [List.seq map]. f_equal; [lia|]. rewrite <- List.seq_shift, map_map. apply map_ext. intros. lia.
Qed.
Lemma zrange_length lo hi : length (zrange lo hi) = Z.to_nat (hi - lo + 1).
Proof. unfold zrange. now rewrite map_length, seq_length. Qed.
Lemma zrange_nth lo hi n : (n < Z.to_nat (hi - lo + 1))%nat -> nth_error (zrange lo hi) n = Some (lo + Z.of_nat n).
Proof.
  intros H. unfold zrange. rewrite nth_error_map.
  rewrite (nth_error_nth' _ O) by (now rewrite seq_length). now rewrite seq_nth by exact H.
Qed.

Lemma ofold_zrange {S : Type} (f : S -> Z -> outcome S) (I : Z -> S -> Prop) hi :
  forall n lo s, n = Z.to_nat (hi - lo + 1) -> lo <= hi + 1 -> I lo s ->
  (forall i s, lo <= i <= hi -> I i s -> exists s', f s i = Ok s' /\ I (i + 1) s') ->
  exists s', ofold f (zrange lo hi) s = Ok s' /\ I (hi + 1) s'.
Proof.
  induction n as [|n IH]; intros lo s Hn Hlo HI Hf.
  - rewrite zrange_empty by lia. exists s. split; [reflexivity|]. now replace (hi + 1) with lo by lia.
  - rewrite zrange_cons by lia. destruct (Hf lo s) as (s1 & H1 & I1); [lia|exact HI|].
    cbn [ofold]. rewrite H1. cbn [obind]. apply IH; [lia|lia|exact I1|].
    intros i s' Hi. apply Hf. lia.
Qed.

Lemma sget_in {A} (l : list A) i d : 0 <= i < slen l -> sget l i = Ok (nth (Z.to_nat i) l d).
Proof. unfold slen. intros H. rewrite <- (Z2Nat.id i) at 1 by lia. apply sget_nth. lia. Qed.
Lemma sset_in {A} (l : list A) i a : 0 <= i < slen l -> sset l i a = Ok (upd l (Z.to_nat i) a).
Proof.
  unfold slen, sset. intros H. destruct (Z.ltb_spec i 0); [lia|].
  destruct (Nat.ltb_spec (Z.to_nat i) (length l)); [reflexivity|lia].
Qed.

(** What the computation needs of float64 addition and comparison. *)
Record CostNum {F : Type} (N : Num F) (inf : F) (nn : F -> Prop) : Prop := mkCostNum {
  cn_inf : nn inf;
  cn_zero : nn (nof N 0);
  cn_add : forall x y, nn x -> nn y -> nn (nadd N x y);
  cn_leb0 : forall x, nn x -> nleb N (nof N 0) x = true;
  cn_top : forall x, nn x -> nleb N x inf = true;
  cn_total : forall x y, nn x -> nn y -> nleb N x y = true \/ nleb N y x = true;
  cn_trans : forall x y z, nn x -> nn y -> nn z -> nleb N x y = true -> nleb N y z = true -> nleb N x z = true;
  cn_antisym : forall x y, nn x -> nn y -> nleb N x y = true -> nleb N y x = true -> x = y;
  cn_mono : forall x y d, nn x -> nn y -> nn d -> nleb N x y = true -> nleb N (nadd N x d) (nadd N y d) = true;
  cn_add0 : nadd N (nof N 0) (nof N 0) = nof N 0
}.

Lemma wpath_ne al c p : wpath al c p -> p <> [].
Proof. destruct 1; [discriminate|]. intros E. apply app_eq_nil in E. destruct E; discriminate. Qed.
Lemma wpath_nonneg al c p : wpath al c p -> 0 <= fst c /\ 0 <= snd c.
Proof. induction 1 as [|c p c' Hp IH Hs Ha]; cbn; [lia|]. unfold wstep in Hs. lia. Qed.
Lemma wpath_allowed al c p : wpath al c p -> al c.
Proof. destruct 1; assumption. Qed.

Section Matrix.
Context {P F : Type} (N : Num F) (inf : F) (pdist : P -> P -> F) (p0 : P).
Variables (s1 s2 : list P) (w : Z).
Let l1 := slen s1.
Let l2 := slen s2.
Let stride := eff_stride w l2.
Hypothesis (Hl1 : 1 <= l1) (Hl2 : 1 <= l2) (Hw : 1 <= w) (Hd1 : l1 - l2 <= w) (Hd2 : l2 - l1 <= w).

Definition valid (i j : Z) : Prop := 0 <= i < l1 /\ 0 <= j < l2 /\ in_window w i j = true.

Lemma in_window_iff i j : in_window w i j = true <-> i - j <= w /\ j - i <= w.
Proof. unfold in_window. rewrite andb_true_iff, !Z.leb_le. reflexivity. Qed.
Lemma in_window_false i j : in_window w i j = false <-> w < i - j \/ w < j - i.
Proof. unfold in_window. rewrite andb_false_iff, !Z.leb_gt. reflexivity. Qed.

(** Offset of a cell in its row. *)
Definition offset (i j : Z) : Z := if w <? i then j - i + w else j.
Lemma ravel_offset i j : ravel w stride i j = i * stride + offset i j.
Proof. unfold ravel, offset. destruct (w <? i); reflexivity. Qed.
Lemma offset_range i j : valid i j -> 0 <= offset i j < stride.
Proof.
  intros (Hi & Hj & Hin). apply in_window_iff in Hin. unfold offset, stride, eff_stride.
  destruct (Z.ltb_spec w i), (Z.ltb_spec (2 * w + 1) l2); lia.
Qed.
Lemma ravel_range i j : valid i j -> 0 <= ravel w stride i j < l1 * stride.
Proof. intros H. pose proof (offset_range i j H). destruct H as (Hi & _). rewrite ravel_offset. nia. Qed.
Lemma ravel_inj i j i' j' : valid i j -> valid i' j' -> ravel w stride i j = ravel w stride i' j' -> i = i' /\ j = j'.
Proof.
  intros H H' E. pose proof (offset_range i j H) as O. pose proof (offset_range i' j' H') as O'.
  rewrite !ravel_offset in E.
  assert (i = i') by nia. subst i'. split; [reflexivity|].
  assert (Eo : offset i j = offset i j') by lia. unfold offset in Eo. destruct (w <? i); lia.
Qed.

Definition dcell (i j : Z) : F := at_cell pdist p0 s1 s2 (i, j).
Definition G (V : list F) (i j : Z) : F :=
  if in_window w i j then nth (Z.to_nat (ravel w stride i j)) V inf else inf.

Definition recval (V : list F) (i j : Z) : F :=
  if (i =? 0) && (j =? 0) then dcell i j
  else if i =? 0 then nadd N (G V i (j - 1)) (dcell i j)
  else if j =? 0 then nadd N (G V (i - 1) j) (dcell i j)
  else nadd N (min3 N (G V (i - 1) (j - 1)) (G V i (j - 1)) (G V (i - 1) j)) (dcell i j).

Definition before (i j i0 j0 : Z) : Prop := i < i0 \/ (i = i0 /\ j < j0).
Definition Inv (V : list F) (i0 j0 : Z) : Prop :=
  slen V = l1 * stride /\ forall i j, valid i j -> before i j i0 j0 -> G V i j = recval V i j.

Lemma cget_in V i j : slen V = l1 * stride -> 0 <= i < l1 -> 0 <= j < l2 -> cget inf w stride V i j = Ok (G V i j).
Proof.
  intros HV Hi Hj. unfold cget, G. destruct (in_window w i j) eqn:Hin; [|reflexivity].
  apply sget_in. rewrite HV. apply ravel_range. repeat split; try assumption; lia.
Qed.

Lemma G_upd_other V i0 j0 c i j : valid i0 j0 -> 0 <= i < l1 -> 0 <= j < l2 -> (i, j) <> (i0, j0) ->
  G (upd V (Z.to_nat (ravel w stride i0 j0)) c) i j = G V i j.
Proof.
  intros Hv Hi Hj Hne. unfold G. destruct (in_window w i j) eqn:Hin; [|reflexivity].
  assert (Hv' : valid i j) by (repeat split; assumption || lia).
  apply nth_upd_neq. intros E. apply Hne.
  pose proof (ravel_range i j Hv'). pose proof (ravel_range i0 j0 Hv).
  destruct (ravel_inj i j i0 j0 Hv' Hv); [lia|congruence].
Qed.

Lemma recval_upd V i0 j0 c i j : valid i0 j0 -> valid i j -> before i j i0 (j0 + 1) ->
  recval (upd V (Z.to_nat (ravel w stride i0 j0)) c) i j = recval V i j.
Proof.
  intros Hv Hv' Hb. destruct Hv' as (Hi & Hj & _). unfold recval.
  assert (Hne : forall a b, before a b i0 j0 -> (a, b) <> (i0, j0)) by (intros a b Hx E; injection E as -> ->; unfold before in Hx; lia).
  destruct (Z.eqb_spec i 0), (Z.eqb_spec j 0); cbn [andb]; try reflexivity;
  rewrite ?G_upd_other; try reflexivity; try assumption; try lia; apply Hne; unfold before in *; lia.
Qed.

Lemma cell_ok V i j : valid i j -> Inv V i j ->
  exists V', cell N inf pdist s1 s2 w stride V i j = Ok V' /\ Inv V' i (j + 1).
Proof.
  intros Hv [HV HI]. pose proof Hv as (Hi & Hj & Hin).
  exists (upd V (Z.to_nat (ravel w stride i j)) (recval V i j)). split.
  - unfold cell. rewrite (sget_in s1 i p0) by exact Hi. rewrite (sget_in s2 j p0) by exact Hj. cbn [obind].
    assert (Hset : sset V (ravel w stride i j) (recval V i j) = Ok (upd V (Z.to_nat (ravel w stride i j)) (recval V i j)))
      by (apply sset_in; rewrite HV; apply ravel_range; exact Hv).
    rewrite <- Hset. unfold recval, neighbor_costs.
    destruct (Z.eqb_spec i 0), (Z.eqb_spec j 0); cbn [andb];
      rewrite ?cget_in by (exact HV || lia); reflexivity.
  - split; [unfold slen in *; now rewrite upd_length|].
    intros a b Hab Hb. rewrite recval_upd by assumption.
    destruct (Z.eq_dec a i) as [->|Ha]; [destruct (Z.eq_dec b j) as [->|Hb']|].
    + unfold G. rewrite Hin. apply nth_upd_eq. pose proof (ravel_range i j Hv). unfold slen in HV. lia.
    + rewrite G_upd_other; [|exact Hv|destruct Hab; lia|destruct Hab; lia|congruence].
      apply HI; [exact Hab|unfold before in *; lia].
    + rewrite G_upd_other; [|exact Hv|destruct Hab; lia|destruct Hab; lia|congruence].
      apply HI; [exact Hab|unfold before in *; lia].
Qed.

Lemma row_bounds i j : 0 <= i < l1 -> (valid i j <-> row_left w i <= j <= row_right s2 w i).
Proof.
  intros Hi. unfold valid, row_left, row_right. fold l2.
  destruct (in_window w i 0) eqn:E0, (in_window w i (l2 - 1)) eqn:E1;
    rewrite ?in_window_iff, ?in_window_false in *; lia.
Qed.
Lemma row_nonempty i : 0 <= i < l1 -> 0 <= row_left w i <= row_right s2 w i + 1.
Proof.
  intros Hi. unfold row_left, row_right. fold l2.
  destruct (in_window w i 0) eqn:E0, (in_window w i (l2 - 1)) eqn:E1;
    rewrite ?in_window_iff, ?in_window_false in *; lia.
Qed.

Lemma cum_cost_ok : exists V, compute_cum_cost N inf pdist s1 s2 w stride = Ok V /\ Inv V l1 0.
Proof.
  unfold compute_cum_cost. fold l1.
  destruct (ofold_zrange (fun values i1 => ofold (fun values i2 => cell N inf pdist s1 s2 w stride values i1 i2)
     (zrange (row_left w i1) (row_right s2 w i1)) values) (fun i V => Inv V i 0) (l1 - 1)
     _ 0 (repeat (nof N 0) (Z.to_nat (l1 * stride))) eq_refl) as (V & HV & I).
  - lia.
  - split.
    + unfold slen. rewrite repeat_length. assert (0 <= stride) by (unfold stride, eff_stride; destruct (_ <? _); lia). nia.
    + intros i j (Hi & Hj & _) [H|H]; lia.
  - intros i V Hi [HV HI].
    destruct (ofold_zrange (fun values i2 => cell N inf pdist s1 s2 w stride values i i2) (fun j V => Inv V i j)
      (row_right s2 w i) _ (row_left w i) V eq_refl) as (V' & HV' & I').
    + pose proof (row_nonempty i). lia.
    + split; [exact HV|]. intros a b Hab Hb. apply HI; [exact Hab|]. destruct Hb as [Hb|[-> Hb]]; [left; lia|].
      exfalso. apply row_bounds in Hab; lia.
    + intros j V1 Hj HI1. apply cell_ok; [|exact HI1]. apply row_bounds; lia.
    + exists V'. split; [exact HV'|]. destruct I' as [L' I']. split; [exact L'|].
      intros a b Hab Hb. apply I'; [exact Hab|]. unfold before in *. destruct (Z.eq_dec a i) as [->|]; [|destruct Hab as (? & ? & _); lia].
      right. split; [reflexivity|]. apply row_bounds in Hab; lia.
  - exists V. split; [exact HV|]. now replace (l1 - 1 + 1) with l1 in I by lia.
Qed.

Lemma path_loop_ok V : slen V = l1 * stride -> forall fuel i j, 0 <= i < l1 -> 0 <= j < l2 ->
  (Z.to_nat (i + j) <= fuel)%nat -> exists p, path_loop N inf w stride fuel V i j = Ok p.
Proof.
  intros HV. induction fuel as [|fuel IH]; intros i j Hi Hj Hf.
  - assert (i = 0) by lia. assert (j = 0) by lia. subst. exists [(0, 0)]. reflexivity.
  - cbn [path_loop]. destruct ((0 <? i) || (0 <? j)) eqn:E; [|eexists; reflexivity].
    apply orb_true_iff in E. rewrite !Z.ltb_lt in E.
    destruct (Z.eqb_spec i 0).
    + cbn [obind fst snd]. destruct (IH i (j - 1)) as [p Hp]; try lia. rewrite Hp. eexists; reflexivity.
    + destruct (Z.eqb_spec j 0).
      * cbn [obind fst snd]. destruct (IH (i - 1) j) as [p Hp]; try lia. rewrite Hp. eexists; reflexivity.
      * unfold neighbor_costs. rewrite !cget_in by (exact HV || lia). cbn [obind].
        unfold decr_path. destruct (_ && _); [|destruct (nleb N _ _)]; cbn [fst snd].
        -- destruct (IH (i - 1) (j - 1)) as [p Hp]; try lia. rewrite Hp. eexists; reflexivity.
        -- destruct (IH (i - 1) j) as [p Hp]; try lia. rewrite Hp. eexists; reflexivity.
        -- destruct (IH i (j - 1)) as [p Hp]; try lia. rewrite Hp. eexists; reflexivity.
Qed.

(** C46: totality, for every distance and comparison. *)
Lemma matrix_total : exists V p,
  compute_cum_cost N inf pdist s1 s2 w stride = Ok V /\ Inv V l1 0 /\
  compute_path N inf s1 s2 w stride V = Ok p /\
  path_loop N inf w stride (Z.to_nat (l1 - 1 + (l2 - 1))) V (l1 - 1) (l2 - 1) = Ok p /\
  cget inf w stride V (slen s1 - 1) (slen s2 - 1) = Ok (G V (l1 - 1) (l2 - 1)).
Proof.
  destruct cum_cost_ok as (V & HV & I). pose proof I as [L _].
  destruct (path_loop_ok V L (Z.to_nat (l1 - 1 + (l2 - 1))) (l1 - 1) (l2 - 1)) as [p Hp]; try lia.
  exists V, p. split; [exact HV|]. split; [exact I|]. split; [|split; [exact Hp|apply cget_in; lia]].
  unfold compute_path. fold l1 l2. destruct (Z.ltb_spec (l1 - 1 + (l2 - 1)) 0); [lia|exact Hp].
Qed.

(** ** Optimality *)
Context (nn : F -> Prop) (CN : CostNum N inf nn).
Hypothesis Hd0 : forall p q, In p s1 -> In q s2 -> nn (pdist p q).
Lemma Hd c : 0 <= fst c < l1 -> 0 <= snd c < l2 -> nn (at_cell pdist p0 s1 s2 c).
Proof. intros H1 H2. unfold at_cell, l1, l2, slen in *. apply Hd0; apply nth_In; lia. Qed.

Lemma cn_refl x : nn x -> nleb N x x = true.
Proof. intros H. destruct (cn_total _ _ _ CN x x H H); assumption. Qed.

Definition allowed (c : Z * Z) : Prop := within w c.

Lemma within_iff c : within w c <-> in_window w (fst c) (snd c) = true.
Proof. unfold within. rewrite in_window_iff. lia. Qed.

Lemma sum_snoc p c : p <> [] -> sum_along N (at_cell pdist p0 s1 s2) (p ++ [c]) = nadd N (sum_along N (at_cell pdist p0 s1 s2) p) (at_cell pdist p0 s1 s2 c).
Proof. intros H. destruct p as [|a p]; [congruence|]. cbn [app sum_along]. now rewrite fold_left_app. Qed.
Lemma min3_cases a b c : nn a -> nn b -> nn c ->
  nn (min3 N a b c) /\ nleb N (min3 N a b c) a = true /\ nleb N (min3 N a b c) b = true /\ nleb N (min3 N a b c) c = true.
Proof.
  intros Ha Hb Hc. unfold min3.
  destruct (nleb N a b) eqn:E1; cbn [andb].
  - destruct (nleb N a c) eqn:E2; [auto using cn_refl|].
    assert (Hca : nleb N c a = true) by (destruct (cn_total _ _ _ CN a c Ha Hc); congruence).
    destruct (nleb N b c) eqn:E3.
    + exfalso. rewrite (cn_trans _ _ _ CN a b c) in E2; congruence.
    + split; [exact Hc|]. split; [exact Hca|]. split; [|apply cn_refl; exact Hc].
      apply (cn_trans _ _ _ CN c a b); assumption.
  - assert (Hba : nleb N b a = true) by (destruct (cn_total _ _ _ CN a b Ha Hb); congruence).
    destruct (nleb N b c) eqn:E3; [auto using cn_refl|].
    assert (Hcb : nleb N c b = true) by (destruct (cn_total _ _ _ CN b c Hb Hc); congruence).
    split; [exact Hc|]. split; [apply (cn_trans _ _ _ CN c b a); assumption|]. split; [exact Hcb|apply cn_refl; exact Hc].
Qed.

Section Final.
Variable V : list F.
Hypothesis HI : Inv V l1 0.

Lemma recurrence i j : valid i j -> G V i j = recval V i j.
Proof. intros H. apply HI; [exact H|]. left. destruct H; lia. Qed.

Lemma G_nn : forall n i j, (Z.to_nat (i + j) <= n)%nat -> 0 <= i < l1 -> 0 <= j < l2 -> nn (G V i j).
Proof.
  induction n as [|n IH]; intros i j Hn Hi Hj.
  all: destruct (in_window w i j) eqn:Hin; [|unfold G; rewrite Hin; apply (cn_inf _ _ _ CN)].
  all: rewrite recurrence by (repeat split; assumption || lia); unfold recval.
  all: destruct (Z.eqb_spec i 0), (Z.eqb_spec j 0); cbn [andb]; try (apply Hd; cbn; lia); try lia.
  all: apply (cn_add _ _ _ CN); try (apply Hd; cbn; lia).
  - apply IH; lia.
  - apply IH; lia.
  - apply min3_cases; apply IH; lia.
Qed.
Lemma G_good i j : 0 <= i < l1 -> 0 <= j < l2 -> nn (G V i j).
Proof. apply (G_nn _ i j (le_n _)). Qed.

Lemma sum_nn c p : wpath allowed c p -> fst c < l1 -> snd c < l2 -> nn (sum_along N (at_cell pdist p0 s1 s2) p).
Proof.
  induction 1 as [Ha|c p c' Hp IH Hs Ha]; intros H1 H2.
  - cbn [sum_along fold_left]. apply Hd; cbn in *; lia.
  - pose proof (wpath_nonneg _ _ _ Hp). unfold wstep in Hs.
    rewrite sum_snoc by (eapply wpath_ne; eassumption). apply (cn_add _ _ _ CN); [apply IH; lia|apply Hd; lia].
Qed.

Lemma G_least c p : wpath allowed c p -> fst c < l1 -> snd c < l2 ->
  nleb N (G V (fst c) (snd c)) (sum_along N (at_cell pdist p0 s1 s2) p) = true.
Proof.
  induction 1 as [Ha|c p c' Hp IH Hs Ha]; intros H1 H2.
  - cbn [fst snd]. rewrite recurrence.
    + change (nleb N (dcell 0 0) (dcell 0 0) = true). apply cn_refl. apply Hd; cbn in *; lia.
    + cbn in *. split; [lia|]. split; [lia|]. apply within_iff in Ha. exact Ha.
  - rewrite sum_snoc by (eapply wpath_ne; eassumption).
    pose proof (wpath_nonneg _ _ _ Hp) as [N1 N2]. assert (Hsn : nn (sum_along N (at_cell pdist p0 s1 s2) p)) by (eapply sum_nn; [exact Hp| |]; unfold wstep in Hs; lia).
    assert (Hv : valid (fst c') (snd c')).
    { unfold wstep in Hs. split; [lia|]. split; [lia|]. apply within_iff. exact Ha. }
    assert (Hc : nleb N (G V (fst c) (snd c)) (sum_along N (at_cell pdist p0 s1 s2) p) = true) by (apply IH; unfold wstep in Hs; lia).
    assert (Hg : nn (G V (fst c) (snd c))) by (apply G_good; unfold wstep in Hs; lia).
    rewrite recurrence by exact Hv. unfold recval.
    change (dcell (fst c') (snd c')) with (at_cell pdist p0 s1 s2 (fst c', snd c')). rewrite <- surjective_pairing.
    assert (Hdn : nn (at_cell pdist p0 s1 s2 c')) by (apply Hd; unfold valid in Hv; lia).
    unfold wstep in Hs.
    destruct (Z.eqb_spec (fst c') 0), (Z.eqb_spec (snd c') 0); cbn [andb]; try lia.
    + assert (Ec : fst c' = fst c /\ snd c' - 1 = snd c) by lia. destruct Ec as [-> ->].
      apply (cn_mono _ _ _ CN); assumption.
    + assert (Ec : fst c' - 1 = fst c /\ snd c' = snd c) by lia. destruct Ec as [-> ->].
      apply (cn_mono _ _ _ CN); assumption.
    + assert (A1 : nn (G V (fst c' - 1) (snd c' - 1))) by (apply G_good; destruct Hv; lia).
      assert (A2 : nn (G V (fst c') (snd c' - 1))) by (apply G_good; destruct Hv; lia).
      assert (A3 : nn (G V (fst c' - 1) (snd c'))) by (apply G_good; destruct Hv; lia).
      destruct (min3_cases _ _ _ A1 A2 A3) as (M0 & M1 & M2 & M3).
      apply (cn_mono _ _ _ CN); [exact M0|exact Hsn|exact Hdn|].
      apply (cn_trans _ _ _ CN _ (G V (fst c) (snd c))); [exact M0|exact Hg|exact Hsn| |exact Hc].
      destruct Hs as [[E1 E2]|[[E1 E2]|[E1 E2]]].
      * replace (fst c) with (fst c' - 1) by lia. rewrite <- E2. exact M3.
      * replace (snd c) with (snd c' - 1) by lia. rewrite <- E1. exact M2.
      * replace (fst c) with (fst c' - 1) by lia. replace (snd c) with (snd c' - 1) by lia. exact M1.
Qed.

Lemma in_window_of_lt i j x : 0 <= i < l1 -> 0 <= j < l2 -> nn x -> nleb N x (G V i j) = false -> in_window w i j = true.
Proof.
  intros Hi Hj Hx H. destruct (in_window w i j) eqn:E; [reflexivity|].
  unfold G in H. rewrite E in H. rewrite (cn_top _ _ _ CN) in H; [discriminate|exact Hx].
Qed.

Lemma path_ok : forall fuel i j p, valid i j -> path_loop N inf w stride fuel V i j = Ok p ->
  wpath allowed (i, j) (rev p) /\ sum_along N (at_cell pdist p0 s1 s2) (rev p) = G V i j.
Proof.
  induction fuel as [|fuel IH]; intros i j p Hv Hp; pose proof Hv as (Hi & Hj & Hin).
  - cbn [path_loop] in Hp. destruct ((0 <? i) || (0 <? j)) eqn:E; [discriminate|].
    apply orb_false_iff in E. rewrite !Z.ltb_ge in E. assert (i = 0) by lia. assert (j = 0) by lia. subst i j.
    injection Hp as <-. cbn [rev app]. split; [constructor; apply within_iff; exact Hin|].
    rewrite recurrence by exact Hv. reflexivity.
  - cbn [path_loop] in Hp. destruct ((0 <? i) || (0 <? j)) eqn:E.
    2: { apply orb_false_iff in E. rewrite !Z.ltb_ge in E. assert (i = 0) by lia. assert (j = 0) by lia. subst i j.
         injection Hp as <-. cbn [rev app]. split; [constructor; apply within_iff; exact Hin|].
         rewrite recurrence by exact Hv. reflexivity. }
    apply orb_true_iff in E. rewrite !Z.ltb_lt in E. pose proof Hin as Hin'. apply in_window_iff in Hin'.
    assert (Hstep : forall i' j' r, valid i' j' -> wstep (i', j') (i, j) ->
       path_loop N inf w stride fuel V i' j' = Ok r -> recval V i j = nadd N (G V i' j') (dcell i j) ->
       wpath allowed (i, j) (rev ((i, j) :: r)) /\ sum_along N (at_cell pdist p0 s1 s2) (rev ((i, j) :: r)) = G V i j).
    { intros i' j' r Hv' Hs Hr Hrec. destruct (IH i' j' r Hv' Hr) as [W S]. cbn [rev]. split.
      - econstructor; [exact W|exact Hs|]. apply within_iff. exact Hin.
      - rewrite sum_snoc by (eapply wpath_ne; exact W). rewrite S, (recurrence i j Hv), Hrec. reflexivity. }
    destruct (Z.eqb_spec i 0) as [Ei|Ei].
    + cbn [obind fst snd] in Hp. destruct (path_loop N inf w stride fuel V i (j - 1)) as [r|] eqn:Hr; [|discriminate].
      cbn [obind] in Hp. injection Hp as <-. apply (Hstep i (j - 1)); [|unfold wstep; cbn; lia|exact Hr|].
      * split; [lia|]. split; [lia|]. apply in_window_iff. lia.
      * unfold recval. destruct (Z.eqb_spec i 0), (Z.eqb_spec j 0); cbn [andb]; (reflexivity || lia).
    + destruct (Z.eqb_spec j 0) as [Ej|Ej].
      * cbn [obind fst snd] in Hp. destruct (path_loop N inf w stride fuel V (i - 1) j) as [r|] eqn:Hr; [|discriminate].
        cbn [obind] in Hp. injection Hp as <-. apply (Hstep (i - 1) j); [|unfold wstep; cbn; lia|exact Hr|].
        -- split; [lia|]. split; [lia|]. apply in_window_iff. lia.
        -- unfold recval. destruct (Z.eqb_spec i 0), (Z.eqb_spec j 0); cbn [andb]; (reflexivity || lia).
      * destruct HI as [L _]. unfold neighbor_costs in Hp. rewrite !cget_in in Hp by (exact L || lia). cbn [obind] in Hp.
        assert (A1 : nn (G V (i - 1) (j - 1))) by (apply G_good; lia).
        assert (A2 : nn (G V i (j - 1))) by (apply G_good; lia).
        assert (A3 : nn (G V (i - 1) j)) by (apply G_good; lia).
        assert (Hrec : recval V i j = nadd N (min3 N (G V (i - 1) (j - 1)) (G V i (j - 1)) (G V (i - 1) j)) (dcell i j)).
        { unfold recval. destruct (Z.eqb_spec i 0), (Z.eqb_spec j 0); cbn [andb]; (reflexivity || lia). }
        unfold min3 in Hrec. unfold decr_path in Hp.
        set (ul := G V (i - 1) (j - 1)) in *. set (u := G V i (j - 1)) in *. set (l := G V (i - 1) j) in *.
        destruct (nleb N ul u && nleb N ul l) eqn:Edec; cbn [obind fst snd] in Hp.
        -- destruct (path_loop N inf w stride fuel V (i - 1) (j - 1)) as [r|] eqn:Hr; [|discriminate].
           cbn [obind] in Hp. injection Hp as <-. apply (Hstep (i - 1) (j - 1)); [|unfold wstep; cbn; lia|exact Hr|exact Hrec].
           split; [lia|]. split; [lia|]. apply in_window_iff. lia.
        -- assert (Hlt : nleb N ul u = false \/ nleb N ul l = false) by (apply andb_false_iff; exact Edec).
           destruct (nleb N l u) eqn:Elu; cbn [fst snd] in Hp.
           ++ destruct (path_loop N inf w stride fuel V (i - 1) j) as [r|] eqn:Hr; [|discriminate].
              cbn [obind] in Hp. injection Hp as <-. apply (Hstep (i - 1) j); [|unfold wstep; cbn; lia|exact Hr|].
              ** split; [lia|]. split; [lia|]. apply (in_window_of_lt _ _ ul); [lia|lia|exact A1|].
                 destruct Hlt as [Hlt|Hlt]; [|exact Hlt]. fold l. destruct (nleb N ul l) eqn:X; [|reflexivity].
                 rewrite (cn_trans _ _ _ CN ul l u) in Hlt; congruence.
              ** fold l. rewrite Hrec. f_equal. destruct (nleb N u l) eqn:Eul; [|reflexivity].
                 apply (cn_antisym _ _ _ CN); assumption.
           ++ assert (Eul : nleb N u l = true) by (destruct (cn_total _ _ _ CN u l A2 A3); congruence).
              destruct (path_loop N inf w stride fuel V i (j - 1)) as [r|] eqn:Hr; [|discriminate].
              cbn [obind] in Hp. injection Hp as <-. apply (Hstep i (j - 1)); [|unfold wstep; cbn; lia|exact Hr|].
              ** split; [lia|]. split; [lia|]. apply (in_window_of_lt _ _ l); [lia|lia|exact A3|exact Elu].
              ** fold u. rewrite Hrec. rewrite Eul. reflexivity.
Qed.
End Final.
End Matrix.
