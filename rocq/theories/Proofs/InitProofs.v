(** Proofs about the initializers: C21-C25. *)
From Coq Require Import List ZArith Lia Bool Reals Lra.
From Flocq Require Import IEEE754.BinarySingleNaN.
From Verif Require Import Base.Go Base.Num Model.Clustering Model.Par Model.KmeansInit
  Spec.RealSpec Spec.NearestSpec Spec.InitSpec
  Proofs.GoLemmas Proofs.NumLaws Proofs.NearestProofs Proofs.ParProofs Proofs.RealLemmas Proofs.EuclidProofs.
Import ListNotations.

(** ** C21 *)
Lemma given_loop_ok {E F} (Sp : Space E F) elemts : forall n i, i + n <= length elemts ->
  given_loop Sp n (Z.of_nat i) elemts = Ok (map (fun x => Some (scopy Sp x)) (firstn n (skipn i elemts))).
Proof.
  induction n as [|n IH]; intros i H; cbn [given_loop]; [reflexivity|].
  destruct (nth_error elemts i) as [e|] eqn:He; [|apply nth_error_None in He; lia].
  rewrite sget_nat, He. cbn [obind]. replace (Z.of_nat i + 1)%Z with (Z.of_nat (S i)) by lia.
  rewrite IH by lia. cbn [obind]. rewrite (skipn_nth elemts i e) by lia.
  rewrite (nth_error_nth elemts i e He). reflexivity.
Qed.

Lemma given_main : forall E F (Sp : Space E F) (k : Z) (elemts : list E),
  ((1 <= k <= Z.of_nat (length elemts))%Z ->
     given_initializer Sp k elemts = Ok (map (fun x => Some (scopy Sp x)) (firstn (Z.to_nat k) elemts), None)) /\
  ((k < 1)%Z -> given_initializer Sp k elemts = Ok ([], Some ErrKLow)) /\
  ((1 <= k)%Z -> (Z.of_nat (length elemts) < k)%Z -> given_initializer Sp k elemts = Ok ([], Some ErrFewElemts)).
Proof.
  intros E F Sp k elemts. unfold given_initializer, check, slen.
  destruct (Z.ltb_spec k 1); [split; [lia|split; [auto|lia]]|].
  destruct (Z.ltb_spec (Z.of_nat (length elemts)) k); [split; [lia|split; [lia|auto]]|].
  split; [intros _|split; lia]. pose proof (given_loop_ok Sp elemts (Z.to_nat k) 0) as Hg.
  change (Z.of_nat 0) with 0%Z in Hg. rewrite Hg by lia. reflexivity.
Qed.

(** ** C22 *)
Section Rand.
Context {E F : Type} (Sp : Space E F).

Definition in_pos (elemts : list E) (p : Z) : Prop := (0 <= p < Z.of_nat (length elemts))%Z.

Lemma rand_loop_result elemts draws : Forall (in_pos elemts) draws -> forall n chosen cs r,
  NoDup chosen -> Forall (in_pos elemts) chosen ->
  map Some cs = map (fun p => option_map (scopy Sp) (nth_error elemts (Z.to_nat p))) (rev chosen) ->
  rand_loop Sp draws n elemts chosen cs = Some r ->
  exists cs' chosen', r = Ok cs' /\ NoDup chosen' /\ length chosen' = n + length chosen /\ Forall (in_pos elemts) chosen' /\
    map Some cs' = map (fun p => option_map (scopy Sp) (nth_error elemts (Z.to_nat p))) (rev chosen').
Proof.
  induction 1 as [|d draws Hd Hds IH]; intros n chosen cs r Hnd Hin Hcs Hr; destruct n as [|n]; cbn [rand_loop] in Hr; try discriminate.
  - injection Hr as <-. exists cs, chosen. auto.
  - injection Hr as <-. exists cs, chosen. auto.
  - destruct (existsb (Z.eqb d) chosen) eqn:He.
    + apply (IH _ _ _ _ Hnd Hin Hcs Hr).
    + unfold in_pos in Hd. destruct (nth_error elemts (Z.to_nat d)) as [e|] eqn:Hn.
      2:{ apply nth_error_None in Hn. lia. }
      unfold sget in Hr. destruct (Z.ltb_spec d 0); [lia|]. rewrite Hn in Hr.
      destruct (IH n (d :: chosen) (cs ++ [scopy Sp e]) r) as (cs' & ch' & R1 & R2 & R3 & R4 & R5); auto.
      * constructor; [|exact Hnd]. intros Hi. assert (existsb (Z.eqb d) chosen = true); [|congruence].
        apply existsb_exists. exists d. split; [exact Hi|apply Z.eqb_refl].
      * cbn [rev]. rewrite !map_app, Hcs. cbn [map]. rewrite Hn. reflexivity.
      * exists cs', ch'. cbn [length] in R3. repeat (split; auto). lia.
Qed.

Lemma rand_loop_none elemts draws : Forall (in_pos elemts) draws -> forall n chosen cs,
  NoDup chosen -> rand_loop Sp draws n elemts chosen cs = None ->
  exists chosen', NoDup chosen' /\ incl draws chosen' /\ incl chosen chosen' /\ length chosen' < n + length chosen.
Proof.
  induction 1 as [|d draws Hd Hds IH]; intros n chosen cs Hnd Hr; destruct n as [|n]; cbn [rand_loop] in Hr; try discriminate.
  - exists chosen. split; [exact Hnd|]. split; [intros x []|]. split; [apply incl_refl|lia].
  - destruct (existsb (Z.eqb d) chosen) eqn:He.
    + destruct (IH _ _ _ Hnd Hr) as (ch & H1 & H2 & H3 & H4). exists ch. split; [exact H1|]. split; [|auto].
      apply existsb_exists in He. destruct He as (y & Hy & Heq). apply Z.eqb_eq in Heq. subst y.
      intros x [<-|Hx]; auto.
    + unfold in_pos in Hd. unfold sget in Hr. destruct (Z.ltb_spec d 0); [lia|].
      destruct (nth_error elemts (Z.to_nat d)) as [e|] eqn:Hn; [|discriminate].
      destruct (IH n (d :: chosen) (cs ++ [scopy Sp e])) as (ch & H1 & H2 & H3 & H4).
      { constructor; [|exact Hnd]. intros Hi. assert (existsb (Z.eqb d) chosen = true); [|congruence].
        apply existsb_exists. exists d. split; [exact Hi|apply Z.eqb_refl]. }
      { exact Hr. }
      exists ch. split; [exact H1|]. split.
      * intros x [<-|Hx]; [apply H3; left; reflexivity|auto].
      * split; [intros x Hx; apply H3; right; exact Hx|]. cbn [length] in H4. lia.
Qed.

End Rand.

Lemma rand_main : forall E F (Sp : Space E F) (k : Z) (elemts : list E) (draws : list Z),
  Forall (fun p => (0 <= p < Z.of_nat (length elemts))%Z) draws ->
  ((k < 0)%Z -> rand_initializer Sp k elemts draws = Some Panic) /\
  ((0 <= k)%Z -> (k < 1 \/ Z.of_nat (length elemts) < k)%Z ->
     exists e, rand_initializer Sp k elemts draws = Some (Ok (repeat None (Z.to_nat k), Some e))) /\
  ((1 <= k <= Z.of_nat (length elemts))%Z -> forall r, rand_initializer Sp k elemts draws = Some r ->
     exists positions, NoDup positions /\ Z.of_nat (length positions) = k /\
       (forall p, In p positions -> p < length elemts) /\
       r = Ok (map (fun p => option_map (scopy Sp) (nth_error elemts p)) positions, None)).
Proof.
  intros E F Sp k elemts draws Hd. unfold rand_initializer, smake, check, slen. split; [|split].
  - intros H. destruct (Z.ltb_spec k 0); [reflexivity|lia].
  - intros H H'. destruct (Z.ltb_spec k 0); [lia|]. destruct (Z.ltb_spec k 1); [eauto|].
    destruct (Z.ltb_spec (Z.of_nat (length elemts)) k); [eauto|lia].
  - intros H r Hr. destruct (Z.ltb_spec k 0); [lia|]. destruct (Z.ltb_spec k 1); [lia|].
    destruct (Z.ltb_spec (Z.of_nat (length elemts)) k); [lia|].
    destruct (rand_loop Sp draws (Z.to_nat k) elemts [] []) as [o|] eqn:Ho; [|discriminate].
    destruct (rand_loop_result Sp elemts draws Hd (Z.to_nat k) [] [] o) as (cs & ch & -> & R2 & R3 & R4 & R5); auto; [constructor|].
    injection Hr as <-. exists (rev (map Z.to_nat ch)). split; [|split; [|split]].
    + apply NoDup_rev. clear -R2 R4. induction R2 as [|x l Hx Hl IH]; cbn [map]; constructor.
      * inversion R4 as [|? ? Hxp Hlp]; subst. rewrite in_map_iff. intros (y & Hy & Hyl). apply Hx.
        rewrite Forall_forall in Hlp. specialize (Hlp y Hyl). unfold in_pos in *. assert (x = y) by lia. subst. exact Hyl.
      * apply IH. inversion R4; assumption.
    + rewrite rev_length, map_length. cbn [length] in R3. lia.
    + intros p Hp. apply in_rev in Hp. apply in_map_iff in Hp. destruct Hp as (y & <- & Hy).
      rewrite Forall_forall in R4. specialize (R4 y Hy). unfold in_pos in R4. lia.
    + rewrite R5, <- map_rev, map_map. reflexivity.
Qed.

Lemma stream_covers (s : nat -> Z) (l : list Z) : (forall p, In p l -> exists n, s n = p) ->
  exists n, incl l (map s (seq 0 n)).
Proof.
  induction l as [|p l IH]; intros H; [exists 0; intros x []|].
  destruct IH as [n Hn]; [intros q Hq; apply H; right; exact Hq|]. destruct (H p (or_introl eq_refl)) as [m Hm].
  exists (S m + n). intros q [<-|Hq].
  - apply in_map_iff. exists m. split; [exact Hm|]. apply in_seq. lia.
  - apply Hn in Hq. apply in_map_iff in Hq. destruct Hq as (x & <- & Hx). apply in_map_iff. exists x.
    split; [reflexivity|]. apply in_seq in Hx. apply in_seq. lia.
Qed.

Lemma rand_terminates : forall E F (Sp : Space E F) (k : Z) (elemts : list E) (s : nat -> Z),
  (forall n, (0 <= s n < Z.of_nat (length elemts))%Z) ->
  (forall p, (0 <= p < Z.of_nat (length elemts))%Z -> exists n, s n = p) ->
  exists n r, rand_initializer Sp k elemts (map s (seq 0 n)) = Some r.
Proof.
  intros E F Sp k elemts s Hr Hall.
  destruct (stream_covers s (map Z.of_nat (seq 0 (length elemts)))) as [n Hn].
  { intros p Hp. apply Hall. apply in_map_iff in Hp. destruct Hp as (x & <- & Hx). apply in_seq in Hx. lia. }
  exists n. unfold rand_initializer, check, slen. destruct (smake None k) as [c|]; [|eauto].
  destruct (Z.ltb_spec k 1); [eauto|]. destruct (Z.ltb_spec (Z.of_nat (length elemts)) k); [eauto|].
  destruct (rand_loop Sp (map s (seq 0 n)) (Z.to_nat k) elemts [] []) as [[cs|]|] eqn:Ho; [eauto|eauto|].
  exfalso. destruct (rand_loop_none Sp elemts (map s (seq 0 n))) with (3 := Ho) as (ch & H1 & H2 & _ & H4).
  - apply Forall_forall. intros p Hp. apply in_map_iff in Hp. destruct Hp as (x & <- & _). apply Hr.
  - constructor.
  - cbn [length] in H4. pose proof (NoDup_incl_length (l := map Z.of_nat (seq 0 (length elemts))) (l' := ch)) as Hlen.
    rewrite map_length, seq_length in Hlen. assert (length elemts <= length ch); [|lia]. apply Hlen.
    + apply FinFun.Injective_map_NoDup; [intros x y; lia|apply seq_NoDup].
    + intros x Hx. apply H2, Hn, Hx.
Qed.

(** ** WeightedChoice, generic part: a chosen index has a positive weight. *)
Section Choice.
Context {F : Type} (N : Num F).
Variable nonneg : F -> Prop.
Hypothesis Hsub : forall c w, nltb N (nof N 0) c = true -> nonneg w ->
  nltb N (nof N 0) (nsub N c w) = false -> nltb N (nof N 0) w = true.

Lemma cursor_loop_stop ws idx c : nltb N (nof N 0) c = false -> cursor_loop N ws idx c = Ok idx.
Proof. intros H. destruct ws; cbn [cursor_loop]; rewrite H; reflexivity. Qed.

Lemma cursor_loop_positive ws : Forall nonneg ws -> forall idx c k,
  nltb N (nof N 0) c = true -> cursor_loop N ws idx c = Ok k ->
  exists i w, k = (idx + Z.of_nat (S i))%Z /\ nth_error ws i = Some w /\ nltb N (nof N 0) w = true.
Proof.
  induction 1 as [|w ws Hw Hws IH]; intros idx c k Hc Hk; cbn [cursor_loop] in Hk; rewrite Hc in Hk; [discriminate|].
  destruct (nltb N (nof N 0) (nsub N c w)) eqn:Hn.
  - destruct (IH _ _ _ Hn Hk) as (i & w' & -> & H1 & H2). exists (S i), w'. split; [lia|]. auto.
  - rewrite cursor_loop_stop in Hk by exact Hn. injection Hk as <-. exists 0, w. split; [lia|]. split; [reflexivity|].
    apply (Hsub c w); assumption.
Qed.

Lemma weighted_choice_positive ws r : Forall nonneg ws ->
  match weighted_choice N ws r with
  | Ok (i, Some e) => i = 0%Z /\ e = ErrNullSet /\ neqb N (weights_sum N ws) (nof N 0) = true
  | Ok (i, None) =>
      (i = (-1)%Z /\ nltb N (nof N 0) (nmul N r (weights_sum N ws)) = false) \/
      (exists n w, i = Z.of_nat n /\ nth_error ws n = Some w /\ nltb N (nof N 0) w = true)
  | Panic => nltb N (nof N 0) (nmul N r (weights_sum N ws)) = true
  end.
Proof.
  intros Hws. unfold weighted_choice. destruct (neqb N (weights_sum N ws) (nof N 0)) eqn:He; [auto|].
  destruct (nltb N (nof N 0) (nmul N r (weights_sum N ws))) eqn:Hc.
  - destruct (cursor_loop N ws 0 (nmul N r (weights_sum N ws))) as [k|] eqn:Hk; cbn [obind]; [|reflexivity].
    right. destruct (cursor_loop_positive ws Hws _ _ _ Hc Hk) as (i & w & -> & H1 & H2). exists i, w. split; [lia|]. auto.
  - rewrite cursor_loop_stop by exact Hc. cbn [obind]. left. auto.
Qed.
End Choice.

(** ** C24 *)
Local Open Scope R_scope.
Definition prefix (ws : list R) (n : nat) : R := rsum (firstn n ws).

Lemma cursor_loop_interval ws : Forall (fun w => 0 <= w) ws -> forall idx c, 0 < c <= rsum ws ->
  exists n, (n < length ws)%nat /\ cursor_loop RNum ws idx c = Ok (idx + Z.of_nat (S n))%Z /\
    prefix ws n < c <= prefix ws (S n).
Proof.
  induction 1 as [|w ws Hw Hws IH]; intros idx c [H1 H2]; [cbn in H2; lra|].
  cbn [cursor_loop]. change (nltb RNum (nof RNum 0) c) with (Rltb 0 c).
  rewrite (proj2 (Rltb_true 0 c) H1). cbn [nsub RNum].
  destruct (Rle_lt_dec (c - w) 0) as [Hle|Hlt].
  - exists 0%nat. split; [cbn; lia|]. split.
    + rewrite cursor_loop_stop; [reflexivity|]. apply (proj2 (Rltb_false 0 (c - w))). exact Hle.
    + unfold prefix. cbn. lra.
  - rewrite rsum_cons in H2. destruct (IH (idx + 1)%Z (c - w)) as (n & Hn & Hk & Hp); [lra|].
    exists (S n). split; [cbn; lia|]. split; [rewrite Hk; f_equal; lia|].
    unfold prefix in *. cbn [firstn]. rewrite !rsum_cons. cbn [firstn] in Hp. lra.
Qed.

Lemma prefix_mono ws : Forall (fun w => 0 <= w) ws -> forall n m, (n <= m)%nat -> prefix ws n <= prefix ws m.
Proof.
  unfold prefix. induction 1 as [|w ws Hw Hws IH]; intros n m H; [rewrite !firstn_nil; lra|].
  destruct n as [|n], m as [|m]; try lia; cbn [firstn]; rewrite ?rsum_cons.
  - lra.
  - assert (0 <= rsum (firstn m ws)); [|cbn; lra]. apply rsum_nonneg. apply Forall_forall. intros x Hx.
    rewrite Forall_forall in Hws. apply Hws. rewrite <- (firstn_skipn m ws). apply in_or_app. left. exact Hx.
  - specialize (IH n m ltac:(lia)). lra.
Qed.

Lemma weights_sum_R ws : weights_sum RNum ws = rsum ws.
Proof. unfold weights_sum. cbn. rewrite fold_left_rplus. lra. Qed.

Lemma choice_main : forall ws r, Forall (fun w => 0 <= w) ws -> 0 < r < 1 ->
  (rsum ws = 0 <-> weighted_choice RNum ws r = Ok (0%Z, Some ErrNullSet)) /\
  (rsum ws <> 0 -> exists n, (n < length ws)%nat /\ weighted_choice RNum ws r = Ok (Z.of_nat n, None)) /\
  (rsum ws <> 0 -> forall n, (n < length ws)%nat ->
     (weighted_choice RNum ws r = Ok (Z.of_nat n, None) <->
      rsum (firstn n ws) / rsum ws < r <= rsum (firstn (S n) ws) / rsum ws)) /\
  (rsum ws <> 0 -> forall n w, nth_error ws n = Some w ->
     rsum (firstn (S n) ws) / rsum ws - rsum (firstn n ws) / rsum ws = w / rsum ws) /\
  (forall n w, nth_error ws n = Some w -> weighted_choice RNum ws r = Ok (Z.of_nat n, None) -> 0 < w).
Proof.
  intros ws r Hws Hr. pose proof (rsum_nonneg ws Hws) as Hs.
  assert (Hex : rsum ws <> 0 -> exists n, (n < length ws)%nat /\ weighted_choice RNum ws r = Ok (Z.of_nat n, None) /\
     prefix ws n < r * rsum ws <= prefix ws (S n)).
  { intros Hne. unfold weighted_choice. rewrite weights_sum_R. change (neqb RNum (rsum ws) (nof RNum 0)) with (Reqb (rsum ws) 0).
    rewrite (proj2 (Reqb_false _ _) Hne). cbn [nmul RNum].
    destruct (cursor_loop_interval ws Hws 0 (r * rsum ws)) as (n & Hn & Hk & Hp); [nra|].
    exists n. split; [exact Hn|]. rewrite Hk. cbn [obind]. split; [f_equal; f_equal; lia|exact Hp]. }
  split; [|split; [|split; [|split]]].
  - split.
    + intros H. unfold weighted_choice. rewrite weights_sum_R, H.
      change (neqb RNum 0 (nof RNum 0)) with (Reqb 0 0). rewrite (proj2 (Reqb_true 0 0) eq_refl). reflexivity.
    + intros H. destruct (Req_dec (rsum ws) 0) as [H0|H0]; [exact H0|]. destruct (Hex H0) as (n & _ & Hk & _). congruence.
  - intros Hne. destruct (Hex Hne) as (n & Hn & Hk & _). eauto.
  - intros Hne n Hn. assert (Hpos : 0 < rsum ws) by lra. destruct (Hex Hne) as (m & Hm & Hk & Hp).
    assert (Hiff : rsum (firstn n ws) / rsum ws < r <= rsum (firstn (S n) ws) / rsum ws <-> prefix ws n < r * rsum ws <= prefix ws (S n)).
    { unfold prefix. split; intros [A B]; split.
      - apply (Rmult_lt_compat_r (rsum ws)) in A; [|exact Hpos]. unfold Rdiv in A. rewrite Rmult_assoc, Rinv_l, Rmult_1_r in A by lra. exact A.
      - apply (Rmult_le_compat_r (rsum ws)) in B; [|lra]. unfold Rdiv in B. rewrite Rmult_assoc, Rinv_l, Rmult_1_r in B by lra. exact B.
      - apply (Rmult_lt_reg_r (rsum ws)); [exact Hpos|]. unfold Rdiv. rewrite Rmult_assoc, Rinv_l, Rmult_1_r by lra. exact A.
      - apply (Rmult_le_reg_r (rsum ws)); [exact Hpos|]. unfold Rdiv. rewrite Rmult_assoc, Rinv_l, Rmult_1_r by lra. exact B. }
    rewrite Hiff, Hk. split.
    + intros [= He]. assert (m = n) by lia. subst. exact Hp.
    + intros Hp'. assert (m = n); [|subst; reflexivity].
      destruct (Nat.lt_trichotomy m n) as [H|[H|H]]; [|exact H|].
      * pose proof (prefix_mono ws Hws (S m) n ltac:(lia)). lra.
      * pose proof (prefix_mono ws Hws (S n) m ltac:(lia)). lra.
  - intros Hne n w Hw. assert (Hsum : rsum (firstn (S n) ws) = rsum (firstn n ws) + w).
    { clear -Hw. revert n Hw. induction ws as [|x ws IH]; intros [|n] Hw; cbn [nth_error] in Hw; try discriminate.
      - injection Hw as ->. cbn. lra.
      - specialize (IH n Hw). change (firstn (S (S n)) (x :: ws)) with (x :: firstn (S n) ws).
        change (firstn (S n) (x :: ws)) with (x :: firstn n ws). rewrite !rsum_cons. lra. }
    rewrite Hsum. field. exact Hne.
  - intros n w Hw Hk. destruct (Req_dec (rsum ws) 0) as [H0|H0].
    + exfalso. unfold weighted_choice in Hk. rewrite weights_sum_R, H0 in Hk.
      change (neqb RNum 0 (nof RNum 0)) with (Reqb 0 0) in Hk. rewrite (proj2 (Reqb_true 0 0) eq_refl) in Hk. discriminate.
    + pose proof (weighted_choice_positive RNum (fun w => 0 <= w)) as Hp.
      assert (Hsub : forall c w : R, nltb RNum (nof RNum 0) c = true -> 0 <= w -> nltb RNum (nof RNum 0) (nsub RNum c w) = false -> nltb RNum (nof RNum 0) w = true).
      { intros c w' H1 _ H2. change (Rltb 0 c = true) in H1. change (Rltb 0 (c - w') = false) in H2. change (Rltb 0 w' = true).
        apply Rltb_true in H1. apply Rltb_false in H2. apply Rltb_true. lra. }
      specialize (Hp Hsub ws r Hws). rewrite Hk in Hp. destruct Hp as [[Hneg _]|(m & w' & Hm & Hw' & Hpos)]; [lia|].
      assert (m = n) by lia. subst. rewrite Hw in Hw'. injection Hw' as ->. apply (proj1 (Rltb_true 0 w')). exact Hpos.
Qed.
Local Close Scope R_scope.

(** ** C25 *)
Definition nonneg_weight (w : b64) : Prop := b64_leb (b64_of_Z 0) w = true.

Lemma sub_positive (c w : b64) : b64_ltb (b64_of_Z 0) c = true -> nonneg_weight w ->
  b64_ltb (b64_of_Z 0) (b64_sub c w) = false -> b64_ltb (b64_of_Z 0) w = true.
Proof.
  unfold nonneg_weight. rewrite b64_zero. intros Hc Hw Hs. destruct w as [s|s| |s m e Hb].
  - exfalso. destruct c as [s'|s'| |s' m' e' Hb']; try discriminate Hc; destruct s'; try discriminate Hc; discriminate Hs.
  - destruct s; [discriminate Hw|reflexivity].
  - discriminate Hw.
  - destruct s; [discriminate Hw|reflexivity].
Qed.

Lemma choice_float : forall (ws : list b64) (r : b64),
  Forall (fun w => b64_leb (b64_of_Z 0) w = true) ws ->
  match weighted_choice B64Num ws r with
  | Ok (i, Some e) => i = 0%Z /\ e = ErrNullSet /\ b64_eqb (weights_sum B64Num ws) (b64_of_Z 0) = true
  | Ok (i, None) =>
      (i = (-1)%Z /\ b64_ltb (b64_of_Z 0) (b64_mul r (weights_sum B64Num ws)) = false) \/
      (exists n w, i = Z.of_nat n /\ nth_error ws n = Some w /\ b64_ltb (b64_of_Z 0) w = true)
  | Panic => b64_ltb (b64_of_Z 0) (b64_mul r (weights_sum B64Num ws)) = true
  end.
Proof. intros ws r H. exact (weighted_choice_positive B64Num nonneg_weight sub_positive ws r H). Qed.

(** 2^-e and 3 * 2^-e as float64. *)
Definition pow2 (e : Z) : b64 := @binary_normalize prec64 emax64 prec64_gt_0 prec64_lt_emax mode_NE 1 e false.
Definition scaled (m e : Z) : b64 := @binary_normalize prec64 emax64 prec64_gt_0 prec64_lt_emax mode_NE m e false.

(** Float64() = 0 gives index -1; Float64() = 1 - 2^-53 on the weights 1, 3*2^-54 (five times)
    reads past the end. *)
Lemma choice_float_refuted :
  (exists (ws : list b64) (r : b64),
     Forall (fun w => is_finite w = true /\ b64_ltb (b64_of_Z 0) w = true) ws /\
     b64_leb (b64_of_Z 0) r = true /\ b64_ltb r (b64_of_Z 1) = true /\
     weighted_choice B64Num ws r = Ok ((-1)%Z, None)) /\
  (exists (ws : list b64) (r : b64),
     Forall (fun w => is_finite w = true /\ b64_ltb (b64_of_Z 0) w = true) ws /\
     b64_ltb (b64_of_Z 0) r = true /\ b64_ltb r (b64_of_Z 1) = true /\
     weighted_choice B64Num ws r = Panic).
Proof.
  split.
  - exists [b64_of_Z 1; b64_of_Z 2], (b64_of_Z 0).
    split; [repeat constructor|]. split; [reflexivity|]. split; [reflexivity|]. vm_compute. reflexivity.
  - exists (b64_of_Z 1 :: repeat (scaled 3 (-54)) 5), (scaled (2 ^ 53 - 1) (-53)).
    split; [repeat constructor|]. split; [vm_compute; reflexivity|]. split; [vm_compute; reflexivity|]. vm_compute. reflexivity.
Qed.

(** ** C23 *)
Section PP.
Context {E : Type} (Sp : Space E R).
Local Open Scope R_scope.

Lemma nearest_dist (c : list E) x : c <> [] -> (forall y, In y c -> 0 <= sdist Sp x y) ->
  exists cl, In cl c /\ snd (nearest RNum Sp c x) = sdist Sp x cl /\ forall y, In y c -> sdist Sp x cl <= sdist Sp x y.
Proof.
  intros Hc Hd. destruct (nearest_best RNum Sp (fun _ => True) RNumOrd c x Hc) as (i & cl & H1 & H2 & H3 & _).
  - intros y Hy. split; [exact I|]. apply (proj2 (Rleb_true 0 (sdist Sp x y))). apply Hd. exact Hy.
  - exists cl. split; [apply (nth_error_In c i H2)|]. rewrite H1. split; [reflexivity|]. intros y Hy.
    apply In_nth_error in Hy. destruct Hy as [j Hj]. apply (proj1 (Rleb_true _ _)). apply (H3 j y Hj).
Qed.

Lemma pp_iter_main degree (clust elemts : list E) r : (0 < degree)%Z -> clust <> [] -> elemts <> [] ->
  (forall x y, 0 <= sdist Sp x y) -> 0 < r < 1 ->
  ((forall x, In x elemts -> exists y, In y clust /\ sdist Sp x y = 0) ->
     exists c, pp_iter RNum Sp degree clust elemts r = Ok (c, Some ErrNullSet)) /\
  ((exists x, In x elemts /\ forall y, In y clust -> sdist Sp x y <> 0) ->
     exists x, In x elemts /\ pp_iter RNum Sp degree clust elemts r = Ok (scopy Sp x, None) /\
       forall y, In y clust -> 0 < sdist Sp x y).
Proof.
  intros Hdeg Hc He Hd Hr. unfold pp_iter. rewrite par_map_label_eq by exact Hdeg. cbn [obind snd map_label].
  set (ws := map (fun x => snd (nearest RNum Sp clust x)) elemts).
  assert (Hws : Forall (fun w => 0 <= w) ws).
  { apply Forall_forall. intros w Hw. apply in_map_iff in Hw. destruct Hw as (x & <- & _).
    destruct (nearest_dist clust x Hc) as (cl & _ & -> & _); auto. }
  destruct (choice_main ws r Hws Hr) as (C1 & C2 & _ & _ & C5).
  pose proof (rsum_zero_iff ws Hws) as Hz. split.
  - intros Hall. assert (Hsum : rsum ws = 0).
    { apply Hz. apply Forall_forall. intros w Hw. apply in_map_iff in Hw. destruct Hw as (x & <- & Hx).
      destruct (nearest_dist clust x Hc) as (cl & Hcl & -> & Hmin); auto. destruct (Hall x Hx) as (y & Hy & H0).
      specialize (Hmin y Hy). specialize (Hd x cl). lra. }
    rewrite (proj1 C1 Hsum). cbn [obind]. destruct elemts as [|e0 es]; [contradiction|]. eexists. reflexivity.
  - intros (x & Hx & Hnz). assert (Hsum : rsum ws <> 0).
    { intros H0. apply Hz in H0. rewrite Forall_forall in H0.
      destruct (nearest_dist clust x Hc) as (cl & Hcl & Hn & _); auto.
      assert (Hw : snd (nearest RNum Sp clust x) = 0) by (apply H0; apply (in_map (fun x => snd (nearest RNum Sp clust x))); exact Hx).
      rewrite Hn in Hw. apply (Hnz cl Hcl Hw). }
    destruct (C2 Hsum) as (n & Hn & Hk). rewrite Hk. cbn [obind].
    unfold ws in Hn. rewrite map_length in Hn.
    destruct (nth_error elemts n) as [z|] eqn:Hz'; [|apply nth_error_None in Hz'; lia].
    rewrite sget_nat, Hz'. cbn [obind]. exists z. split; [apply (nth_error_In elemts n Hz')|]. split; [reflexivity|].
    intros y Hy. assert (Hpos : 0 < snd (nearest RNum Sp clust z)).
    { apply (C5 n); [|exact Hk]. unfold ws. rewrite nth_error_map, Hz'. reflexivity. }
    destruct (nearest_dist clust z Hc) as (cl & Hcl & Hnd & Hmin); auto. specialize (Hmin y Hy). lra.
Qed.

Lemma spread_snoc elemts found x : found <> [] -> In x elemts -> spread Sp elemts found ->
  (forall y, In y found -> 0 < sdist Sp x y) -> spread Sp elemts (found ++ [scopy Sp x]).
Proof.
  intros Hne Hx Hs Hy i c Hi. apply nth_error_snoc_lt in Hi.
  destruct Hi as [Hi|[-> ->]].
  - assert (Hlt : (i < length found)%nat) by (apply nth_error_Some; congruence).
    destruct (Hs i c Hi) as (z & H1 & H2 & H3 & H4). exists z. repeat (split; [assumption|]).
    intros j y Hj Hjy. apply (H4 j y Hj). rewrite nth_error_app1 in Hjy by lia. exact Hjy.
  - exists x. split; [exact Hx|]. split; [intros H; destruct found; [contradiction|discriminate]|]. split; [auto|].
    intros j y Hj Hjy. rewrite nth_error_app1 in Hjy by lia. apply Hy. apply (nth_error_In found j Hjy).
Qed.

Lemma pp_loop_main degree elemts rs : (0 < degree)%Z -> elemts <> [] -> (forall x y, 0 <= sdist Sp x y) ->
  (forall i, 0 < rs i < 1) -> forall n i found, found <> [] -> spread Sp elemts found ->
  exists found' err, pp_loop RNum Sp degree n i found elemts rs = Ok (found', err) /\
    ((err = None /\ length found' = (length found + n)%nat /\ spread Sp elemts found') \/
     (err = Some ErrNullSet /\ exists prev c, found' = prev ++ [c] /\ (length prev < length found + n)%nat /\
        spread Sp elemts prev /\ forall x, In x elemts -> exists y, In y prev /\ sdist Sp x y = 0)).
Proof.
  intros Hdeg He Hd Hr. induction n as [|n IH]; intros i found Hne Hs; cbn [pp_loop].
  - exists found, None. split; [reflexivity|]. left. rewrite Nat.add_0_r. auto.
  - destruct (pp_iter_main degree found elemts (rs i) Hdeg Hne He Hd (Hr i)) as [P1 P2].
    assert (Hdec : (forall x, In x elemts -> exists y, In y found /\ sdist Sp x y = 0) \/
                   (exists x, In x elemts /\ forall y, In y found -> sdist Sp x y <> 0)).
    { clear -Hne Hd. induction elemts as [|e es IHe]; [left; intros x []|].
      destruct (nearest_dist found e Hne (fun y _ => Hd e y)) as (cl & Hcl & _ & Hmin).
      destruct (Req_dec (sdist Sp e cl) 0) as [H0|H0].
      - destruct IHe as [IHe|(x & Hx & Hy)].
        + left. intros x [<-|Hx]; [eauto|auto].
        + right. exists x. split; [right; exact Hx|exact Hy].
      - right. exists e. split; [left; reflexivity|]. intros y Hy Hz. specialize (Hmin y Hy). specialize (Hd e cl). lra. }
    destruct Hdec as [Hall|Hsome].
    + destruct (P1 Hall) as [c Hc]. rewrite Hc. cbn [obind snd fst]. exists (found ++ [c]), (Some ErrNullSet).
      split; [reflexivity|]. right. split; [reflexivity|]. exists found, c. split; [reflexivity|]. split; [lia|]. auto.
    + destruct (P2 Hsome) as (x & Hx & Hc & Hpos). rewrite Hc. cbn [obind snd fst].
      destruct (IH (S i) (found ++ [scopy Sp x])) as (f' & err & H1 & H2).
      { destruct found; discriminate. }
      { apply spread_snoc; auto. }
      exists f', err. split; [exact H1|]. rewrite app_length in H2. cbn [length] in H2.
      destruct H2 as [(A & B & C)|(A & prev & c & B & C & D)]; [left|right].
      * split; [exact A|]. split; [lia|exact C].
      * split; [exact A|]. exists prev, c. split; [exact B|]. split; [lia|exact D].
Qed.

Lemma pp_main : forall degree k (elemts : list E) draw (rs : nat -> R),
  (0 < degree)%Z -> (forall x y, 0 <= sdist Sp x y) -> (forall i, 0 < rs i < 1) ->
  ((k < 0)%Z -> pp_initializer RNum Sp degree k elemts draw rs = Panic) /\
  ((0 <= k)%Z -> (k < 1 \/ Z.of_nat (length elemts) < k)%Z ->
     exists e, e <> ErrNullSet /\ pp_initializer RNum Sp degree k elemts draw rs = Ok (repeat None (Z.to_nat k), Some e)) /\
  ((1 <= k <= Z.of_nat (length elemts))%Z -> (0 <= draw < Z.of_nat (length elemts))%Z ->
     (exists found, pp_initializer RNum Sp degree k elemts draw rs = Ok (map Some found, None) /\
        Z.of_nat (length found) = k /\ spread Sp elemts found) \/
     (exists cs prev, pp_initializer RNum Sp degree k elemts draw rs = Ok (cs, Some ErrNullSet) /\
        (Z.of_nat (length prev) < k)%Z /\ spread Sp elemts prev /\
        forall x, In x elemts -> exists y, In y prev /\ sdist Sp x y = 0)).
Proof.
  intros degree k elemts draw rs Hdeg Hd Hr. unfold pp_initializer, smake, check, slen. split; [|split].
  - intros H. destruct (Z.ltb_spec k 0); [reflexivity|lia].
  - intros H H'. destruct (Z.ltb_spec k 0); [lia|]. cbn [obind]. destruct (Z.ltb_spec k 1); [eexists; split; [|reflexivity]; discriminate|].
    destruct (Z.ltb_spec (Z.of_nat (length elemts)) k); [eexists; split; [|reflexivity]; discriminate|lia].
  - intros H Hdraw. destruct (Z.ltb_spec k 0); [lia|]. cbn [obind]. destruct (Z.ltb_spec k 1); [lia|].
    destruct (Z.ltb_spec (Z.of_nat (length elemts)) k); [lia|].
    destruct (nth_error elemts (Z.to_nat draw)) as [c0|] eqn:Hc0; [|apply nth_error_None in Hc0; lia].
    assert (Hg : sget elemts draw = Ok c0) by (apply sget_ok; split; [lia|exact Hc0]). rewrite Hg. cbn [obind].
    assert (Hin : In c0 elemts) by (apply (nth_error_In elemts _ Hc0)).
    destruct (pp_loop_main degree elemts rs Hdeg) with (n := (Z.to_nat k - 1)%nat) (i := 1%nat) (found := [c0])
      as (found & err & HL1 & HL2); auto.
    + intros ->. destruct Hin.
    + discriminate.
    + intros [|i] c Hi; [|destruct i; discriminate]. injection Hi as <-. exists c0. split; [exact Hin|].
      split; [auto|]. split; [congruence|]. intros j y Hj. lia.
    + rewrite HL1. cbn [obind]. destruct HL2 as [(-> & Hl & Hs)|(-> & prev & c & -> & Hl & Hs & Hall)].
      * left. exists found. cbn [length] in Hl. replace (Z.to_nat k - length found)%nat with 0%nat by lia. cbn [repeat].
        rewrite app_nil_r. split; [reflexivity|]. split; [lia|exact Hs].
      * right. eexists _, prev. split; [reflexivity|]. cbn [length] in Hl. split; [lia|]. auto.
Qed.

End PP.
