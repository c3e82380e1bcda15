(** Proofs about the streaming algorithm: C32-C37. *)
From Coq Require Import List ZArith Lia Bool Reals Lra Permutation.
From Flocq Require Import IEEE754.BinarySingleNaN.
From Verif Require Import Base.Go Base.Num Model.Clustering Model.Euclid Model.Streaming
  Spec.RealSpec Spec.NearestSpec Spec.StreamingSpec
  Proofs.GoLemmas Proofs.NumLaws Proofs.NearestProofs Proofs.RealLemmas Proofs.EuclidProofs.
Import ListNotations.

Lemma zsum_app l1 l2 : zsum (l1 ++ l2) = (zsum l1 + zsum l2)%Z.
Proof. induction l1 as [|x l1 IH]; cbn [app zsum fold_right]; [reflexivity|]. fold (zsum l1). fold (zsum (l1 ++ l2)). lia. Qed.

Lemma zsum_upd l : forall i n, nth_error l i = Some n -> zsum (upd l i (n + 1)%Z) = (zsum l + 1)%Z.
Proof.
  induction l as [|x l IH]; intros [|i] n H; cbn [nth_error] in H; try discriminate; cbn [upd zsum fold_right].
  - injection H as ->. fold (zsum l). lia.
  - fold (zsum l). fold (zsum (upd l i (n + 1)%Z)). rewrite (IH i n H). lia.
Qed.

Section Streaming.
Context {E F : Type} (N : Num F) (Sp : Space E F) (bs oa : Z) (ratio : F).
Notation st := (streaming E F).

(** The element becomes a new center, or is merged into the center [l]. *)
Definition added (s s' : st) (x : E) : Prop :=
  s_clust s' = s_clust s ++ [x] /\ s_cards s' = s_cards s ++ [1%Z].
Definition merged (s s' : st) (x : E) (l : nat) : Prop :=
  exists c n, nth_error (s_clust s) l = Some c /\ nth_error (s_cards s) l = Some n /\
    s_clust s' = upd (s_clust s) l (scombine Sp c n x 1) /\ s_cards s' = upd (s_cards s) l (n + 1)%Z.

Lemma sset_ok {A} (l : list A) i a r : sset l i a = Ok r -> exists n, i = Z.of_nat n /\ n < length l /\ r = upd l n a.
Proof.
  unfold sset. destruct (Z.ltb_spec i 0); [discriminate|]. destruct (Nat.ltb_spec (Z.to_nat i) (length l)); [|discriminate].
  intros [= <-]. exists (Z.to_nat i). split; [lia|]. auto.
Qed.

Lemma update_center_ok s l x d s' : update_center N Sp s l x d = Ok s' ->
  exists n, l = Z.of_nat n /\ merged s s' x n /\ s_max s' = update_max N (s_max s) d /\ s_queue s' = s_queue s /\ s_count s' = s_count s.
Proof.
  unfold update_center. intros H. destruct (sget (s_clust s) l) as [c|] eqn:Hc; [|discriminate]. cbn [obind] in H.
  destruct (sget (s_cards s) l) as [n|] eqn:Hn; [|discriminate]. cbn [obind] in H.
  destruct (sset (s_clust s) l (scombine Sp c n x 1)) as [cl|] eqn:Hcl; [|discriminate]. cbn [obind] in H.
  destruct (sset (s_cards s) l (n + 1)%Z) as [ca|] eqn:Hca; [|discriminate]. cbn [obind] in H. injection H as <-.
  apply sget_ok in Hc. destruct Hc as [Hl Hc]. apply sget_ok in Hn. destruct Hn as [_ Hn].
  exists (Z.to_nat l). split; [lia|]. apply sset_ok in Hcl. destruct Hcl as (i & -> & _ & ->).
  apply sset_ok in Hca. destruct Hca as (j & Hj & _ & ->). assert (j = i) by lia. subst j.
  rewrite Nat2Z.id in *. split; [|auto]. exists c, n. auto.
Qed.

(** Exact description of Process. *)
Lemma process_spec s x t cl l d : assign N Sp (s_clust s) x = Ok (cl, l, d) ->
  let m := if neqb N (s_max s) (nof N 0) then d else s_max s in
  let rel := ndiv N d m in
  process N Sp oa ratio s x t =
    let* s' := (if ((oa <=? s_count s)%Z && nltb N ratio rel)
                then Ok (add_outlier (mkStreaming m (s_clust s) (s_cards s) (s_queue s) (s_count s)) x)
                else if nltb N t rel then Ok (add_center N (mkStreaming m (s_clust s) (s_cards s) (s_queue s) (s_count s)) x d)
                else update_center N Sp (mkStreaming m (s_clust s) (s_cards s) (s_queue s) (s_count s)) l x d) in
    Ok (mkStreaming (s_max s') (s_clust s') (s_cards s') (s_queue s') (s_count s' + 1)%Z).
Proof. intros H. unfold process. rewrite H. reflexivity. Qed.

Lemma process_cases s x t s' : process N Sp oa ratio s x t = Ok s' ->
  s_queue s' = s_queue s /\ s_count s' = (s_count s + 1)%Z /\ (added s s' x \/ exists l, merged s s' x l).
Proof.
  intros H. unfold process in H. destruct (assign N Sp (s_clust s) x) as [[[cl l] d]|] eqn:Ha; [|discriminate].
  fold (process N Sp oa ratio s x t) in H. cbn [obind] in H. unfold relative_distance in H.
  set (m := if neqb N (s_max s) (nof N 0) then d else s_max s) in *. cbn [s_count] in H.
  destruct ((oa <=? s_count s)%Z && nltb N ratio (ndiv N d m)).
  - cbn [obind] in H. injection H as <-. cbn. split; [reflexivity|]. split; [reflexivity|]. left. split; reflexivity.
  - destruct (nltb N t (ndiv N d m)).
    + cbn [obind] in H. injection H as <-. cbn. split; [reflexivity|]. split; [reflexivity|]. left. split; reflexivity.
    + destruct (update_center N Sp (mkStreaming m (s_clust s) (s_cards s) (s_queue s) (s_count s)) l x d) as [s1|] eqn:Hu; [|discriminate].
      cbn [obind] in H. injection H as <-. apply update_center_ok in Hu. destruct Hu as (n & -> & Hm & _ & Hq & Hc).
      cbn [s_queue s_count] in *. rewrite Hq, Hc. split; [reflexivity|]. split; [reflexivity|]. right. exists n. exact Hm.
Qed.

(** One call. *)
Lemma sstep_cases (s : st) o r s' : sstep N Sp bs oa ratio s o = Ok (s', r) ->
  match o with
  | SPush x =>
      s_max s' = s_max s /\ s_clust s' = s_clust s /\ s_cards s' = s_cards s /\ s_count s' = s_count s /\
      (((Z.of_nat (length (s_queue s)) < bs)%Z /\ r = RPush false /\ s_queue s' = s_queue s ++ [x]) \/
       ((bs <= Z.of_nat (length (s_queue s)))%Z /\ r = RPush true /\ s' = s))
  | SInit =>
      match s_queue s with
      | [] => s' = s /\ r = RInit None
      | x :: q => s_queue s' = q /\ r = RInit (Some [x]) /\ added s s' x /\ s_count s' = s_count s /\ s_max s' = update_max N (s_max s) (nof N 0)
      end
  | SIterate t =>
      match s_queue s with
      | [] => s' = s /\ r = RIterate None
      | x :: q => s_queue s' = q /\ r = RIterate (Some (s_clust s')) /\ (added s s' x \/ exists l, merged s s' x l) /\
          s_count s' = (s_count s + 1)%Z /\
          process N Sp oa ratio (mkStreaming (s_max s) (s_clust s) (s_cards s) q (s_count s)) x t = Ok s'
      end
  end.
Proof.
  intros H. destruct o as [x| |t]; cbn [sstep] in H.
  - unfold streaming_push, slen in H. destruct (Z.ltb_spec (Z.of_nat (length (s_queue s))) bs); injection H as <- <-; cbn; auto 10.
  - unfold streaming_init in H. destruct (s_queue s) as [|x q] eqn:Hq; injection H as <- <-; [auto|]. cbn. unfold added. cbn. auto.
  - unfold streaming_iterate in H. destruct (s_queue s) as [|x q] eqn:Hq; [cbn in H; injection H as <- <-; auto|].
    destruct (process N Sp oa ratio (mkStreaming (s_max s) (s_clust s) (s_cards s) q (s_count s)) x t) as [s1|] eqn:Hp; [|discriminate].
    cbn in H. injection H as <- <-. pose proof (process_cases _ _ _ _ Hp) as (P1 & P2 & P3). cbn [s_queue s_count] in *.
    repeat (split; auto).
Qed.

Definition acc_inv (s : st) (n : nat) : Prop :=
  length (s_clust s) = length (s_cards s) /\ Forall (fun c => (1 <= c)%Z) (s_cards s) /\ zsum (s_cards s) = Z.of_nat n.

Lemma added_acc s s' x n : acc_inv s n -> added s s' x -> acc_inv s' (S n).
Proof.
  intros (H1 & H2 & H3) [A1 A2]. unfold acc_inv. rewrite A1, A2. repeat split.
  - rewrite !app_length, H1. reflexivity.
  - apply Forall_app. split; [exact H2|]. repeat constructor. lia.
  - rewrite zsum_app. cbn. lia.
Qed.

Lemma merged_acc s s' x l n : acc_inv s n -> merged s s' x l -> acc_inv s' (S n).
Proof.
  intros (H1 & H2 & H3) (c & k & Hc & Hk & A1 & A2). unfold acc_inv. rewrite A1, A2. repeat split.
  - rewrite !upd_length. exact H1.
  - apply Forall_forall. intros z Hz. apply In_nth_error in Hz. destruct Hz as [j Hj]. rewrite nth_error_upd in Hj.
    rewrite Forall_forall in H2. destruct (Nat.eqb_spec j l); cbn [andb] in Hj.
    + assert (Hlt : l < length (s_cards s)) by (apply nth_error_Some; congruence).
      destruct (Nat.ltb_spec l (length (s_cards s))); [|lia]. assert (z = (k + 1)%Z) by congruence. subst z.
      specialize (H2 k (nth_error_In _ _ Hk)). lia.
    + apply H2. apply (nth_error_In _ _ Hj).
  - rewrite zsum_upd by exact Hk. lia.
Qed.

Lemma sexec_acc s ops rs s' : sexec N Sp bs oa ratio s ops rs s' -> forall n, acc_inv s n -> acc_inv s' (n + taken rs).
Proof.
  induction 1 as [s|s o r s1 ops rs s2 H1 H2 IH]; intros n Hn; [cbn; rewrite Nat.add_0_r; exact Hn|].
  change (taken (r :: rs)) with (takes r + taken rs).
  replace (n + (takes r + taken rs)) with ((n + takes r) + taken rs) by lia. apply IH.
  pose proof (sstep_cases _ _ _ _ H1) as Hc. destruct o as [x| |t].
  - destruct Hc as (_ & C1 & C2 & _ & C3). destruct C3 as [(_ & -> & _)|(_ & -> & ->)]; cbn [takes]; rewrite Nat.add_0_r.
    + unfold acc_inv in *. rewrite C1, C2. exact Hn.
    + exact Hn.
  - destruct (s_queue s) as [|x q]; [destruct Hc as [-> ->]; cbn [takes]; rewrite Nat.add_0_r; exact Hn|].
    destruct Hc as (_ & -> & Ha & _). cbn [takes]. rewrite Nat.add_1_r. apply (added_acc s s1 x n Hn Ha).
  - destruct (s_queue s) as [|x q]; [destruct Hc as [-> ->]; cbn [takes]; rewrite Nat.add_0_r; exact Hn|].
    destruct Hc as (_ & -> & Ha & _). cbn [takes]. rewrite Nat.add_1_r. destruct Ha as [Ha|[l Ha]].
    + apply (added_acc s s1 x n Hn Ha).
    + apply (merged_acc s s1 x l n Hn Ha).
Qed.

Lemma sexec_queue s ops rs s' : sexec N Sp bs oa ratio s ops rs s' ->
  taken rs <= length (s_queue s ++ accepted ops rs) /\
  s_queue s' = skipn (taken rs) (s_queue s ++ accepted ops rs).
Proof.
  induction 1 as [s|s o r s1 ops rs s2 H1 H2 [IH1 IH2]]; [cbn; rewrite app_nil_r; split; [lia|reflexivity]|].
  change (taken (r :: rs)) with (takes r + taken rs).
  pose proof (sstep_cases _ _ _ _ H1) as Hc. destruct o as [x| |t].
  - destruct Hc as (_ & _ & _ & _ & [(_ & -> & Hq)|(_ & -> & ->)]); cbn [takes accepted Nat.add].
    + rewrite Hq, <- app_assoc in *. cbn [app] in *. rewrite IH2. split; [exact IH1|]. reflexivity.
    + split; assumption.
  - destruct (s_queue s) as [|x q] eqn:Hq.
    + destruct Hc as [-> ->]. cbn [takes accepted Nat.add]. rewrite Hq in *. split; assumption.
    + destruct Hc as (Hq1 & -> & _). cbn [takes accepted Nat.add app length skipn]. rewrite Hq1 in *. split; [|exact IH2]. lia.
  - destruct (s_queue s) as [|x q] eqn:Hq.
    + destruct Hc as [-> ->]. cbn [takes accepted Nat.add]. rewrite Hq in *. split; assumption.
    + destruct Hc as (Hq1 & -> & _). cbn [takes accepted Nat.add app length skipn]. rewrite Hq1 in *. split; [|exact IH2]. lia.
Qed.

Lemma sexec_bound s ops rs s' : sexec N Sp bs oa ratio s ops rs s' ->
  (Z.of_nat (length (s_queue s)) <= bs)%Z -> (Z.of_nat (length (s_queue s')) <= bs)%Z.
Proof.
  induction 1 as [s|s o r s1 ops rs s2 H1 H2 IH]; intros Hb; [exact Hb|]. apply IH.
  pose proof (sstep_cases _ _ _ _ H1) as Hc. destruct o as [x| |t].
  - destruct Hc as (_ & _ & _ & _ & [(Hlt & _ & Hq)|(_ & _ & ->)]); [|exact Hb].
    rewrite Hq, app_length. cbn [length]. lia.
  - destruct (s_queue s) as [|x q] eqn:Hq; [destruct Hc as [-> _]; rewrite Hq; exact Hb|]. destruct Hc as (-> & _). cbn [length] in Hb. lia.
  - destruct (s_queue s) as [|x q] eqn:Hq; [destruct Hc as [-> _]; rewrite Hq; exact Hb|]. destruct Hc as (-> & _). cbn [length] in Hb. lia.
Qed.

Lemma sexec_app s ops1 rs1 s1 ops2 rs2 s2 : sexec N Sp bs oa ratio s ops1 rs1 s1 -> sexec N Sp bs oa ratio s1 ops2 rs2 s2 ->
  sexec N Sp bs oa ratio s (ops1 ++ ops2) (rs1 ++ rs2) s2.
Proof. induction 1 as [s|s o r sm ops rs s3 H1 H2 IH]; intros H; [exact H|]. econstructor; [exact H1|]. apply IH. exact H. Qed.

Lemma new_acc elemts : acc_inv (new_streaming N elemts) 0.
Proof. repeat split. constructor. Qed.
End Streaming.

(** ** C32 *)
Lemma accounting_main : forall E F (N : Num F) (Sp : Space E F) bs oa ratio (elemts : list E) ops rs s,
  sexec N Sp bs oa ratio (new_streaming N elemts) ops rs s ->
  length (s_clust s) = length (s_cards s) /\
  Forall (fun c => (1 <= c)%Z) (s_cards s) /\
  zsum (s_cards s) = Z.of_nat (taken rs).
Proof. intros E F N Sp bs oa ratio elemts ops rs s H. apply (sexec_acc N Sp bs oa ratio _ _ _ _ H 0). apply new_acc. Qed.

Lemma accounting_step : forall E F (N : Num F) good, NumOrd N good -> forall (Sp : Space E F) bs oa ratio (elemts : list E) ops rs s t,
  sexec N Sp bs oa ratio (new_streaming N elemts) ops rs s ->
  (s_queue s = [] -> sstep N Sp bs oa ratio s (SIterate t) = Ok (s, RIterate None)) /\
  (forall x q, s_queue s = x :: q -> s_clust s <> [] ->
   exists s', sstep N Sp bs oa ratio s (SIterate t) = Ok (s', RIterate (Some (s_clust s'))) /\ s_queue s' = q /\
     ((s_clust s' = s_clust s ++ [x] /\ s_cards s' = s_cards s ++ [1%Z]) \/
      (exists l c n, nth_error (s_clust s) l = Some c /\ nth_error (s_cards s) l = Some n /\
         s_clust s' = upd (s_clust s) l (scombine Sp c n x 1) /\ s_cards s' = upd (s_cards s) l (n + 1)%Z))).
Proof.
  intros E F N good HN Sp bs oa ratio elemts ops rs s t H. split.
  - intros Hq. cbn. unfold streaming_iterate. rewrite Hq. reflexivity.
  - intros x q Hq Hc. assert (Hex : exists s', sstep N Sp bs oa ratio s (SIterate t) = Ok (s', RIterate (Some (s_clust s')))).
    { cbn [sstep]. unfold streaming_iterate. rewrite Hq.
      destruct (assign_valid N Sp good HN (s_clust s) x Hc) as (l & cl & Ha & Hn).
      set (s0 := mkStreaming (s_max s) (s_clust s) (s_cards s) q (s_count s)).
      rewrite (process_spec N Sp oa ratio s0 x t (Some cl) (Z.of_nat l) (sdist Sp x cl) Ha). cbv zeta.
      match goal with |- context [if ?b then Ok (add_outlier _ _) else _] => destruct b end; [eexists; reflexivity|].
      match goal with |- context [if ?b then Ok (add_center _ _ _ _) else _] => destruct b end; [eexists; reflexivity|].
      unfold update_center. cbn [s_clust s_cards s0].
      destruct (accounting_main _ _ _ _ _ _ _ _ _ _ _ H) as (Hlen & _).
      assert (Hl : l < length (s_clust s)) by (apply nth_error_Some; congruence).
      destruct (nth_error (s_cards s) l) as [n|] eqn:Hn'; [|apply nth_error_None in Hn'; lia].
      rewrite !sget_nat, Hn, Hn'. cbn [obind]. rewrite !sset_nat by lia.
      cbn [obind]. eexists; reflexivity. }
    destruct Hex as [s' Hs']. exists s'. split; [exact Hs'|].
    pose proof (sstep_cases N Sp bs oa ratio _ _ _ _ Hs') as Hcase. cbn in Hcase. rewrite Hq in Hcase.
    destruct Hcase as (Hq' & _ & Ha & _). split; [exact Hq'|]. exact Ha.
Qed.

(** ** C34 *)
Lemma queue_main : forall E F (N : Num F) (Sp : Space E F) bs oa ratio (elemts : list E) ops rs s,
  (Z.of_nat (length elemts) <= bs)%Z ->
  sexec N Sp bs oa ratio (new_streaming N elemts) ops rs s ->
  taken rs <= length (elemts ++ accepted ops rs) /\
  s_queue s = skipn (taken rs) (elemts ++ accepted ops rs) /\
  (Z.of_nat (length (s_queue s)) <= bs)%Z /\
  (forall x, exists s' full, sstep N Sp bs oa ratio s (SPush x) = Ok (s', RPush full) /\
     (full = true <-> Z.of_nat (length (s_queue s)) = bs) /\ (full = true -> s' = s)) /\
  (exists s' r, sstep N Sp bs oa ratio s SInit = Ok (s', RInit r) /\
     (r = None <-> s_queue s = []) /\ (r = None -> s' = s) /\
     forall x q, s_queue s = x :: q -> r = Some [x] /\ s_queue s' = q) /\
  (s_queue s = [] -> forall t, sstep N Sp bs oa ratio s (SIterate t) = Ok (s, RIterate None)).
Proof.
  intros E F N Sp bs oa ratio elemts ops rs s Hb H.
  destruct (sexec_queue N Sp bs oa ratio _ _ _ _ H) as [Q1 Q2]. pose proof (sexec_bound N Sp bs oa ratio _ _ _ _ H Hb) as Q3.
  cbn [new_streaming s_queue] in Q1, Q2. split; [exact Q1|]. split; [exact Q2|]. split; [exact Q3|]. split; [|split].
  - intros x. cbn [sstep]. unfold streaming_push, slen. destruct (Z.ltb_spec (Z.of_nat (length (s_queue s))) bs).
    + do 2 eexists. split; [reflexivity|]. split; [split; [discriminate|lia]|discriminate].
    + exists s, true. split; [reflexivity|]. split; [split; [lia|reflexivity]|reflexivity].
  - cbn [sstep]. unfold streaming_init. destruct (s_queue s) as [|x q] eqn:Hq.
    + exists s, None. split; [reflexivity|]. split; [split; reflexivity|]. split; [reflexivity|]. intros x q Hx. discriminate.
    + do 2 eexists. split; [reflexivity|]. split; [split; discriminate|]. split; [discriminate|]. intros x' q' [= -> ->]. split; reflexivity.
  - intros Hq t. cbn. unfold streaming_iterate. rewrite Hq. reflexivity.
Qed.

(** ** C36 *)
Lemma outlier_main : forall E F (N : Num F) (Sp : Space E F) oa ratio (s : streaming E F) x t cl l d s',
  assign N Sp (s_clust s) x = Ok (cl, l, d) ->
  process N Sp oa ratio s x t = Ok s' ->
  let m := if neqb N (s_max s) (nof N 0) then d else s_max s in
  let relative := ndiv N d m in
  ((oa <= s_count s)%Z -> nltb N ratio relative = true ->
     s_clust s' = s_clust s ++ [x] /\ s_cards s' = s_cards s ++ [1%Z] /\ s_max s' = m) /\
  ((s_count s < oa)%Z \/ nltb N ratio relative = false ->
     (nltb N t relative = true -> s_clust s' = s_clust s ++ [x] /\ s_cards s' = s_cards s ++ [1%Z] /\
        s_max s' = if nltb N m d then d else m) /\
     (nltb N t relative = false -> exists i c n, l = Z.of_nat i /\
        nth_error (s_clust s) i = Some c /\ nth_error (s_cards s) i = Some n /\
        s_clust s' = upd (s_clust s) i (scombine Sp c n x 1) /\ s_cards s' = upd (s_cards s) i (n + 1)%Z /\
        s_max s' = if nltb N m d then d else m)) /\
  s_queue s' = s_queue s /\ s_count s' = (s_count s + 1)%Z.
Proof.
  intros E F N Sp oa ratio s x t cl l d s' Ha Hp m relative.
  pose proof (process_cases N Sp oa ratio _ _ _ _ Hp) as (P1 & P2 & _).
  rewrite (process_spec N Sp oa ratio s x t _ _ _ Ha) in Hp. cbv zeta in Hp. fold m relative in Hp.
  split; [|split; [|auto]].
  - intros H1 H2. destruct (Z.leb_spec oa (s_count s)); [|lia]. rewrite H2 in Hp. cbn in Hp. injection Hp as <-. cbn. auto.
  - intros Hno. assert (Hb : ((oa <=? s_count s)%Z && nltb N ratio relative)%bool = false).
    { destruct Hno as [Hno|Hno]; [destruct (Z.leb_spec oa (s_count s)); [lia|reflexivity]|rewrite Hno; apply andb_false_r]. }
    rewrite Hb in Hp. split; intros Ht; rewrite Ht in Hp.
    + cbn in Hp. injection Hp as <-. cbn. auto.
    + destruct (update_center N Sp (mkStreaming m (s_clust s) (s_cards s) (s_queue s) (s_count s)) l x d) as [s1|] eqn:Hu; [|discriminate].
      cbn [obind] in Hp. injection Hp as <-. apply update_center_ok in Hu. destruct Hu as (i & -> & (c & n & M1 & M2 & M3 & M4) & Hm & _ & _).
      cbn in *. exists i, c, n. repeat (split; [assumption || reflexivity|]). exact Hm.
Qed.

(** Over the reals, with a positive maximal distance, the rule compares with OutRatio * max. *)
Lemma outlier_real : forall (max ratio d : R), (0 < max)%R ->
  (nltb RNum ratio (ndiv RNum d (if neqb RNum max (nof RNum 0) then d else max)) = true <-> (ratio * max < d)%R).
Proof.
  intros max ratio d H. change (neqb RNum max (nof RNum 0)) with (Reqb max 0).
  rewrite (proj2 (Reqb_false max 0)) by lra. change (Rltb ratio (d / max) = true <-> (ratio * max < d)%R). rewrite Rltb_true.
  split; intros H1.
  - apply (Rmult_lt_compat_r max) in H1; [|exact H]. unfold Rdiv in H1. rewrite Rmult_assoc, Rinv_l, Rmult_1_r in H1 by lra. exact H1.
  - apply (Rmult_lt_reg_r max); [exact H|]. unfold Rdiv. rewrite Rmult_assoc, Rinv_l, Rmult_1_r by lra. exact H1.
Qed.

(** ** C35 *)
Section Max.
Context {E F : Type} (N : Num F) (good : F -> Prop) (HN : NumOrd N good).
Hypothesis Heq0 : forall x, neqb N x (nof N 0) = true -> nleb N x (nof N 0) = true.
Context (Sp : Space E F) (bs oa : Z) (ratio : F).
Hypothesis Hdist : forall x y, good (sdist Sp x y) /\ nleb N (nof N 0) (sdist Sp x y) = true.

Definition good_max (m : F) : Prop := good m /\ nleb N (nof N 0) m = true.

Lemma update_max_le m d : good m -> good d -> nleb N m (update_max N m d) = true /\ nleb N d (update_max N m d) = true.
Proof.
  intros Hm Hd. unfold update_max. destruct (nltb N m d) eqn:H.
  - split; [apply (ltb_true_leb N good HN); assumption|apply (leb_refl N good HN); assumption].
  - split; [apply (leb_refl N good HN); assumption|apply (ltb_false_leb N good HN); assumption].
Qed.

Lemma update_max_good m d : good_max m -> good d -> good_max (update_max N m d).
Proof.
  intros [Hm H0] Hd. destruct (update_max_le m d Hm Hd) as [H1 _]. split.
  - unfold update_max. destruct (nltb N m d); assumption.
  - apply (leb_trans N good HN) with (y := m); auto; [apply (good_of N good HN)|unfold update_max; destruct (nltb N m d); assumption].
Qed.

Lemma first_max_le m d : good_max m -> good d -> nleb N (nof N 0) d = true ->
  let m' := if neqb N m (nof N 0) then d else m in good_max m' /\ nleb N m m' = true.
Proof.
  intros [Hm H0] Hd Hd0. cbn zeta. destruct (neqb N m (nof N 0)) eqn:He.
  - split; [split; assumption|]. apply (leb_trans N good HN) with (y := nof N 0); auto. apply (good_of N good HN).
  - split; [split; assumption|]. apply (leb_refl N good HN). exact Hm.
Qed.

Lemma sstep_max s o s' r : good_max (s_max s) -> s_clust s <> [] \/ (forall t, o <> SIterate t) ->
  sstep N Sp bs oa ratio s o = Ok (s', r) -> good_max (s_max s') /\ nleb N (s_max s) (s_max s') = true.
Proof.
  intros Hm Hc Hs. pose proof (sstep_cases N Sp bs oa ratio _ _ _ _ Hs) as Hcase. destruct o as [x| |t].
  - destruct Hcase as (-> & _). split; [exact Hm|]. apply (leb_refl N good HN). apply Hm.
  - destruct (s_queue s) as [|x q]; [destruct Hcase as [-> _]; split; [exact Hm|apply (leb_refl N good HN); apply Hm]|].
    destruct Hcase as (_ & _ & _ & _ & ->). split; [apply update_max_good; [exact Hm|apply (good_of N good HN)]|].
    apply update_max_le; [apply Hm|apply (good_of N good HN)].
  - destruct Hc as [Hc|Hc]; [|exfalso; apply (Hc t); reflexivity].
    destruct (s_queue s) as [|x q]; [destruct Hcase as [-> _]; split; [exact Hm|apply (leb_refl N good HN); apply Hm]|].
    destruct Hcase as (_ & _ & _ & _ & Hp).
    destruct (assign_valid N Sp good HN (s_clust s) x Hc) as (l & cl & Ha & _).
    set (s0 := mkStreaming (s_max s) (s_clust s) (s_cards s) q (s_count s)) in *.
    destruct (outlier_main E F N Sp oa ratio s0 x t _ _ _ s' Ha Hp) as (O1 & O2 & _).
    cbn [s0 s_max s_count] in O1, O2. destruct (Hdist x cl) as [Hd Hd0]. set (d := sdist Sp x cl) in *.
    destruct (first_max_le (s_max s) d Hm Hd Hd0) as [F1 F2]. set (m := if neqb N (s_max s) (nof N 0) then d else s_max s) in *.
    assert (Hu : good_max (if nltb N m d then d else m) /\ nleb N (s_max s) (if nltb N m d then d else m) = true).
    { split; [apply (update_max_good m d F1 Hd)|]. apply (leb_trans N good HN) with (y := m); try apply F1; try apply Hm.
      - destruct (nltb N m d); [exact Hd|apply F1].
      - exact F2.
      - apply (update_max_le m d); [apply F1|exact Hd]. }
    destruct (Z.lt_ge_cases (s_count s) oa) as [Hlt|Hge].
    + destruct (nltb N t (ndiv N d m)) eqn:Ht.
      * destruct (proj1 (O2 (or_introl Hlt)) eq_refl) as (_ & _ & ->). exact Hu.
      * destruct (proj2 (O2 (or_introl Hlt)) eq_refl) as (i & c & n & _ & _ & _ & _ & _ & ->). exact Hu.
    + destruct (nltb N ratio (ndiv N d m)) eqn:Hr.
      * destruct (O1 Hge eq_refl) as (_ & _ & ->). auto.
      * destruct (nltb N t (ndiv N d m)) eqn:Ht.
        -- destruct (proj1 (O2 (or_intror eq_refl)) eq_refl) as (_ & _ & ->). exact Hu.
        -- destruct (proj2 (O2 (or_intror eq_refl)) eq_refl) as (i & c & n & _ & _ & _ & _ & _ & ->). exact Hu.
Qed.

(** An iteration never runs with an empty set of centers when initializations come first. *)
Lemma sstep_clust_ne s o s' r : s_clust s <> [] -> sstep N Sp bs oa ratio s o = Ok (s', r) -> s_clust s' <> [].
Proof.
  intros Hc Hs. pose proof (sstep_cases N Sp bs oa ratio _ _ _ _ Hs) as Hcase. destruct o as [x| |t].
  - destruct Hcase as (_ & -> & _). exact Hc.
  - destruct (s_queue s); [destruct Hcase as [-> _]; exact Hc|]. destruct Hcase as (_ & _ & [-> _] & _). destruct (s_clust s); discriminate.
  - destruct (s_queue s); [destruct Hcase as [-> _]; exact Hc|]. destruct Hcase as (_ & _ & [[-> _]|(l0 & c0 & n0 & _ & _ & -> & _)] & _).
    + destruct (s_clust s); discriminate.
    + intros Hn. apply (f_equal (@length E)) in Hn. rewrite upd_length in Hn. destruct (s_clust s); [contradiction|discriminate].
Qed.

Lemma sexec_max s ops rs s' : good_max (s_max s) -> s_clust s <> [] ->
  sexec N Sp bs oa ratio s ops rs s' -> good_max (s_max s') /\ nleb N (s_max s) (s_max s') = true.
Proof.
  intros Hm Hc H. revert Hm Hc. induction H as [s|s o r s1 ops rs s2 H1 H2 IH]; intros Hm Hc.
  - split; [exact Hm|apply (leb_refl N good HN); apply Hm].
  - destruct (sstep_max s o s1 r Hm (or_introl Hc) H1) as [M1 M2].
    destruct (IH M1 (sstep_clust_ne _ _ _ _ Hc H1)) as [M3 M4]. split; [exact M3|].
    apply (leb_trans N good HN) with (y := s_max s1); auto; [apply Hm|apply M1|apply M3].
Qed.
End Max.

Section MaxMain.
Context {E F : Type} (N : Num F) (good : F -> Prop) (HN : NumOrd N good).
Hypothesis Heq0 : forall x, neqb N x (nof N 0) = true -> nleb N x (nof N 0) = true.
Context (Sp : Space E F) (bs oa : Z) (ratio : F).
Hypothesis Hdist : forall x y, good (sdist Sp x y) /\ nleb N (nof N 0) (sdist Sp x y) = true.

Lemma init_first_cons_noinit (r : sres E) rs : init_first (r :: rs) -> (forall c, r <> RInit (Some c)) ->
  (forall c, r <> RIterate (Some c)) /\ init_first rs.
Proof.
  intros H Hr. split.
  - intros c ->. destruct (H [] c rs eq_refl) as [c' []].
  - intros pre c post ->. destruct (H (r :: pre) c post eq_refl) as [c' [Hc|Hc]]; [exfalso; eapply Hr; exact Hc|eauto].
Qed.

Lemma sexec_init_first s ops rs s' : sexec N Sp bs oa ratio s ops rs s' ->
  good_max N good (s_max s) -> s_clust s <> [] \/ init_first rs ->
  good_max N good (s_max s') /\ nleb N (s_max s) (s_max s') = true.
Proof.
  induction 1 as [s|s o r s1 ops rs s2 H1 H2 IH]; intros Hm Hc.
  - split; [exact Hm|apply (leb_refl N good HN); apply Hm].
  - destruct Hc as [Hc|Hc].
    { apply (sexec_max N good HN Heq0 Sp bs oa ratio Hdist s (o :: ops) (r :: rs) s2 Hm Hc). econstructor; eassumption. }
    assert (Hstep : (good_max N good (s_max s1) /\ nleb N (s_max s) (s_max s1) = true) /\ (s_clust s1 <> [] \/ init_first rs)).
    { pose proof (sstep_cases N Sp bs oa ratio _ _ _ _ H1) as Hcase. destruct o as [x| |t].
      - split; [apply (sstep_max N good HN Heq0 Sp bs oa ratio Hdist s (SPush x) s1 r Hm); [right; discriminate|exact H1]|].
        right. apply (init_first_cons_noinit r); [exact Hc|].
        destruct Hcase as (_ & _ & _ & _ & [(_ & -> & _)|(_ & -> & _)]); discriminate.
      - split; [apply (sstep_max N good HN Heq0 Sp bs oa ratio Hdist s SInit s1 r Hm); [right; discriminate|exact H1]|].
        destruct (s_queue s) as [|x q].
        + destruct Hcase as [-> ->]. right. apply (init_first_cons_noinit (RInit None)); [exact Hc|discriminate].
        + destruct Hcase as (_ & _ & [-> _] & _). left. destruct (s_clust s); discriminate.
      - destruct (s_queue s) as [|x q].
        + destruct Hcase as [-> ->]. split; [split; [exact Hm|apply (leb_refl N good HN); apply Hm]|].
          right. apply (init_first_cons_noinit (RIterate None)); [exact Hc|discriminate].
        + destruct Hcase as (_ & -> & _). exfalso.
          destruct (init_first_cons_noinit _ _ Hc ltac:(discriminate)) as [Hbad _]. eapply Hbad. reflexivity. }
    destruct Hstep as [[M1 M2] Hc1]. destruct (IH M1 Hc1) as [M3 M4]. split; [exact M3|].
    apply (leb_trans N good HN) with (y := s_max s1); auto; [apply Hm|apply M1|apply M3].
Qed.

Lemma clust_ne s ops rs s' : sexec N Sp bs oa ratio s ops rs s' ->
  (exists c, In (RInit (Some c)) rs) \/ s_clust s <> [] -> s_clust s' <> [].
Proof.
  induction 1 as [s|s o r s1 ops rs s2 H1 H2 IH]; intros H.
  - destruct H as [[c []]|H]; exact H.
  - apply IH. destruct H as [[c [->|Hc]]|H].
    + right. pose proof (sstep_cases N Sp bs oa ratio _ _ _ _ H1) as Hcase. destruct o as [x| |t].
      * destruct Hcase as (_ & _ & _ & _ & [(_ & C & _)|(_ & C & _)]); discriminate.
      * destruct (s_queue s) as [|x q]; [destruct Hcase; discriminate|]. destruct Hcase as (_ & _ & [-> _] & _). destruct (s_clust s); discriminate.
      * destruct (s_queue s) as [|x q]; [destruct Hcase; discriminate|]. destruct Hcase as (_ & C & _). discriminate.
    + left. eauto.
    + right. eapply sstep_clust_ne; eassumption.
Qed.

Lemma init_first_app (rs1 rs2 : list (sres E)) : init_first (rs1 ++ rs2) -> init_first rs1.
Proof. intros H pre c post ->. apply (H pre c (post ++ rs2)). rewrite <- app_assoc. reflexivity. Qed.

Lemma max_section elemts ops1 rs1 s1 ops2 rs2 s2 :
  sexec N Sp bs oa ratio (new_streaming N elemts) ops1 rs1 s1 ->
  sexec N Sp bs oa ratio s1 ops2 rs2 s2 -> init_first (rs1 ++ rs2) ->
  nleb N (s_max s1) (s_max s2) = true.
Proof.
  intros H1 H2 Hi.
  assert (Hm0 : good_max N good (s_max (new_streaming (E := E) N elemts))).
  { split; [apply (good_of N good HN)|]. apply (leb_refl N good HN). apply (good_of N good HN). }
  destruct (sexec_init_first _ _ _ _ H1 Hm0 (or_intror (init_first_app _ _ Hi))) as [M1 _].
  assert (Hc : s_clust s1 <> [] \/ init_first rs2).
  { destruct (s_clust s1) as [|c0 cs] eqn:Hc; [right|left; discriminate].
    intros pre c post ->. rewrite app_assoc in Hi. destruct (Hi (rs1 ++ pre) c post eq_refl) as [c' Hin].
    apply in_app_or in Hin. destruct Hin as [Hin|Hin]; [|eauto].
    exfalso. apply (clust_ne _ _ _ _ H1); [left; eauto|exact Hc]. }
  apply (sexec_init_first _ _ _ _ H2 M1 Hc).
Qed.

Lemma max_bound elemts ops1 rs1 s1 t s2 cl ops2 rs2 s3 x q a l d :
  sexec N Sp bs oa ratio (new_streaming N elemts) ops1 rs1 s1 ->
  sstep N Sp bs oa ratio s1 (SIterate t) = Ok (s2, RIterate (Some cl)) ->
  sexec N Sp bs oa ratio s2 ops2 rs2 s3 -> init_first (rs1 ++ RIterate (Some cl) :: rs2) ->
  s_queue s1 = x :: q -> assign N Sp (s_clust s1) x = Ok (a, l, d) ->
  let m := if neqb N (s_max s1) (nof N 0) then d else s_max s1 in
  ((s_count s1 < oa)%Z \/ nltb N ratio (ndiv N d m) = false -> nleb N d (s_max s3) = true) /\
  ((oa <= s_count s1)%Z -> nltb N ratio (ndiv N d m) = true -> s_max s2 = m).
Proof.
  intros H1 Hs H2 Hi Hq Ha m.
  assert (Hm0 : good_max N good (s_max (new_streaming (E := E) N elemts))).
  { split; [apply (good_of N good HN)|]. apply (leb_refl N good HN). apply (good_of N good HN). }
  destruct (sexec_init_first _ _ _ _ H1 Hm0 (or_intror (init_first_app _ _ Hi))) as [M1 _].
  assert (Hc : s_clust s1 <> []).
  { destruct (Hi rs1 cl rs2 eq_refl) as [c' Hin]. apply (clust_ne _ _ _ _ H1). left. eauto. }
  assert (Hc2 : s_clust s2 <> []) by (eapply sstep_clust_ne; eassumption).
  destruct (sstep_max N good HN Heq0 Sp bs oa ratio Hdist s1 _ s2 _ M1 (or_introl Hc) Hs) as [M2 _].
  destruct (sexec_init_first _ _ _ _ H2 M2 (or_introl Hc2)) as [M3 M4].
  pose proof (sstep_cases N Sp bs oa ratio _ _ _ _ Hs) as Hcase. cbn in Hcase. rewrite Hq in Hcase.
  destruct Hcase as (_ & _ & _ & _ & Hp).
  destruct (outlier_main E F N Sp oa ratio (mkStreaming (s_max s1) (s_clust s1) (s_cards s1) q (s_count s1)) x t _ _ _ s2 Ha Hp) as (O1 & O2 & _). cbn [s_max s_count] in O1, O2.
  fold m in O1, O2. split; [|intros A B; apply (O1 A B)].
  intros Hno.
  destruct (assign_valid N Sp good HN (s_clust s1) x Hc) as (l' & cl' & Ha' & _). rewrite Ha in Ha'.
  assert (Hd : d = sdist Sp x cl') by congruence. destruct (Hdist x cl') as [Gd Gd0]. rewrite <- Hd in Gd, Gd0.
  assert (Hm2 : s_max s2 = update_max N m d).
  { unfold update_max. destruct (nltb N t (ndiv N d m)) eqn:Ht.
    - apply (proj1 (O2 Hno) eq_refl).
    - destruct (proj2 (O2 Hno) eq_refl) as (i & c & n & _ & _ & _ & _ & _ & Hmm). exact Hmm. }
  apply (leb_trans N good HN) with (y := s_max s2); auto; try apply M2; try apply M3.
  rewrite Hm2. apply (update_max_le N good HN); [|exact Gd]. unfold m. destruct (neqb N (s_max s1) (nof N 0)); [exact Gd|apply M1].
Qed.
End MaxMain.

Lemma max_main : forall E F (N : Num F) good, NumOrd N good ->
  (forall x, neqb N x (nof N 0) = true -> nleb N x (nof N 0) = true) ->
  forall (Sp : Space E F) bs oa ratio,
  (forall x y, good (sdist Sp x y) /\ nleb N (nof N 0) (sdist Sp x y) = true) ->
  (forall elemts ops1 rs1 s1 ops2 rs2 s2,
     sexec N Sp bs oa ratio (new_streaming N elemts) ops1 rs1 s1 ->
     sexec N Sp bs oa ratio s1 ops2 rs2 s2 -> init_first (rs1 ++ rs2) ->
     nleb N (s_max s1) (s_max s2) = true) /\
  (forall elemts ops1 rs1 s1 t s2 cl ops2 rs2 s3 x q a l d,
     sexec N Sp bs oa ratio (new_streaming N elemts) ops1 rs1 s1 ->
     sstep N Sp bs oa ratio s1 (SIterate t) = Ok (s2, RIterate (Some cl)) ->
     sexec N Sp bs oa ratio s2 ops2 rs2 s3 -> init_first (rs1 ++ RIterate (Some cl) :: rs2) ->
     s_queue s1 = x :: q -> assign N Sp (s_clust s1) x = Ok (a, l, d) ->
     let m := if neqb N (s_max s1) (nof N 0) then d else s_max s1 in
     ((s_count s1 < oa)%Z \/ nltb N ratio (ndiv N d m) = false -> nleb N d (s_max s3) = true) /\
     ((oa <= s_count s1)%Z -> nltb N ratio (ndiv N d m) = true -> s_max s2 = m)).
Proof.
  intros E F N good HN H0 Sp bs oa ratio Hd. split.
  - intros elemts ops1 rs1 s1 ops2 rs2 s2. apply (max_section N good HN H0 Sp bs oa ratio Hd).
  - intros elemts ops1 rs1 s1 t s2 cl ops2 rs2 s3 x q a l d. apply (max_bound N good HN H0 Sp bs oa ratio Hd).
Qed.

Lemma eq0_R : forall x, neqb RNum x (nof RNum 0) = true -> nleb RNum x (nof RNum 0) = true.
Proof. intros x H. apply Reqb_true in H. apply Rleb_true. rewrite H. apply Rle_refl. Qed.

Lemma eq0_64 : forall x, neqb B64Num x (nof B64Num 0) = true -> nleb B64Num x (nof B64Num 0) = true.
Proof.
  intros x. cbn [B64Num neqb nleb nof]. unfold b64_eqb, b64_leb, Beqb, Bleb, SpecFloat.SFeqb, SpecFloat.SFleb.
  destruct (SpecFloat.SFcompare _ _) as [[| |]|]; auto.
Qed.

Lemma dist_pos_R : forall x y : list R, True /\ nleb RNum (nof RNum 0) (sdist (euclid_space RNum) x y) = true.
Proof.
  intros x y. split; [exact I|]. apply Rleb_true. cbn [sdist euclid_space].
  destruct (Nat.le_gt_cases (length x) (length y)) as [H|H].
  - rewrite point_dist_R by exact H. apply sqrt_pos.
  - destruct (euclid_panics RNum x y 1 1) as [Hp _]. destruct (Hp H) as [-> _]. cbn. lra.
Qed.

(** ** C37 *)
Lemma relative_refuted : exists max d : R, (0 < max)%R /\ (0 <= d)%R /\
  snd (relative_distance RNum max d) <> (if Rltb (d / max) 1 then (d / max)%R else 1%R) /\
  (1 < snd (relative_distance RNum max d))%R.
Proof.
  exists 1%R, 2%R. assert (Hv : snd (relative_distance RNum 1%R 2%R) = 2%R).
  { unfold relative_distance. change (neqb RNum 1%R (nof RNum 0)) with (Reqb 1 0). rewrite (proj2 (Reqb_false 1 0)) by lra. cbn. lra. }
  rewrite Hv. repeat split; try lra. replace (2 / 1)%R with 2%R by lra. destruct (Rltb 2 1) eqn:H; [apply Rltb_true in H; lra|lra].
Qed.

Lemma relative_partial : forall max d : R, (0 < max)%R -> (0 <= d <= max)%R ->
  relative_distance RNum max d = (max, (d / max)%R) /\ (0 <= d / max <= 1)%R.
Proof.
  intros max d H Hd. unfold relative_distance. change (neqb RNum max (nof RNum 0)) with (Reqb max 0).
  rewrite (proj2 (Reqb_false max 0)) by lra. split; [reflexivity|]. split.
  - apply Rmult_le_pos; [lra|]. apply Rlt_le, Rinv_0_lt_compat. lra.
  - apply (Rmult_le_reg_r max); [lra|]. unfold Rdiv. rewrite Rmult_assoc, Rinv_l by lra. lra.
Qed.

Lemma relative_first : forall d : R, (0 < d)%R -> relative_distance RNum 0%R d = (d, 1%R).
Proof.
  intros d H. unfold relative_distance. change (neqb RNum 0%R (nof RNum 0)) with (Reqb 0 0).
  rewrite (proj2 (Reqb_true 0 0)) by reflexivity. cbn. f_equal. apply Rinv_r. lra.
Qed.

(** ** C33 *)
Section Means.
Variable d : nat.
Notation Sp := (euclid_space RNum).

Lemma mean_snoc m vs x : is_mean d m vs -> vs <> [] -> length x = d ->
  is_mean d (scombine Sp m (Z.of_nat (length vs)) x 1) (vs ++ [x]).
Proof.
  intros [Hl Hc] Hne Hx. split; [rewrite euclid_combine_length; congruence|].
  intros j Hj. rewrite euclid_combine_coord by congruence. rewrite (Hc j Hj).
  rewrite map_app, rsum_app, app_length, plus_INR. cbn [map rsum fold_right].
  rewrite <- INR_IZR_INZ. change (INR (length [x])) with 1%R.
  assert (0 < INR (length vs))%R by (apply lt_0_INR; destruct vs; [contradiction|cbn; lia]).
  unfold rsum. field. lra.
Qed.

Lemma mean_single x : length x = d -> is_mean d x [x].
Proof. intros H. split; [exact H|]. intros j Hj. cbn. field. Qed.

Definition means_inv (s : streaming (list R) R) (p : list (list R)) : Prop :=
  exists parts, Permutation (concat parts) p /\ Forall2 (fun c vs => vs <> [] /\ is_mean d c vs) (s_clust s) parts /\
    s_cards s = map (fun vs => Z.of_nat (length vs)) parts.

Lemma concat_upd (parts : list (list (list R))) : forall i vs x, nth_error parts i = Some vs ->
  Permutation (concat (upd parts i (vs ++ [x]))) (concat parts ++ [x]).
Proof.
  induction parts as [|v parts IH]; intros [|i] vs x H; try discriminate; cbn [upd concat nth_error] in *.
  - injection H as ->. rewrite <- !app_assoc. apply Permutation_app_head. apply Permutation_app_comm.
  - rewrite <- app_assoc. apply Permutation_app_head. apply IH. exact H.
Qed.

Lemma Forall2_upd {A B} (P : A -> B -> Prop) l1 l2 : Forall2 P l1 l2 -> forall i a b, P a b -> Forall2 P (upd l1 i a) (upd l2 i b).
Proof. induction 1 as [|x y l1 l2 H H2 IH]; intros [|i] a b Hab; cbn [upd]; constructor; auto. Qed.

Lemma map_upd {A B} (f : A -> B) l : forall i a, map f (upd l i a) = upd (map f l) i (f a).
Proof. induction l as [|x l IH]; intros [|i] a; cbn; f_equal; auto. Qed.

Lemma Forall2_nth {A B} (P : A -> B -> Prop) l1 l2 : Forall2 P l1 l2 -> forall i a, nth_error l1 i = Some a ->
  exists b, nth_error l2 i = Some b /\ P a b.
Proof. induction 1 as [|x y l1 l2 H H2 IH]; intros [|i] a Ha; cbn in *; try discriminate; [exists y; split; congruence|auto]. Qed.

Lemma added_means s s' x p : length x = d -> means_inv s p -> added s s' x -> means_inv s' (p ++ [x]).
Proof.
  intros Hx (parts & H1 & H2 & H3) [A1 A2]. exists (parts ++ [[x]]). rewrite A1, A2. repeat split.
  - rewrite concat_app. cbn. apply Permutation_app_tail. exact H1.
  - apply Forall2_app; [exact H2|]. constructor; [|constructor]. split; [discriminate|]. apply mean_single. exact Hx.
  - rewrite map_app, H3. reflexivity.
Qed.

Lemma merged_means s s' x l p : length x = d -> means_inv s p -> merged Sp s s' x l -> means_inv s' (p ++ [x]).
Proof.
  intros Hx (parts & H1 & H2 & H3) (c & n & Hc & Hn & A1 & A2).
  destruct (Forall2_nth _ _ _ H2 l c Hc) as (vs & Hvs & Hne & Hmean).
  assert (n = Z.of_nat (length vs)).
  { rewrite H3 in Hn. rewrite (map_nth_error _ l parts Hvs) in Hn. congruence. }
  subst n. exists (upd parts l (vs ++ [x])). rewrite A1, A2. repeat split.
  - rewrite concat_upd by exact Hvs. apply Permutation_app_tail. exact H1.
  - apply Forall2_upd; [exact H2|]. split; [destruct vs; discriminate|]. apply mean_snoc; assumption.
  - rewrite map_upd, H3. f_equal. rewrite app_length. cbn [length]. lia.
Qed.

Lemma sexec_means bs oa ratio s ops rs s' : sexec RNum Sp bs oa ratio s ops rs s' -> forall p, means_inv s p ->
  all_dim d (s_queue s ++ accepted ops rs) ->
  means_inv s' (p ++ firstn (taken rs) (s_queue s ++ accepted ops rs)).
Proof.
  induction 1 as [s|s o r s1 ops rs s2 H1 H2 IH]; intros p Hp Hd; [cbn; rewrite app_nil_r; exact Hp|].
  change (taken (r :: rs)) with (takes r + taken rs).
  pose proof (sstep_cases _ _ _ _ _ _ _ _ _ H1) as Hc. destruct o as [x| |t].
  - destruct Hc as (_ & C1 & C2 & _ & [(_ & -> & Hq)|(_ & -> & ->)]); cbn [takes accepted Nat.add] in *.
    + specialize (IH p). rewrite Hq, <- app_assoc in IH. cbn [app] in IH. apply IH; [|exact Hd].
      unfold means_inv in *. rewrite C1, C2. exact Hp.
    + apply IH; assumption.
  - destruct (s_queue s) as [|x q] eqn:Hq.
    + destruct Hc as [-> ->]. cbn [takes accepted Nat.add] in *. rewrite Hq in *. apply IH; assumption.
    + destruct Hc as (Hq1 & -> & Ha & _). cbn [takes accepted Nat.add app firstn] in *. rewrite Hq1 in *.
      inversion Hd as [|? ? Hx Hd']; subst. specialize (IH (p ++ [x])). rewrite <- app_assoc in IH. cbn [app] in IH.
      apply IH; [|exact Hd']. apply (added_means s s1 x p Hx Hp Ha).
  - destruct (s_queue s) as [|x q] eqn:Hq.
    + destruct Hc as [-> ->]. cbn [takes accepted Nat.add] in *. rewrite Hq in *. apply IH; assumption.
    + destruct Hc as (Hq1 & -> & Ha & _). cbn [takes accepted Nat.add app firstn] in *. rewrite Hq1 in *.
      inversion Hd as [|? ? Hx Hd']; subst. specialize (IH (p ++ [x])). rewrite <- app_assoc in IH. cbn [app] in IH.
      apply IH; [|exact Hd']. destruct Ha as [Ha|[l Ha]].
      * apply (added_means s s1 x p Hx Hp Ha).
      * apply (merged_means s s1 x l p Hx Hp Ha).
Qed.
End Means.

Lemma means_main : forall d bs oa (ratio : R) elemts ops rs s,
  sexec RNum (euclid_space RNum) bs oa ratio (new_streaming RNum elemts) ops rs s ->
  all_dim d (elemts ++ accepted ops rs) ->
  exists parts,
    Permutation (concat parts) (firstn (taken rs) (elemts ++ accepted ops rs)) /\
    Forall2 (fun c vs => vs <> [] /\ is_mean d c vs) (s_clust s) parts /\
    s_cards s = map (fun vs => Z.of_nat (length vs)) parts.
Proof.
  intros d bs oa ratio elemts ops rs s H Hd.
  apply (sexec_means d bs oa ratio _ _ _ _ H []); [|exact Hd]. exists []. repeat split; constructor.
Qed.

(** Executable runs, for the examples. *)
Fixpoint srun {E F} (N : Num F) (Sp : Space E F) (bs oa : Z) (ratio : F) (s : streaming E F) (ops : list (sop E F))
  : outcome (streaming E F * list (sres E)) :=
  match ops with
  | [] => Ok (s, [])
  | o :: ops' => let* a := sstep N Sp bs oa ratio s o in
      let* b := srun N Sp bs oa ratio (fst a) ops' in Ok (fst b, snd a :: snd b)
  end.
Lemma srun_exec {E F} (N : Num F) (Sp : Space E F) bs oa ratio ops : forall s s' rs,
  srun N Sp bs oa ratio s ops = Ok (s', rs) -> sexec N Sp bs oa ratio s ops rs s'.
Proof.
  induction ops as [|o ops IH]; intros s s' rs H; cbn [srun] in H.
  - injection H as <- <-. constructor.
  - destruct (sstep N Sp bs oa ratio s o) as [[s1 r]|] eqn:Hs; [|discriminate]. cbn [obind fst snd] in H.
    destruct (srun N Sp bs oa ratio s1 ops) as [[s2 rs2]|] eqn:Hr; [|discriminate]. cbn [obind fst snd] in H. injection H as <- <-.
    econstructor; [exact Hs|]. apply IH. exact Hr.
Qed.

(** A space of two points at distance 3. *)
Definition two_point_space : Space bool b64 :=
  mkSpace (fun x y => if Bool.eqb x y then b64_of_Z 0 else b64_of_Z 3) (fun x _ _ _ => x) (fun x => x) (fun _ => 1%Z).
