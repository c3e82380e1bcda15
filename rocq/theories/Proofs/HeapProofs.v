(** C38: which snapshots of the centroids later writes can change. *)
From Coq Require Import List ZArith Lia Bool Arith Reals.
From Verif Require Import Base.Go Base.Num Model.Clustering Model.Euclid Model.Streaming Model.Kmeans Model.Heap
  Spec.NearestSpec Spec.StreamingSpec Spec.HeapSpec Proofs.GoLemmas Proofs.NumLaws Proofs.NearestProofs Proofs.KmeansProofs Proofs.StreamingProofs.
Import ListNotations.

Section Mem.
Context {E : Type}.
Notation mem := (mem E).

Definition wf (m : mem) (s : slice) : Prop := sl_arr s < length m /\ sl_len s <= length (array m (sl_arr s)).

Lemma upd_same_nth {A} (l : list A) i a d : i < length l -> nth i (upd l i a) d = a.
Proof. revert i; induction l as [|x l IH]; intros [|i] H; cbn in *; try lia; auto. apply IH; lia. Qed.
Lemma upd_other_nth {A} (l : list A) i j a d : i <> j -> nth j (upd l i a) d = nth j l d.
Proof. revert i j; induction l as [|x l IH]; intros [|i] [|j] H; cbn; auto; try congruence. Qed.

Lemma firstn_upd {A} (l : list A) : forall n i a, i < n -> firstn n (upd l i a) = upd (firstn n l) i a.
Proof.
  induction l as [|x l IH]; intros [|n] [|i] a H; cbn; auto; try lia. f_equal. apply IH. lia.
Qed.
Lemma firstn_upd_out {A} (l : list A) : forall n i a, n <= i -> firstn n (upd l i a) = firstn n l.
Proof. induction l as [|x l IH]; intros [|n] [|i] a H; cbn; auto; try lia. f_equal. apply IH. lia. Qed.

Lemma array_upd_same (m : mem) a v : a < length m -> array (E:=E) (upd m a v) a = v.
Proof. intros H. apply upd_same_nth. exact H. Qed.
Lemma array_upd_other (m : mem) a b v : a <> b -> array (E:=E) (upd m a v) b = array m b.
Proof. intros H. apply upd_other_nth. exact H. Qed.
Lemma array_app (m : mem) v b : b < length m -> array (E:=E) (m ++ v) b = array m b.
Proof. intros H. unfold array. apply app_nth1. exact H. Qed.
Lemma array_app_new (m : mem) v : array (E:=E) (m ++ [v]) (length m) = v.
Proof. unfold array. rewrite app_nth2 by lia. rewrite Nat.sub_diag. reflexivity. Qed.

Lemma read_length (m : mem) s : wf m s -> length (read m s) = sl_len s.
Proof. intros [_ H]. unfold read. rewrite firstn_length. lia. Qed.

Lemma store_ok (m : mem) s i x m' : store m s i x = Ok m' -> exists n, i = Z.of_nat n /\ n < sl_len s /\
  m' = upd m (sl_arr s) (upd (array m (sl_arr s)) n x).
Proof.
  unfold store. destruct (Z.ltb_spec i 0); [discriminate|]. destruct (Nat.ltb_spec (Z.to_nat i) (sl_len s)); [|discriminate].
  intros [= <-]. exists (Z.to_nat i). split; [lia|]. auto.
Qed.

Lemma store_nat (m : mem) s n x : n < sl_len s -> store m s (Z.of_nat n) x = Ok (upd m (sl_arr s) (upd (array m (sl_arr s)) n x)).
Proof.
  intros H. unfold store. destruct (Z.ltb_spec (Z.of_nat n) 0); [lia|]. rewrite Nat2Z.id.
  destruct (Nat.ltb_spec n (sl_len s)); [reflexivity|lia].
Qed.

Lemma upd_wf (m : mem) s t n x : wf m t -> wf (upd m (sl_arr s) (upd (array m (sl_arr s)) n x)) t.
Proof.
  intros [H1 H2]. split; [rewrite upd_length; exact H1|].
  destruct (Nat.eq_dec (sl_arr s) (sl_arr t)) as [e|ne].
  - rewrite e in *. rewrite array_upd_same by exact H1. rewrite upd_length. exact H2.
  - rewrite array_upd_other by exact ne. exact H2.
Qed.

Lemma read_store_same (m : mem) s n x : wf m s -> n < sl_len s ->
  read (upd m (sl_arr s) (upd (array m (sl_arr s)) n x)) s = upd (read m s) n x.
Proof. intros [H1 H2] Hn. unfold read. rewrite array_upd_same by exact H1. apply firstn_upd. exact Hn. Qed.

Lemma read_store_other (m : mem) s t n x : sl_arr t <> sl_arr s ->
  read (upd m (sl_arr s) (upd (array m (sl_arr s)) n x)) t = read m t.
Proof. intros H. unfold read. rewrite array_upd_other by congruence. reflexivity. Qed.

Lemma read_app (m : mem) v t : sl_arr t < length m -> read (E:=E) (m ++ v) t = read m t.
Proof. intros H. unfold read. rewrite array_app by exact H. reflexivity. Qed.

Lemma app_wf (m : mem) v t : wf m t -> wf (m ++ v) t.
Proof. intros [H1 H2]. split; [rewrite app_length; lia|]. rewrite array_app by exact H1. exact H2. Qed.

(** append: the new slice reads as the old one plus the element; any slice that does not extend
    beyond the old one in the same array is unchanged. *)
Lemma append_spec grow (m : mem) s x m' s' : wf m s -> append grow m s x = (m', s') ->
  wf m' s' /\ read m' s' = read m s ++ [x] /\ sl_len s' = S (sl_len s) /\
  (sl_arr s' = sl_arr s \/ sl_arr s' = length m) /\
  (forall t, wf m t -> wf m' t) /\
  (forall t, wf m t -> (sl_arr t = sl_arr s -> sl_len t <= sl_len s) -> read m' t = read m t).
Proof.
  intros [H1 H2] H. unfold append in H. destruct (Nat.ltb_spec (sl_len s) (length (array m (sl_arr s)))) as [Hl|Hl].
  - injection H as <- <-. split; [|split; [|split; [|split; [|split]]]].
    + split; cbn; [rewrite upd_length; exact H1|]. rewrite array_upd_same by exact H1. rewrite upd_length. exact Hl.
    + unfold read. cbn [sl_arr sl_len]. rewrite array_upd_same by exact H1.
      set (a := array m (sl_arr s)) in *. clearbody a. clear -Hl. revert Hl. generalize (sl_len s). induction a as [|y a IH]; intros [|n] H; cbn [length] in *; try lia; cbn [upd firstn app].
      * reflexivity.
      * f_equal. apply IH. lia.
    + reflexivity.
    + left. reflexivity.
    + intros t Ht. apply upd_wf. exact Ht.
    + intros t Ht Hlen. unfold read. destruct (Nat.eq_dec (sl_arr s) (sl_arr t)) as [e|ne].
      * rewrite <- e. rewrite array_upd_same by exact H1. apply firstn_upd_out. auto.
      * rewrite array_upd_other by exact ne. reflexivity.
  - injection H as <- <-. split; [|split; [|split; [|split; [|split]]]].
    + split; cbn; [rewrite app_length; cbn; lia|]. rewrite array_app_new. rewrite app_length, firstn_length. cbn [length]. lia.
    + unfold read. cbn [sl_arr sl_len]. rewrite array_app_new.
      replace (S (sl_len s)) with (length (firstn (sl_len s) (array m (sl_arr s))) + 1) by (rewrite firstn_length; lia).
      rewrite firstn_app_2. reflexivity.
    + reflexivity.
    + right. reflexivity.
    + intros t Ht. apply app_wf. exact Ht.
    + intros t Ht Hlen. apply read_app. apply Ht.
Qed.

Lemma elements_some l : elements (E:=E) (map Some l) = Ok l.
Proof. induction l as [|x l IH]; [reflexivity|]. cbn. rewrite IH. reflexivity. Qed.

Lemma elements_ok l r : elements (E:=E) l = Ok r -> l = map Some r.
Proof.
  revert r. induction l as [|[x|] l IH]; intros r H; cbn in H; try discriminate.
  - injection H as <-. reflexivity.
  - destruct (elements l) as [r'|]; [|discriminate]. cbn in H. injection H as <-. cbn. f_equal. apply IH. reflexivity.
Qed.
End Mem.

Section Streaming.
Context {E F : Type} (N : Num F) (Sp : Space E F) (grow : nat -> nat) (bs oa : Z) (ratio : F).
Notation hstep := (hstep N Sp grow bs oa ratio).
Notation hexec := (hexec N Sp grow bs oa ratio).

(** What one call does to memory. *)
Lemma hstep_mem h o h' r : wf (h_mem h) (h_clust h) -> hstep h o = Ok (h', r) ->
  wf (h_mem h') (h_clust h') /\
  (sl_arr (h_clust h') = sl_arr (h_clust h) \/ length (h_mem h) <= sl_arr (h_clust h')) /\
  (sl_len (h_clust h) <= sl_len (h_clust h') <= sl_len (h_clust h) + htakes r) /\
  (forall t, wf (h_mem h) t -> wf (h_mem h') t) /\
  (forall t, wf (h_mem h) t -> (sl_arr t = sl_arr (h_clust h) -> sl_len t <= sl_len (h_clust h)) ->
     read (h_mem h') t = read (h_mem h) t \/
     (htakes r = 1 /\ h_clust h' = h_clust h /\ sl_arr t = sl_arr (h_clust h) /\
      exists i x, read (h_mem h') t = upd (read (h_mem h) t) i x)) /\
  match r with
  | HPush _ => True
  | HInit None | HIterate None => h' = h
  | HInit (Some s) => wf (h_mem h') s /\ exists x, read (h_mem h') s = [Some x] /\ sl_arr s <> sl_arr (h_clust h') /\ sl_arr s <> sl_arr (h_clust h)
                      /\ length (h_mem h) <= sl_arr s
  | HIterate (Some s) => s = h_clust h'
  end.
Proof.
  intros Hwf H. destruct o as [x| |t]; cbn [Model.Heap.hstep] in H.
  - destruct (slen (h_queue h) <? bs)%Z; injection H as <- <-; cbn; repeat (split; auto with arith).
  - destruct (h_queue h) as [|x q]; [injection H as <- <-; cbn; repeat (split; auto with arith)|].
    injection H as <- <-. unfold hadd_center. cbn [h_mem h_clust].
    pose proof (app_wf (h_mem h) [[Some x]] _ Hwf) as Hwf1.
    destruct (append grow (h_mem h ++ [[Some x]]) (h_clust h) (Some x)) as [m c] eqn:Ha.
    destruct (append_spec grow _ _ _ _ _ Hwf1 Ha) as (A1 & A2 & A3 & A4 & A5 & A6).
    cbn [h_mem h_clust h_max h_cards h_queue h_count].
    assert (Hnew : wf (h_mem h ++ [[Some x]]) (mkSlice (length (h_mem h)) 1)).
    { split; cbn; [rewrite app_length; cbn; lia|]. rewrite array_app_new. cbn. lia. }
    split; [exact A1|]. split; [destruct A4 as [->|A4]; [auto|right; rewrite A4, app_length; lia]|]. split; [cbn [htakes]; lia|].
    split; [intros t Ht; apply A5, app_wf, Ht|]. split; [|].
    + intros t Ht Hl. left. rewrite A6; [|apply app_wf; exact Ht|exact Hl]. apply read_app. apply Ht.
    + split; [apply A5; exact Hnew|]. exists x. destruct Hwf as [Hw1 Hw2]. split; [|cbn [sl_arr]; split; [|split]].
      * rewrite A6; [|exact Hnew|cbn; lia]. unfold read. cbn [sl_arr sl_len]. rewrite array_app_new. reflexivity.
      * destruct A4 as [-> | ->]; [lia|]. rewrite app_length; cbn; lia.
      * lia.
      * lia.
  - destruct (h_queue h) as [|x q]; [injection H as <- <-; cbn; repeat (split; auto with arith)|].
    destruct (hprocess N Sp grow oa ratio _ x t) as [h1|] eqn:Hp; [|discriminate]. cbn [obind] in H. injection H as <- <-.
    unfold hprocess in Hp. cbn [h_mem h_clust] in Hp. destruct (elements _) as [clust|]; [|discriminate]. cbn [obind] in Hp.
    destruct (assign N Sp clust x) as [[[cl l] d]|]; [|discriminate]. cbn [obind] in Hp. unfold relative_distance in Hp. cbn [h_max h_count] in Hp.
    assert (Happ : h_mem h1 = fst (append grow (h_mem h) (h_clust h) (Some x)) ->
                   h_clust h1 = snd (append grow (h_mem h) (h_clust h) (Some x)) ->
      wf (h_mem h1) (h_clust h1) /\
      (sl_arr (h_clust h1) = sl_arr (h_clust h) \/ length (h_mem h) <= sl_arr (h_clust h1)) /\
      (sl_len (h_clust h) <= sl_len (h_clust h1) <= sl_len (h_clust h) + 1) /\
      (forall t0, wf (h_mem h) t0 -> wf (h_mem h1) t0) /\
      (forall t0, wf (h_mem h) t0 -> (sl_arr t0 = sl_arr (h_clust h) -> sl_len t0 <= sl_len (h_clust h)) ->
         read (h_mem h1) t0 = read (h_mem h) t0 \/
         (1 = 1 /\ h_clust h1 = h_clust h /\ sl_arr t0 = sl_arr (h_clust h) /\
          exists i x0, read (h_mem h1) t0 = upd (read (h_mem h) t0) i x0)) /\ h_clust h1 = h_clust h1).
    { intros E1 E2. rewrite E1, E2. destruct (append grow (h_mem h) (h_clust h) (Some x)) as [m c] eqn:Ha. cbn [fst snd].
      destruct (append_spec grow _ _ _ _ _ Hwf Ha) as (A1 & A2 & A3 & A4 & A5 & A6). split; [exact A1|].
      split; [destruct A4 as [-> | ->]; auto|]. split; [lia|]. split; [exact A5|]. split; [|reflexivity].
      intros t0 Ht Hl. left. apply A6; assumption. }
    destruct ((oa <=? h_count h)%Z && nltb N ratio _).
    + cbn [obind] in Hp. apply (f_equal (fun o => match o with Ok a => a | Panic => h1 end)) in Hp.
      apply Happ; rewrite <- Hp; unfold hadd_outlier; cbn [h_mem h_clust];
        destruct (append grow (h_mem h) (h_clust h) (Some x)); reflexivity.
    + destruct (nltb N t _).
      * cbn [obind] in Hp. apply (f_equal (fun o => match o with Ok a => a | Panic => h1 end)) in Hp.
        apply Happ; rewrite <- Hp; unfold hadd_center; cbn [h_mem h_clust];
          destruct (append grow (h_mem h) (h_clust h) (Some x)); reflexivity.
      * clear Happ. unfold hupdate_center in Hp. cbn [h_mem h_clust h_cards h_max h_queue h_count] in Hp.
        destruct (sget (read (h_mem h) (h_clust h)) l) as [[c|]|]; try discriminate. cbn [obind] in Hp.
        destruct (sget (h_cards h) l) as [n|]; [|discriminate]. cbn [obind] in Hp.
        destruct (store (h_mem h) (h_clust h) l (Some (scombine Sp c n x 1%Z))) as [m|] eqn:Hs; [|discriminate]. cbn [obind] in Hp.
        destruct (sset (h_cards h) l (n + 1)%Z) as [ca|]; [|discriminate]. cbn [obind] in Hp. injection Hp as <-. cbn [h_mem h_clust].
        apply store_ok in Hs. destruct Hs as (i & -> & Hi & ->). split; [apply upd_wf; exact Hwf|]. split; [auto|]. split; [cbn [htakes]; lia|].
        split; [intros t0 Ht; apply upd_wf; exact Ht|]. split; [|reflexivity].
        intros t0 Ht Hl. destruct (Nat.eq_dec (sl_arr t0) (sl_arr (h_clust h))) as [e|ne].
        -- destruct (Nat.lt_ge_cases i (sl_len t0)) as [Hin|Hout].
           ++ right. repeat (split; auto). exists i, (Some (scombine Sp c n x 1%Z)). rewrite <- e. apply read_store_same; assumption.
           ++ left. unfold read. rewrite e. destruct Ht as [Ht1 Ht2]. rewrite array_upd_same by (destruct Hwf; assumption). apply firstn_upd_out. exact Hout.
        -- left. apply read_store_other. exact ne.
Qed.


Definition below (h : hstreaming E F) (t : slice) : Prop :=
  wf (h_mem h) t /\ (sl_arr t = sl_arr (h_clust h) -> sl_len t <= sl_len (h_clust h)).

Lemma below_step h o h' r t : wf (h_mem h) (h_clust h) -> hstep h o = Ok (h', r) -> below h t -> below h' t.
Proof.
  intros Hwf H [T1 T2]. destruct (hstep_mem _ _ _ _ Hwf H) as (A1 & A2 & A3 & A4 & _). split; [auto|].
  intros e. destruct A2 as [A2|A2]; [rewrite A2 in e; specialize (T2 e); lia|]. destruct T1. lia.
Qed.

Lemma hexec_snap h ops rs h' t : hexec h ops rs h' -> wf (h_mem h) (h_clust h) -> below h t ->
  wf (h_mem h') (h_clust h') /\ below h' t /\ length (read (h_mem h') t) = length (read (h_mem h) t) /\
  sl_len (h_clust h') <= sl_len (h_clust h) + htaken rs /\
  (sl_len (h_clust h') = sl_len (h_clust h) + htaken rs -> read (h_mem h') t = read (h_mem h) t) /\
  (sl_arr t <> sl_arr (h_clust h) -> sl_arr t <> sl_arr (h_clust h') /\ read (h_mem h') t = read (h_mem h) t).
Proof.
  induction 1 as [h|h o r h1 ops rs h2 H1 H2 IH]; intros Hwf Ht.
  - split; [exact Hwf|]. split; [exact Ht|]. split; [reflexivity|]. split; [cbn; lia|]. auto.
  - change (htaken (r :: rs)) with (htakes r + htaken rs).
    destruct (hstep_mem _ _ _ _ Hwf H1) as (A1 & A2 & A3 & A4 & A5 & A6).
    pose proof (below_step _ _ _ _ _ Hwf H1 Ht) as Ht1. destruct (IH A1 Ht1) as (B1 & B2 & B3 & B4 & B5 & B6).
    split; [exact B1|]. split; [exact B2|]. split; [|split; [lia|split]].
    + rewrite B3. rewrite !read_length; [reflexivity|apply Ht|apply Ht1].
    + intros Hn. rewrite B5 by lia. destruct (A5 t (proj1 Ht) (proj2 Ht)) as [A|(C1 & C2 & _)]; [exact A|]. rewrite C2 in *. lia.
    + intros Hne. destruct B6 as [B6 B7].
      { destruct A2 as [->|A2]; [exact Hne|]. destruct Ht as [[Ht _] _]. lia. }
      split; [exact B6|]. rewrite B7. destruct (A5 t (proj1 Ht) (proj2 Ht)) as [A|(_ & _ & C3 & _)]; [exact A|contradiction].
Qed.

Lemma hexec_returned h ops rs h' s : hexec h ops rs h' -> wf (h_mem h) (h_clust h) ->
  (In (HIterate (Some s)) rs -> below h' s) /\
  (In (HInit (Some s)) rs -> below h' s /\ sl_arr s <> sl_arr (h_clust h') /\ exists x, read (h_mem h') s = [Some x]).
Proof.
  induction 1 as [h|h o r h1 ops rs h2 H1 H2 IH]; intros Hwf; [split; intros []|].
  destruct (hstep_mem _ _ _ _ Hwf H1) as (A1 & A2 & A3 & A4 & A5 & A6). destruct (IH A1) as [I1 I2]. split.
  - intros [->|Hin]; [|auto]. subst s. assert (Hb : below h1 (h_clust h1)) by (split; auto).
    apply (hexec_snap _ _ _ _ _ H2 A1 Hb).
  - intros [->|Hin]; [|auto]. destruct A6 as (W & x & R & Ne & Ne0 & _). assert (Hb : below h1 s) by (split; [exact W|congruence]).
    destruct (hexec_snap _ _ _ _ _ H2 A1 Hb) as (_ & B2 & _ & _ & _ & B6). destruct (B6 Ne) as [B7 B8].
    split; [exact B2|]. split; [exact B7|]. exists x. congruence.
Qed.

(** ** Refinement of the value model *)
Definition refines (h : hstreaming E F) (s : streaming E F) : Prop :=
  wf (h_mem h) (h_clust h) /\ read (h_mem h) (h_clust h) = map Some (s_clust s) /\ h_max h = s_max s /\
  h_cards h = s_cards s /\ h_queue h = s_queue s /\ h_count h = s_count s.

Lemma map_upd_some (l : list E) i x : map Some (upd l i x) = upd (map Some l) i (Some x).
Proof. revert i. induction l as [|y l IH]; intros [|i]; cbn; f_equal; auto. Qed.

Lemma refines_process h s x t : refines h s ->
  match process N Sp oa ratio s x t with
  | Ok s' => exists h', hprocess N Sp grow oa ratio h x t = Ok h' /\ refines h' s'
  | Panic => hprocess N Sp grow oa ratio h x t = Panic
  end.
Proof.
  intros (Hwf & Hr & R1 & R2 & R3 & R4). unfold process, hprocess. rewrite Hr, elements_some. cbn [obind].
  destruct (assign N Sp (s_clust s) x) as [[[cl l] d]|]; [|reflexivity]. cbn [obind]. rewrite R1.
  destruct (relative_distance N (s_max s) d) as [mx rel]. cbn [h_mem h_clust h_cards h_queue h_count s_count]. rewrite R2, R3, R4.
  destruct ((oa <=? s_count s)%Z && nltb N ratio rel).
  - unfold hadd_outlier, add_outlier. cbn [obind h_mem h_clust h_max h_cards h_queue h_count s_max s_clust s_cards s_queue s_count].
    destruct (append grow (h_mem h) (h_clust h) (Some x)) as [m c'] eqn:Ha. cbn [obind].
    eexists. split; [reflexivity|]. destruct (append_spec grow _ _ _ _ _ Hwf Ha) as (A1 & A2 & _).
    repeat (split; auto). cbn. rewrite A2, Hr, map_app. reflexivity.
  - destruct (nltb N t rel).
    + unfold hadd_center, add_center. cbn [obind h_mem h_clust h_max h_cards h_queue h_count s_max s_clust s_cards s_queue s_count].
      destruct (append grow (h_mem h) (h_clust h) (Some x)) as [m c'] eqn:Ha. cbn [obind].
      eexists. split; [reflexivity|]. destruct (append_spec grow _ _ _ _ _ Hwf Ha) as (A1 & A2 & _).
      repeat (split; auto). cbn. rewrite A2, Hr, map_app. reflexivity.
    + unfold hupdate_center, update_center. cbn [obind h_mem h_clust h_max h_cards h_queue h_count s_max s_clust s_cards s_queue s_count].
      rewrite Hr. assert (Hg : sget (map Some (s_clust s)) l = match sget (s_clust s) l with Ok c => Ok (Some c) | Panic => Panic end).
      { unfold sget. destruct (l <? 0)%Z; [reflexivity|]. rewrite nth_error_map. destruct (nth_error (s_clust s) (Z.to_nat l)); reflexivity. }
      rewrite Hg. destruct (sget (s_clust s) l) as [c|] eqn:Hc; [|reflexivity]. cbn [obind].
      destruct (sget (s_cards s) l) as [n|]; [|reflexivity]. cbn [obind].
      apply sget_ok in Hc. destruct Hc as [Hl0 Hc]. assert (Hlt : Z.to_nat l < length (s_clust s)) by (apply nth_error_Some; congruence).
      assert (Hlen : sl_len (h_clust h) = length (s_clust s)) by (rewrite <- (read_length _ _ Hwf), Hr; apply map_length).
      replace l with (Z.of_nat (Z.to_nat l)) by lia. rewrite store_nat by lia. rewrite sset_nat by exact Hlt. cbn [obind].
      destruct (sset (s_cards s) (Z.of_nat (Z.to_nat l)) (n + 1)%Z) as [ca|]; [|reflexivity]. cbn [obind].
      eexists. split; [reflexivity|]. repeat (split; auto); cbn.
      * rewrite upd_length. apply Hwf.
      * apply (upd_wf _ (h_clust h) (h_clust h)). exact Hwf.
      * rewrite read_store_same; [|exact Hwf|lia]. rewrite Hr, map_upd_some. reflexivity.
Qed.

Lemma refines_step h s o : refines h s ->
  match sstep N Sp bs oa ratio s o with
  | Ok (s', r) => exists h' r', hstep h o = Ok (h', r') /\ refines h' s' /\ same_result (h_mem h') r r'
  | Panic => hstep h o = Panic
  end.
Proof.
  intros Hr. pose proof Hr as (Hwf & Hread & R1 & R2 & R3 & R4). destruct o as [x| |t]; cbn [sstep Model.Heap.hstep].
  - unfold streaming_push. rewrite R3. destruct (slen (s_queue s) <? bs)%Z.
    + do 2 eexists. split; [reflexivity|]. split; [repeat (split; auto)|reflexivity].
    + do 2 eexists. split; [reflexivity|]. split; [exact Hr|reflexivity].
  - unfold streaming_init. rewrite R3. destruct (s_queue s) as [|x q].
    + do 2 eexists. split; [reflexivity|]. split; [exact Hr|exact I].
    + pose proof (app_wf (h_mem h) [[Some x]] _ Hwf) as Hwf1.
      unfold hadd_center, add_center. cbn [h_mem h_clust h_max h_cards h_queue h_count s_max s_clust s_cards s_queue s_count].
      destruct (append grow (h_mem h ++ [[Some x]]) (h_clust h) (Some x)) as [m c] eqn:Ha.
      destruct (append_spec grow _ _ _ _ _ Hwf1 Ha) as (A1 & A2 & A3 & A4 & A5 & A6).
      do 2 eexists. split; [reflexivity|]. split.
      * repeat (split; auto); cbn; try congruence; try apply A1.
        rewrite A2, read_app by apply Hwf. rewrite Hread, map_app. reflexivity.
      * cbn [same_result h_mem]. assert (Hnew : wf (h_mem h ++ [[Some x]]) (mkSlice (length (h_mem h)) 1)).
        { split; cbn; [rewrite app_length; cbn; lia|]. rewrite array_app_new. cbn. lia. }
        rewrite A6; [|exact Hnew|cbn; destruct Hwf; lia]. unfold read. cbn [sl_arr sl_len]. rewrite array_app_new. reflexivity.
  - unfold streaming_iterate. rewrite R3. destruct (s_queue s) as [|x q].
    + do 2 eexists. split; [reflexivity|]. split; [exact Hr|exact I].
    + assert (Hr' : refines (mkHStreaming (h_mem h) (h_max h) (h_clust h) (h_cards h) q (h_count h))
                            (mkStreaming (s_max s) (s_clust s) (s_cards s) q (s_count s))) by (repeat (split; auto); apply Hwf).
      pose proof (refines_process _ _ x t Hr') as Hp.
      destruct (process N Sp oa ratio _ x t) as [s'|]; [|rewrite Hp; reflexivity].
      destruct Hp as (h' & -> & Hr''). cbn [obind fst snd]. do 2 eexists. split; [reflexivity|]. split; [exact Hr''|]. cbn. apply Hr''.
Qed.

Lemma refines_new elemts : refines (new_hstreaming N elemts) (new_streaming N elemts).
Proof. repeat (split; auto). Qed.

Lemma refines_exec s ops rs s' : sexec N Sp bs oa ratio s ops rs s' -> forall h, refines h s ->
  exists hrs h', hexec h ops hrs h' /\ refines h' s' /\ length hrs = length rs.
Proof.
  induction 1 as [s|s o r s1 ops rs s2 H1 H2 IH]; intros h Hr.
  - exists [], h. split; [constructor|auto].
  - pose proof (refines_step h s o Hr) as Hs. rewrite H1 in Hs. destruct Hs as (h1 & r1 & Hs & Hr1 & _).
    destruct (IH h1 Hr1) as (hrs & h2 & He & Hr2 & Hl). exists (r1 :: hrs), h2. split; [econstructor; eassumption|]. cbn. auto.
Qed.
End Streaming.

Lemma snapshot_main : forall E F (N : Num F) (Sp : Space E F) grow bs oa ratio elemts ops1 rs1 h1 ops2 rs2 h2 s,
  hexec N Sp grow bs oa ratio (new_hstreaming N elemts) ops1 rs1 h1 ->
  hexec N Sp grow bs oa ratio h1 ops2 rs2 h2 ->
  (In (HInit (Some s)) rs1 -> read (h_mem h2) s = read (h_mem h1) s) /\
  (In (HIterate (Some s)) rs1 ->
     length (read (h_mem h2) s) = length (read (h_mem h1) s) /\
     sl_len (h_clust h2) <= sl_len (h_clust h1) + htaken rs2 /\
     (sl_len (h_clust h2) = sl_len (h_clust h1) + htaken rs2 -> read (h_mem h2) s = read (h_mem h1) s)).
Proof.
  intros E F N Sp grow bs oa ratio elemts ops1 rs1 h1 ops2 rs2 h2 s H1 H2.
  assert (Hw0 : wf (h_mem (new_hstreaming (E:=E) N elemts)) (h_clust (new_hstreaming (E:=E) N elemts))) by (split; cbn; lia).
  destruct (hexec_returned _ _ _ _ _ _ _ _ _ _ s H1 Hw0) as [I1 I2].
  assert (Hw1 : wf (h_mem h1) (h_clust h1)).
  { apply (hexec_snap _ _ _ _ _ _ _ _ _ _ (mkSlice 0 0) H1 Hw0). split; [exact Hw0|cbn; lia]. }
  split; intros Hin.
  - destruct (I2 Hin) as (B & Ne & _). destruct (hexec_snap _ _ _ _ _ _ _ _ _ _ s H2 Hw1 B) as (_ & _ & _ & _ & _ & B6). apply (B6 Ne).
  - destruct (hexec_snap _ _ _ _ _ _ _ _ _ _ s H2 Hw1 (I1 Hin)) as (_ & _ & B3 & B4 & B5 & _). auto.
Qed.

Lemma heap_refines : forall E F (N : Num F) (Sp : Space E F) grow bs oa ratio elemts ops rs s,
  sexec N Sp bs oa ratio (new_streaming N elemts) ops rs s ->
  exists hrs h, hexec N Sp grow bs oa ratio (new_hstreaming N elemts) ops hrs h /\
    read (h_mem h) (h_clust h) = map Some (s_clust s) /\ h_cards h = s_cards s /\ h_max h = s_max s /\ h_queue h = s_queue s /\
    forall o, match sstep N Sp bs oa ratio s o with
              | Ok (s', r) => exists h' r', hstep N Sp grow bs oa ratio h o = Ok (h', r') /\
                  read (h_mem h') (h_clust h') = map Some (s_clust s') /\ same_result (h_mem h') r r'
              | Panic => hstep N Sp grow bs oa ratio h o = Panic
              end.
Proof.
  intros E F N Sp grow bs oa ratio elemts ops rs s H.
  destruct (refines_exec N Sp grow bs oa ratio _ _ _ _ H _ (refines_new N elemts)) as (hrs & h & He & Hr & _).
  exists hrs, h. split; [exact He|]. destruct Hr as (R0 & R1 & R2 & R3 & R4 & R5). repeat (split; [assumption|]).
  intros o. pose proof (refines_step N Sp grow bs oa ratio h s o (conj R0 (conj R1 (conj R2 (conj R3 (conj R4 R5)))))) as Hs.
  destruct (sstep N Sp bs oa ratio s o) as [[s' r]|]; [|exact Hs]. destruct Hs as (h' & r' & A & B & C). exists h', r'. split; [exact A|]. split; [apply B|exact C].
Qed.

(** ** Sequential k-means *)
Section Kmeans.
Context {E F : Type} (N : Num F) (Sp : Space E F).

(** [m'] is [m] with only the array of [r] changed, and [r] now reads as [v]. *)
Definition only (r : slice) (m m' : mem E) (v : list (option E)) : Prop :=
  wf m' r /\ read m' r = v /\ length m' = length m /\ forall t, sl_arr t <> sl_arr r -> read m' t = read m t.

Lemma only_trans r m m1 m2 v1 v2 : only r m m1 v1 -> only r m1 m2 v2 -> only r m m2 v2.
Proof.
  intros (A1 & A2 & A3 & A4) (B1 & B2 & B3 & B4). repeat (split; auto); try congruence; try apply B1.
  intros t Ht. rewrite B4 by exact Ht. apply A4. exact Ht.
Qed.

Lemma store_sset (m : mem E) r l x : wf m r ->
  match sset (read m r) l x with
  | Ok v => exists m', store m r l x = Ok m' /\ only r m m' v
  | Panic => store m r l x = Panic
  end.
Proof.
  intros Hwf. unfold sset, store. rewrite (read_length _ _ Hwf). destruct (l <? 0)%Z; [reflexivity|].
  destruct (Nat.ltb_spec (Z.to_nat l) (sl_len r)); [|reflexivity]. eexists. split; [reflexivity|].
  split; [apply upd_wf; exact Hwf|]. split; [apply read_store_same; assumption|]. split; [apply upd_length|].
  intros t Ht. apply read_store_other. exact Ht.
Qed.

Lemma hdba_add_sim (m : mem E) r cards l x : wf m r ->
  match dba_add Sp l x (read m r, cards) with
  | Ok (v, cards') => exists m', hdba_add Sp r l x (m, cards) = Ok (m', cards') /\ only r m m' v
  | Panic => hdba_add Sp r l x (m, cards) = Panic
  end.
Proof.
  intros Hwf. unfold dba_add, hdba_add. destruct (sget cards l) as [n|]; [|reflexivity]. cbn [obind]. destruct (n =? 0)%Z.
  - pose proof (store_sset m r l (Some (scopy Sp x)) Hwf) as Hs. destruct (sset (read m r) l _) as [v|]; [|rewrite Hs; reflexivity].
    destruct Hs as (m' & -> & Ho). cbn [obind]. destruct (sset cards l 1%Z); [|reflexivity]. cbn [obind]. eauto.
  - destruct (sget (read m r) l) as [[c|]|]; [|reflexivity|reflexivity]. cbn [obind].
    pose proof (store_sset m r l (Some (scombine Sp c n x 1%Z)) Hwf) as Hs. destruct (sset (read m r) l _) as [v|]; [|rewrite Hs; reflexivity].
    destruct Hs as (m' & -> & Ho). cbn [obind]. destruct (sset cards l (n + 1)%Z); [|reflexivity]. cbn [obind]. eauto.
Qed.

Lemma hreduce_loop_sim r c (cs : list E) elemts : sl_arr c <> sl_arr r -> forall (m : mem E) cards,
  wf m r -> read m c = map Some cs ->
  match ofold (fun st elemt => let* a := assign N Sp cs elemt in let '(_, ix, _) := a in dba_add Sp ix elemt st) elemts (read m r, cards) with
  | Ok (v, cards') => exists m', ofold (fun st elemt =>
      let* clust := elements (read (fst st) c) in
      let* a := assign N Sp clust elemt in
      let '(_, ix, _) := a in hdba_add Sp r ix elemt st) elemts (m, cards) = Ok (m', cards') /\ only r m m' v
  | Panic => ofold (fun st elemt =>
      let* clust := elements (read (fst st) c) in
      let* a := assign N Sp clust elemt in
      let '(_, ix, _) := a in hdba_add Sp r ix elemt st) elemts (m, cards) = Panic
  end.
Proof.
  intros Hne. induction elemts as [|x xs IH]; intros m cards Hwf Hc; cbn [ofold].
  - exists m. split; [reflexivity|]. repeat (split; auto); apply Hwf.
  - cbn [fst]. rewrite Hc, elements_some. cbn [obind].
    destruct (assign N Sp cs x) as [[[a l] d]|]; [|reflexivity]. cbn [obind].
    pose proof (hdba_add_sim m r cards l x Hwf) as Hs.
    destruct (dba_add Sp l x (read m r, cards)) as [[v cards1]|]; [|rewrite Hs; reflexivity].
    destruct Hs as (m1 & -> & Ho). cbn [obind]. pose proof Ho as (O1 & O2 & O3 & O4).
    specialize (IH m1 cards1 O1). rewrite O4 in IH by exact Hne. specialize (IH Hc). rewrite O2 in IH.
    destruct (ofold _ xs (v, cards1)) as [[v2 cards2]|]; [|exact IH].
    destruct IH as (m2 & -> & Ho2). exists m2. split; [reflexivity|]. eapply only_trans; eassumption.
Qed.

Lemma hbuild_sim r c (cs : list E) is : sl_arr c <> sl_arr r -> forall m : mem E, wf m r -> read m c = map Some cs ->
  match ofold (fun result i => let* x := sget result i in
           match x with None => let* y := sget cs i in sset result i (Some y) | Some _ => Ok result end) is (read m r) with
  | Ok v => exists m', ofold (fun m i => let* x := sget (read m r) i in
      match x with None => let* y := sget (read m c) i in store m r i y | Some _ => Ok m end) is m = Ok m' /\ only r m m' v
  | Panic => ofold (fun m i => let* x := sget (read m r) i in
      match x with None => let* y := sget (read m c) i in store m r i y | Some _ => Ok m end) is m = Panic
  end.
Proof.
  intros Hne. induction is as [|i is IH]; intros m Hwf Hc; cbn [ofold].
  - exists m. split; [reflexivity|]. repeat (split; auto); apply Hwf.
  - destruct (sget (read m r) i) as [[x|]|]; [|cbn [obind]|reflexivity].
    + cbn [obind]. apply (IH m Hwf Hc).
    + rewrite Hc. assert (Hg : sget (map Some cs) i = match sget cs i with Ok c => Ok (Some c) | Panic => Panic end).
      { unfold sget. destruct (i <? 0)%Z; [reflexivity|]. rewrite nth_error_map. destruct (nth_error cs (Z.to_nat i)); reflexivity. }
      rewrite Hg. destruct (sget cs i) as [y|]; [|reflexivity]. cbn [obind].
      pose proof (store_sset m r i (Some y) Hwf) as Hs. destruct (sset (read m r) i (Some y)) as [v|]; [|rewrite Hs; reflexivity].
      destruct Hs as (m1 & -> & Ho). cbn [obind]. pose proof Ho as (O1 & O2 & O3 & O4).
      specialize (IH m1 O1). rewrite O4 in IH by exact Hne. specialize (IH Hc). rewrite O2 in IH.
      destruct (ofold _ is v) as [v2|]; [|exact IH]. destruct IH as (m2 & -> & Ho2). exists m2. split; [reflexivity|]. eapply only_trans; eassumption.
Qed.

Lemma wf_new (m : mem E) n : wf (m ++ [repeat None n]) (mkSlice (length m) n).
Proof. split; cbn; [rewrite app_length; cbn; lia|]. rewrite array_app_new, repeat_length. lia. Qed.
Lemma read_new (m : mem E) n : read (m ++ [repeat None n]) (mkSlice (length m) n) = repeat None n.
Proof. unfold read. cbn [sl_arr sl_len]. rewrite array_app_new. rewrite <- (repeat_length (@None E) n) at 1. apply firstn_all. Qed.

Lemma hseq_sim (m : mem E) c (cs data : list E) : wf m c -> read m c = map Some cs ->
  match seq_iterate N Sp cs data with
  | Ok v => exists m' r, hseq_iterate N Sp m c data = Ok (m', r) /\ wf m' r /\ read m' r = v /\ length m <= sl_arr r /\
      length m <= length m' /\
      forall t, wf m t -> wf m' t /\ read m' t = read m t
  | Panic => hseq_iterate N Sp m c data = Panic
  end.
Proof.
  intros Hwf Hc. unfold seq_iterate, hseq_iterate, hreduce_dba, reduce_dba. cbv zeta.
  assert (Hlen : sl_len c = length cs) by (rewrite <- (read_length _ _ Hwf), Hc; apply map_length).
  set (r := mkSlice (length m) (sl_len c)). set (m0 := m ++ [repeat None (sl_len c)]).
  assert (Hne : sl_arr c <> sl_arr r) by (cbn; destruct Hwf; lia).
  assert (Hw0 : wf m0 r) by apply wf_new. assert (Hr0 : read m0 r = repeat None (sl_len c)) by apply read_new.
  assert (Hc0 : read m0 c = map Some cs) by (unfold m0; rewrite read_app; [exact Hc|apply Hwf]).
  pose proof (hreduce_loop_sim r c cs data Hne m0 (repeat 0%Z (sl_len c)) Hw0 Hc0) as Hs. rewrite Hr0 in Hs. rewrite <- Hlen.
  destruct (ofold _ data (repeat None (sl_len c), repeat 0%Z (sl_len c))) as [[v cards]|]; cbn [obind fst]; [|rewrite Hs; reflexivity].
  destruct Hs as (m1 & H1' & O1 & O2 & O3 & O4). unfold seq_build_result.
  assert (Hc1 : read m1 c = map Some cs) by (rewrite O4 by exact Hne; exact Hc0).
  pose proof (hbuild_sim r c cs (map Z.of_nat (seq 0 (length v))) Hne m1 O1 Hc1) as Hb. rewrite O2 in Hb.
  assert (Hlv : length v = sl_len r) by (rewrite <- O2; apply (read_length _ _ O1)). rewrite Hlv in Hb |- *. 
  destruct (ofold _ (map Z.of_nat (seq 0 (sl_len r))) v) as [v2|]; [|rewrite H1'; cbn [obind fst]; rewrite Hb; reflexivity].
  destruct Hb as (m2 & Hb & Q1 & Q2 & Q3 & Q4). exists m2, r. split; [rewrite H1'; cbn [obind fst]; rewrite Hb; reflexivity|]. split; [exact Q1|]. split; [exact Q2|].
  assert (Hl2 : length m2 = length m + 1) by (rewrite Q3, O3; unfold m0; rewrite app_length; reflexivity).
  split; [cbn; lia|]. split; [lia|]. intros t Ht.
  assert (Hnt : sl_arr t <> sl_arr r) by (cbn; destruct Ht; lia).
  assert (Heq : read m2 t = read m t) by (rewrite Q4, O4 by exact Hnt; apply read_app; apply Ht).
  split; [|exact Heq]. split; [destruct Ht; lia|].
  apply (f_equal (@length _)) in Heq. rewrite (read_length _ _ Ht) in Heq. unfold read in Heq. rewrite firstn_length in Heq. lia.
Qed.
End Kmeans.

Lemma kmeans_snapshots : forall E F (N : Num F) good, NumOrd N good ->
  forall (Sp : Space E F) m c datas m' c' (cs : list E), cs <> [] ->
  sl_arr c < length m -> sl_len c <= length (array m (sl_arr c)) -> read m c = map Some cs ->
  hiterations N Sp m c datas m' c' ->
  forall t, sl_arr t < length m -> sl_len t <= length (array m (sl_arr t)) -> read m' t = read m t.
Proof.
  intros E F N good HN Sp m c datas m' c' cs Hcs Hw1 Hw2 Hc H. revert Hw1 Hw2 cs Hcs Hc.
  induction H as [m c|m c data m1 c1 datas m2 c2 H1 H2 IH]; intros Hw1 Hw2 cs Hcs Hc t Ht1 Ht2; [reflexivity|].
  pose proof (hseq_sim N Sp m c cs data (conj Hw1 Hw2) Hc) as Hs.
  destruct (lloyd_main E F N good HN Sp cs data (fun x => fst (nearest N Sp cs x))) as (res & Hv & Hlen & _).
  { intros x. destruct (assign_valid N Sp good HN cs x Hcs) as (l & cl & Ha & _). exists (Some cl), (sdist Sp x cl). rewrite Ha.
    unfold assign in Ha. destruct (nearest N Sp cs x) as [l' d']. cbn [fst].
    destruct (0 <=? l')%Z; [destruct (sget cs l'); [|discriminate]|]; cbn in Ha; congruence. }
  { exact Hcs. }
  rewrite Hv in Hs.
  destruct Hs as (m1' & r' & Hr & W1 & R1 & _ & L1 & K1). rewrite Hr in H1. injection H1 as -> ->.
  destruct (K1 t (conj Ht1 Ht2)) as [[Kt1 Kt2] Kt3]. rewrite <- Kt3. destruct W1 as [W1 W2].
  apply (IH W1 W2 res); [destruct cs; [contradiction|destruct res; [discriminate|discriminate]]|exact R1|exact Kt1|exact Kt2].
Qed.

Lemma kmeans_heap_value : forall E F (N : Num F) (Sp : Space E F) m c (cs data : list E),
  sl_arr c < length m -> sl_len c <= length (array m (sl_arr c)) -> read m c = map Some cs ->
  match seq_iterate N Sp cs data with
  | Ok v => exists m' r, hseq_iterate N Sp m c data = Ok (m', r) /\ read m' r = v
  | Panic => hseq_iterate N Sp m c data = Panic
  end.
Proof.
  intros E F N Sp m c cs data H1 H2 H3. pose proof (hseq_sim N Sp m c cs data (conj H1 H2) H3) as Hs.
  destruct (seq_iterate N Sp cs data) as [v|]; [|exact Hs]. destruct Hs as (m' & r & A & _ & B & _). eauto.
Qed.


(** ** C38 is false for the streaming algorithm *)
Section Run.
Context {E F : Type} (N : Num F) (Sp : Space E F) (grow : nat -> nat) (bs oa : Z) (ratio : F).
Fixpoint hrun (h : hstreaming E F) (ops : list (sop E F)) : outcome (hstreaming E F * list hres) :=
  match ops with
  | [] => Ok (h, [])
  | o :: ops' => let* a := hstep N Sp grow bs oa ratio h o in
      let* b := hrun (fst a) ops' in Ok (fst b, snd a :: snd b)
  end.
Lemma hrun_exec ops : forall h h' rs, hrun h ops = Ok (h', rs) -> hexec N Sp grow bs oa ratio h ops rs h'.
Proof.
  induction ops as [|o ops IH]; intros h h' rs H; cbn [hrun] in H.
  - injection H as <- <-. constructor.
  - destruct (hstep N Sp grow bs oa ratio h o) as [[h1 r]|] eqn:Hs; [|discriminate]. cbn [obind fst snd] in H.
    destruct (hrun h1 ops) as [[h2 rs2]|] eqn:Hr; [|discriminate]. cbn [obind fst snd] in H. injection H as <- <-.
    econstructor; [exact Hs|]. apply IH. exact Hr.
Qed.
Lemma hrun_app ops1 : forall ops2 h h1 rs1, hrun h ops1 = Ok (h1, rs1) ->
  hrun h (ops1 ++ ops2) = let* b := hrun h1 ops2 in Ok (fst b, rs1 ++ snd b).
Proof.
  induction ops1 as [|o ops IH]; intros ops2 h h1 rs1 H; cbn [hrun app] in *.
  - injection H as <- <-. destruct (hrun h ops2) as [[h2 rs2]|]; reflexivity.
  - destruct (hstep N Sp grow bs oa ratio h o) as [[h2 r]|]; [|discriminate]. cbn [obind fst snd] in *.
    destruct (hrun h2 ops) as [[h3 rs3]|] eqn:Hr; [|discriminate]. cbn [obind fst snd] in H. injection H as <- <-.
    rewrite (IH ops2 h2 h3 rs3 Hr). destruct (hrun h3 ops2) as [[h4 rs4]|]; reflexivity.
Qed.
End Run.

Lemma snapshot_refuted : forall grow, exists elemts ops1 rs1 h1 ops2 rs2 h2 s,
  hexec B64Num (euclid_space B64Num) grow 100 5 (b64_of_Z 2) (new_hstreaming B64Num elemts) ops1 rs1 h1 /\
  In (HIterate (Some s)) rs1 /\
  hexec B64Num (euclid_space B64Num) grow 100 5 (b64_of_Z 2) h1 ops2 rs2 h2 /\
  read (h_mem h2) s <> read (h_mem h1) s.
Proof.
  intros grow.
  set (elemts := [v64 [0]%Z; v64 [2]%Z; v64 [4]%Z]).
  set (ops1 := [SInit; SIterate (b64_of_Z 2)] : list (sop (list b64) b64)).
  set (ops2 := [SIterate (b64_of_Z 2)] : list (sop (list b64) b64)).
  set (run := hrun B64Num (euclid_space B64Num) grow 100 5 (b64_of_Z 2)).
  set (show := fun (h : hstreaming (list b64) b64) => map (fun o => match o with Some v => map show64 v | None => [] end) (read (h_mem h) (mkSlice 2 1))).
  assert (H1 : match run (new_hstreaming B64Num elemts) ops1 with
               | Ok (h, rs) => rs = [HInit (Some (mkSlice 1 1)); HIterate (Some (mkSlice 2 1))] /\ show h = [[show64 (b64_of_Z 1)]]
               | Panic => False end) by (vm_compute; auto).
  assert (H2 : match run (new_hstreaming B64Num elemts) (ops1 ++ ops2) with
               | Ok (h, rs) => show h = [[show64 (b64_of_Z 2)]]
               | Panic => False end) by (vm_compute; auto).
  destruct (run (new_hstreaming B64Num elemts) ops1) as [[h1 rs1]|] eqn:R1; [|destruct H1]. destruct H1 as [-> S1].
  unfold run in R1, H2. rewrite (hrun_app _ _ _ _ _ _ ops1 ops2 _ _ _ R1) in H2.
  destruct (hrun B64Num (euclid_space B64Num) grow 100 5 (b64_of_Z 2) h1 ops2) as [[h2 rs2]|] eqn:R2; [|destruct H2]. cbn [obind fst snd] in H2.
  exists elemts, ops1, [HInit (Some (mkSlice 1 1)); HIterate (Some (mkSlice 2 1))], h1, ops2, rs2, h2, (mkSlice 2 1).
  split; [apply hrun_exec; exact R1|]. split; [right; left; reflexivity|]. split; [apply hrun_exec; exact R2|].
  intros Heq. assert (Hs : show h2 = show h1) by (unfold show; rewrite Heq; reflexivity).
  rewrite S1, H2 in Hs. vm_compute in Hs. discriminate.
Qed.
