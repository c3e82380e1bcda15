(** A buffer shared by goroutines. *)
From Coq Require Import List ZArith Bool Arith Lia Permutation.
From Verif Require Import Base.Go Model.Buffer Model.Heap Model.HeapBuffer Model.RaceBuffer Spec.BufferSpec Spec.RaceBufferSpec
  Proofs.GoLemmas Proofs.BufferProofs Proofs.HeapProofs Proofs.HeapBufferProofs.
Import ListNotations.
Local Open Scope nat_scope.

Section Race.
Context {E : Type} (grow : nat -> nat).
Implicit Types (w : world E) (t : thread E) (x : option E) (v : buffer (option E)).

Definition nonneg (st : strategy) : Prop := match st with FixedSize _ p => (0 <= p)%Z | InfiniteSize => True end.

(** What the statements of a push have done so far: [v] is what the buffer will hold at the end. *)
Definition starts (m : mem E) (b : hbuffer E) x v : Prop :=
  wf m (hb_data b) /\ nonneg (hb_strategy b) /\ strategy_push (hb_strategy b) (read m (hb_data b)) x = Ok (bstrategy v, bdata v).
Definition wrapped (b : hbuffer E) : Prop := exists size p, hb_strategy b = FixedSize size p /\ (if (p =? size)%Z then 0%Z else p) = p.
Definition written (m : mem E) (b : hbuffer E) (d : slice) v : Prop :=
  wf m d /\ read m d = bdata v /\ exists size p, hb_strategy b = FixedSize size p /\ (0 <= p)%Z /\ bstrategy v = FixedSize size (p + 1).
Definition half (m : mem E) (b : hbuffer E) (p : pc E) v : Prop :=
  match p with
  | PData _ x => starts m b x v
  | PAppend _ x d => starts m b x v /\ d = hb_data b /\ hb_strategy b = InfiniteSize
  | PWrap _ x d => starts m b x v /\ d = hb_data b /\ hb_strategy b <> InfiniteSize
  | PReset _ x d => starts m b x v /\ d = hb_data b /\ hb_strategy b <> InfiniteSize /\ position_of b = size_of b
  | PTest _ x d => starts m b x v /\ d = hb_data b /\ wrapped b
  | PCell _ x d => starts m b x v /\ d = hb_data b /\ wrapped b /\ (position_of b < Z.of_nat (sl_len d))%Z
  | PGrow _ x d => starts m b x v /\ d = hb_data b /\ wrapped b /\ (Z.of_nat (sl_len d) <= position_of b)%Z
  | PLoad _ d => written m b d v
  | PInc _ d p => written m b d v /\ p = position_of b
  | PStore _ d => wf m d /\ read m d = bdata v /\ hb_strategy b = bstrategy v /\ nonneg (bstrategy v)
  | _ => False
  end.
Definition kont_of (p : pc E) : option kont :=
  match p with
  | PData k _ | PAppend k _ _ | PWrap k _ _ | PReset k _ _ | PTest k _ _ | PCell k _ _ | PGrow k _ _ | PLoad k _ | PInc k _ _ | PStore k _ => Some k
  | _ => None
  end.
Definition holds (m : mem E) (b : hbuffer E) v : Prop :=
  wf m (hb_data b) /\ nonneg (hb_strategy b) /\ read m (hb_data b) = bdata v /\ hb_strategy b = bstrategy v.

Lemma storing_kont t : storing t <-> exists k, kont_of (t_pc t) = Some k.
Proof. unfold storing, kont_of. destruct (t_pc t); split; intros H; try contradiction; try tauto; try (eexists; reflexivity); destruct H; discriminate. Qed.

Lemma sset_some {A} (l : list A) i a : (0 <= i)%Z -> (i < Z.of_nat (length l))%Z -> exists l', sset l i a = Ok l' /\ l' = upd l (Z.to_nat i) a.
Proof. intros H1 H2. exists (upd l (Z.to_nat i) a). split; [|reflexivity]. replace i with (Z.of_nat (Z.to_nat i)) at 1 by lia. apply sset_nat. lia. Qed.

Lemma half_step m b al t m' b' t' v : half m b (t_pc t) v -> tstep grow m b al t = Some (m', b', t') ->
  hb_pipe b' = hb_pipe b /\
  ((kont_of (t_pc t') = kont_of (t_pc t) /\ storing t' /\ t_jobs t' = t_jobs t /\ half m' b' (t_pc t') v) \/
   (holds m' b' v /\ ((kont_of (t_pc t) = Some KPush /\ t' = mkThread PReady (tl (t_jobs t))) \/
                      (kont_of (t_pc t) = Some KApply /\ t' = mkThread PRecv (t_jobs t))))).
Proof.
  destruct t as [p js]. unfold tstep. cbn [t_pc t_jobs]. destruct p as [|x| |k x|k x d|k x d|k x d|k x d|k x d|k x d|k d|k d q|k d|]; cbn [half kont_of]; intros H.
  1-3: contradiction.
  - intros Q. destruct (hb_strategy b) as [size p|] eqn:ES; injection Q as <- <- <-; (split; [reflexivity|]); left; cbn [t_pc t_jobs kont_of half storing];
      repeat (split; [solve [reflexivity|exact I|exact H]|]); try split; try reflexivity; try exact ES; rewrite ES; discriminate.
  - destruct H as ((H1 & H2 & H3) & -> & HS). destruct (append grow m (hb_data b) x) as [m1 d1] eqn:EA. intros [= <- <- <-]. split; [reflexivity|]. left.
    cbn [t_pc t_jobs kont_of half storing]. destruct (append_spec grow m (hb_data b) x m1 d1 H1 EA) as (A1 & A2 & _).
    rewrite HS in H3. cbn in H3. injection H3 as H3 H4. split; [reflexivity|]. split; [exact I|]. split; [reflexivity|]. split; [exact A1|].
    split; [congruence|]. split; [congruence|]. rewrite <- H3. exact I.
  - destruct H as (H1 & -> & HS). intros Q. destruct (Z.eqb_spec (position_of b) (size_of b)) as [e|ne]; injection Q as <- <- <-; (split; [reflexivity|]); left;
      cbn [t_pc t_jobs kont_of half storing]; repeat (split; [solve [reflexivity|exact I|exact H1|exact HS]|]).
    + exact e.
    + unfold wrapped, position_of, size_of in *. destruct (hb_strategy b) as [size p|]; [|congruence]. exists size, p. split; [reflexivity|].
      destruct (Z.eqb_spec p size); congruence.
  - destruct H as ((H1 & H2 & H3) & -> & HS & He). intros [= <- <- <-]. split; [reflexivity|]. left. cbn [t_pc t_jobs kont_of half storing].
    unfold starts, wrapped, set_position, position_of, size_of in *. cbn [hb_data hb_strategy]. destruct (hb_strategy b) as [size p|]; [|congruence]. subst p.
    repeat (split; [solve [reflexivity|exact I|exact H1]|]). split.
    + split; [exact H1|]. split; [cbn; lia|]. cbn [strategy_push] in *. rewrite Z.eqb_refl in H3. replace (if (0 =? size)%Z then 0%Z else 0%Z) with 0%Z by (destruct (0 =? size)%Z; reflexivity). exact H3.
    + split; [reflexivity|]. exists size, 0%Z. split; [reflexivity|]. destruct (0 =? size)%Z; reflexivity.
  - destruct H as (H1 & -> & HW). intros Q. destruct (Z.ltb_spec (position_of b) (Z.of_nat (sl_len (hb_data b)))) as [e|ne]; injection Q as <- <- <-; (split; [reflexivity|]); left;
      cbn [t_pc t_jobs kont_of half storing]; repeat (split; [solve [reflexivity|exact I|exact H1|exact HW]|]); assumption.
  - destruct H as ((H1 & H2 & H3) & -> & (size & p & HS & HW) & Hlt). unfold position_of in *. rewrite HS in *. cbn [nonneg strategy_push] in *. rewrite HW in H3.
    pose proof (read_length _ _ H1) as HL. unfold slen in H3. rewrite HL in H3. destruct (Z.ltb_spec p (Z.of_nat (sl_len (hb_data b)))); [|lia].
    destruct (sset_some (read m (hb_data b)) p x H2) as (l' & L1 & L2); [lia|]. rewrite L1 in H3. cbn [obind] in H3. injection H3 as H3 H4.
    replace p with (Z.of_nat (Z.to_nat p)) by lia. rewrite store_nat by lia. intros [= <- <- <-]. split; [reflexivity|]. left.
    cbn [t_pc t_jobs kont_of half storing]. split; [reflexivity|]. split; [exact I|]. split; [reflexivity|]. split; [apply upd_wf; exact H1|].
    split; [rewrite read_store_same; [congruence|exact H1|lia]|]. exists size, p. split; [exact HS|]. split; [lia|]. congruence.
  - destruct H as ((H1 & H2 & H3) & -> & (size & p & HS & HW) & Hge). unfold position_of in *. rewrite HS in *. cbn [nonneg strategy_push] in *. rewrite HW in H3.
    pose proof (read_length _ _ H1) as HL. unfold slen in H3. rewrite HL in H3. destruct (Z.ltb_spec p (Z.of_nat (sl_len (hb_data b)))); [lia|].
    injection H3 as H3 H4. destruct (append grow m (hb_data b) x) as [m1 d1] eqn:EA. intros [= <- <- <-]. split; [reflexivity|]. left.
    destruct (append_spec grow m (hb_data b) x m1 d1 H1 EA) as (A1 & A2 & _).
    cbn [t_pc t_jobs kont_of half storing]. split; [reflexivity|]. split; [exact I|]. split; [reflexivity|]. split; [exact A1|]. split; [congruence|].
    exists size, p. split; [exact HS|]. split; [lia|]. congruence.
  - intros [= <- <- <-]. split; [reflexivity|]. left. cbn [t_pc t_jobs kont_of half storing]. repeat (split; [solve [reflexivity|exact I|exact H]|]). reflexivity.
  - destruct H as ((H1 & H2 & size & p & HS & H3 & H4) & ->). intros [= <- <- <-]. split; [reflexivity|]. left.
    unfold position_of. rewrite HS. cbn [t_pc t_jobs kont_of half storing]. unfold set_position. cbn [hb_strategy]. rewrite HS.
    split; [reflexivity|]. split; [exact I|]. split; [reflexivity|]. split; [exact H1|]. split; [exact H2|]. rewrite H4. split; [reflexivity|]. cbn. lia.
  - destruct H as (H1 & H2 & H3 & H4). intros [= <- <- <-]. split; [reflexivity|]. right. split.
    + unfold holds, set_data. cbn [hb_data hb_strategy]. rewrite H3. auto.
    + destruct k; [left|right]; split; reflexivity.
  - contradiction.
Qed.

Lemma half_pipe m b p q v : half m b q v -> half m (set_pipe b p) q v.
Proof. destruct b, q; exact (fun H => H). Qed.
Lemma holds_pipe m b p v : holds m b v -> holds m (set_pipe b p) v.
Proof. destruct b; exact (fun H => H). Qed.
Lemma half_storing m b t v : half m b (t_pc t) v -> storing t.
Proof. unfold storing. destruct (t_pc t); cbn; tauto. Qed.

(** ** The account of an execution *)
Definition tinv t : Prop :=
  match t_pc t with
  | PReady => True
  | PSend x => exists js, t_jobs t = JPush x :: js
  | PRecv => exists js, t_jobs t = JApply :: js
  | PDead => False
  | p => match kont_of p with Some KPush => exists x js, t_jobs t = JPush x :: js | _ => exists js, t_jobs t = JApply :: js end
  end.
Lemma tinv_storing t : storing t -> (tinv t <-> match kont_of (t_pc t) with Some KPush => exists x js, t_jobs t = JPush x :: js | _ => exists js, t_jobs t = JApply :: js end).
Proof. unfold storing, tinv. destruct (t_pc t); cbn; tauto. Qed.
Definition pend t : list (option E) := match kont_of (t_pc t) with Some KPush => pushes (firstn 1 (t_jobs t)) | _ => [] end.

Variables (l : list (option E)) (size : Z) (jobs : list (list (job E))).

Definition Inv (dirty : bool) w : Prop :=
  exists log st b0 v, new_data_buffer l size = Ok b0 /\ bsteps b0 (map PushSync st) v /\
    Permutation (st ++ staged_in w) (map snd log) /\ (dirty = false -> st ++ staged_in w = map snd log) /\
    length (w_threads w) = length jobs /\ (forall p, In p log -> fst p < length jobs) /\
    (forall i js t, nth_error jobs i = Some js -> nth_error (w_threads w) i = Some t ->
       tinv t /\ exists done, js = done ++ t_jobs t /\ by_thread i log = pushes done ++ pend t) /\
    ((resting w /\ holds (w_mem w) (w_buf w) v) \/
     (exists i t, nth_error (w_threads w) i = Some t /\ half (w_mem w) (w_buf w) (t_pc t) v /\
        forall j u, nth_error (w_threads w) j = Some u -> j <> i -> ~ storing u)).

Lemma bsteps_snoc b (ops : list (bop (option E))) o b1 b2 : bsteps b ops b1 -> bstep b1 o = Some (Ok b2) -> bsteps b (ops ++ [o]) b2.
Proof. intros H. induction H; intros Hs; cbn; econstructor; eauto. constructor. Qed.

Lemma push_total st (d : list (option E)) x : nonneg st -> exists st' d', strategy_push st d x = Ok (st', d').
Proof.
  destruct st as [s p|]; cbn [nonneg strategy_push]; intros H; [|eauto]. set (q := if (p =? s)%Z then 0%Z else p).
  assert (0 <= q)%Z by (unfold q; destruct (p =? s)%Z; lia). destruct (Z.ltb_spec q (slen d)); [|eauto].
  destruct (sset_some d q x) as (l' & -> & _); [assumption|assumption|]. cbn. eauto.
Qed.

(** Entering: the push is entered in the account at once. *)
Lemma enter m b x v : holds m b v -> exists v', bstep v (PushSync x) = Some (Ok v') /\ starts m b x v'.
Proof.
  intros (H1 & H2 & H3 & H4). destruct (push_total (hb_strategy b) (read m (hb_data b)) x H2) as (st' & d' & HP).
  exists (mkBuffer (bpipe v) d' st'). unfold starts. cbn [bstep buffer_push bstrategy bdata]. unfold Buffer.store. rewrite <- H3, <- H4, HP. cbn [obind]. auto.
Qed.

Lemma by_thread_app i log1 log2 : by_thread (E:=E) i (log1 ++ log2) = by_thread i log1 ++ by_thread i log2.
Proof. unfold by_thread. rewrite filter_app, map_app. reflexivity. Qed.
Lemma by_thread_one i j x : by_thread i [(j, x)] = if Nat.eqb j i then [x] else [].
Proof. unfold by_thread. cbn. destruct (Nat.eqb j i); reflexivity. Qed.

Lemma nth_upd_thread (ts : list (thread E)) i t j : i < length ts -> nth_error (upd ts i t) j = if Nat.eqb i j then Some t else nth_error ts j.
Proof. apply nth_upd_at. Qed.

Lemma resting_upd (ts : list (thread E)) i t : Forall (fun t => ~ storing t) ts -> ~ storing t -> Forall (fun t => ~ storing t) (upd ts i t).
Proof.
  revert i. induction ts as [|u ts IH]; intros [|i] H Ht; cbn; auto; inversion H; subst; constructor; auto.
Qed.
Lemma resting_nth w j u : resting w -> nth_error (w_threads w) j = Some u -> ~ storing u.
Proof. unfold resting. rewrite Forall_forall. intros H Hu. apply H. eapply nth_error_In; eauto. Qed.
Lemma rest_of w : (forall j u, nth_error (w_threads w) j = Some u -> ~ storing u) -> resting w.
Proof. intros H. unfold resting. rewrite Forall_forall. intros u Hu. apply In_nth_error in Hu. destruct Hu as [j Hj]. eauto. Qed.

Lemma perm_move {A} (a b c : list A) (x : A) : Permutation ((a ++ [x]) ++ b) (c ++ [x]) <-> Permutation (a ++ b) c.
Proof.
  rewrite <- app_assoc. cbn. split; intros H.
  - apply (Permutation_app_inv_l [x]). cbn. etransitivity; [apply Permutation_middle|]. etransitivity; [exact H|]. symmetry. apply (Permutation_cons_append c x).
  - etransitivity; [symmetry; apply Permutation_middle|]. etransitivity; [apply perm_skip; exact H|]. apply (Permutation_cons_append c x).
Qed.

Lemma step_idle dirty w (log : list (nat * option E)) st b0 v i t m' b' t' js done :
  new_data_buffer l size = Ok b0 -> bsteps b0 (map PushSync st) v ->
  Permutation (st ++ staged_in w) (map snd log) -> (dirty = false -> st ++ staged_in w = map snd log) ->
  length (w_threads w) = length jobs -> (forall p, In p log -> fst p < length jobs) ->
  (forall i js t, nth_error jobs i = Some js -> nth_error (w_threads w) i = Some t ->
       tinv t /\ exists done, js = done ++ t_jobs t /\ by_thread i log = pushes done ++ pend t) ->
  ((resting w /\ holds (w_mem w) (w_buf w) v) \/
     (exists i t, nth_error (w_threads w) i = Some t /\ half (w_mem w) (w_buf w) (t_pc t) v /\
        forall j u, nth_error (w_threads w) j = Some u -> j <> i -> ~ storing u)) ->
  nth_error (w_threads w) i = Some t -> tstep grow (w_mem w) (w_buf w) (w_alive w) t = Some (m', b', t') -> ~ storing t ->
  i < length (w_threads w) -> nth_error jobs i = Some js -> tinv t -> js = done ++ t_jobs t -> by_thread i log = pushes done ++ pend t ->
  (forall log', (forall j js u, nth_error jobs j = Some js -> nth_error (w_threads w) j = Some u -> j <> i -> by_thread j log' = by_thread j log) ->
             (tinv t' /\ exists done, js = done ++ t_jobs t' /\ by_thread i log' = pushes done ++ pend t') ->
             forall j js0 u, nth_error jobs j = Some js0 -> nth_error (upd (w_threads w) i t') j = Some u ->
               tinv u /\ exists done, js0 = done ++ t_jobs u /\ by_thread j log' = pushes done ++ pend u) ->
  length (upd (w_threads w) i t') = length jobs ->
  exclusive (mkWorld m' b' (w_alive w) (upd (w_threads w) i t')) ->
  exists dirty', Inv dirty' (mkWorld m' b' (w_alive w) (upd (w_threads w) i t')) /\ (w_alive w = true -> dirty' = dirty).
Proof.
  intros HN HB HP HD HL HI HT HS Hi Ht Hns Hlt Hj Htv Hdone Hlog KT KL HX.
  assert (KS : forall p, m' = w_mem w -> b' = set_pipe (w_buf w) p -> ~ storing t' ->
     (resting (mkWorld m' b' (w_alive w) (upd (w_threads w) i t')) /\ holds m' b' v) \/
     (exists j u, nth_error (upd (w_threads w) i t') j = Some u /\ half m' b' (t_pc u) v /\
        forall k z, nth_error (upd (w_threads w) i t') k = Some z -> k <> j -> ~ storing z)).
  { intros p -> -> Hns'. destruct HS as [[HR HH]|(i0 & t0 & Hi0 & Hh & Ho)].
    - left. split; [apply resting_upd; assumption|apply holds_pipe; exact HH].
    - right. exists i0, t0. assert (i <> i0) by (intros ->; rewrite Hi in Hi0; injection Hi0 as <-; apply Hns; eapply half_storing; exact Hh).
      split; [rewrite nth_upd_thread by exact Hlt; destruct (Nat.eqb_spec i i0); [contradiction|exact Hi0]|]. split; [apply half_pipe; exact Hh|].
      intros k z Hz Hk. rewrite nth_upd_thread in Hz by exact Hlt. destruct (Nat.eqb_spec i k); [injection Hz as <-; exact Hns'|eauto]. }
  assert (KE : storing t' -> resting w /\ holds (w_mem w) (w_buf w) v).
  { intros Hst'. destruct HS as [HH|(i0 & t0 & Hi0 & Hh & Ho)]; [exact HH|]. exfalso.
    assert (i <> i0) by (intros ->; rewrite Hi in Hi0; injection Hi0 as <-; apply Hns; eapply half_storing; exact Hh).
    apply H. apply (HX i i0 t' t0); cbn [w_threads].
    - rewrite nth_upd_thread, Nat.eqb_refl by exact Hlt. reflexivity.
    - rewrite nth_upd_thread by exact Hlt. destruct (Nat.eqb_spec i i0); [contradiction|exact Hi0].
    - exact Hst'.
    - eapply half_storing. exact Hh. }
  assert (KO : forall v', resting w -> half m' b' (t_pc t') v' -> exists j u, nth_error (upd (w_threads w) i t') j = Some u /\ half m' b' (t_pc u) v' /\
        forall k z, nth_error (upd (w_threads w) i t') k = Some z -> k <> j -> ~ storing z).
  { intros v' HR Hh. exists i, t'. split; [rewrite nth_upd_thread, Nat.eqb_refl by exact Hlt; reflexivity|]. split; [exact Hh|].
    intros k z Hz Hk. rewrite nth_upd_thread in Hz by exact Hlt. destruct (Nat.eqb_spec i k); [congruence|]. eapply resting_nth; eauto. }
  assert (Hi' : i < length jobs) by lia.
  unfold tstep in Ht. unfold pend in Hlog. destruct t as [p js']. cbn [t_pc t_jobs] in *. unfold tinv in Htv. cbn [t_pc t_jobs] in Htv.
  destruct p as [|x| |k x|k x d|k x d|k x d|k x d|k x d|k x d|k d|k d q|k d|]; try (exfalso; exact (Hns I)); cbn [kont_of] in Hlog; try rewrite app_nil_r in Hlog.
  - destruct js' as [|[x|] js']; [discriminate| |].
    + destruct (w_alive w) eqn:Hal; injection Ht as <- <- <-.
      * exists dirty. split; [|reflexivity]. exists log, st, b0, v. repeat (split; [assumption|]). split; [apply KT; [reflexivity|]|].
        -- split; [cbn; eauto|]. exists done. split; [exact Hdone|]. rewrite app_nil_r. exact Hlog.
        -- apply (KS (hb_pipe (w_buf w))); [reflexivity|destruct (w_buf w); reflexivity|exact (fun H => H)].
      * exists true. split; [|discriminate]. destruct (KE I) as [HR HH]. destruct (enter _ _ x _ HH) as (v' & V1 & V2).
        exists (log ++ [(i, x)]), (st ++ [x]), b0, v'. split; [exact HN|]. split; [rewrite map_app; eapply bsteps_snoc; eauto|].
        split; [rewrite map_app; apply perm_move; exact HP|]. split; [discriminate|]. split; [exact KL|].
        split; [intros q Hq; apply in_app_or in Hq; destruct Hq as [Hq|[<-|[]]]; [auto|exact Hi']|]. split.
        -- apply KT.
           ++ intros j js0 u _ _ Hne. rewrite by_thread_app, by_thread_one. destruct (Nat.eqb_spec i j); [congruence|apply app_nil_r].
           ++ split; [cbn; eauto|]. exists done. split; [exact Hdone|]. rewrite by_thread_app, by_thread_one, Nat.eqb_refl, Hlog. reflexivity.
        -- right. apply KO; [exact HR|]. exact V2.
    + injection Ht as <- <- <-. exists dirty. split; [|reflexivity]. exists log, st, b0, v. repeat (split; [assumption|]). split; [apply KT; [reflexivity|]|].
      * split; [cbn; eauto|]. exists done. split; [exact Hdone|]. rewrite app_nil_r. exact Hlog.
      * apply (KS (hb_pipe (w_buf w))); [reflexivity|destruct (w_buf w); reflexivity|exact (fun H => H)].
  - destruct (slen (hb_pipe (w_buf w)) <? pipe_size)%Z; [|discriminate]. injection Ht as <- <- <-. destruct Htv as [js2 ->].
    exists dirty. split; [|reflexivity]. exists (log ++ [(i, x)]), st, b0, v. unfold staged_in in *. cbn [w_buf set_pipe hb_pipe].
    split; [exact HN|]. split; [exact HB|]. split; [rewrite map_app, app_assoc; apply Permutation_app_tail; exact HP|].
    split; [intros Hd; rewrite map_app, app_assoc, (HD Hd); reflexivity|]. split; [exact KL|].
    split; [intros q Hq; apply in_app_or in Hq; destruct Hq as [Hq|[<-|[]]]; [auto|exact Hi']|]. split.
    + apply KT.
      * intros j js0 u _ _ Hne. rewrite by_thread_app, by_thread_one. destruct (Nat.eqb_spec i j); [congruence|apply app_nil_r].
      * split; [exact I|]. exists (done ++ [JPush x]). cbn [t_jobs tl]. rewrite <- app_assoc. split; [exact Hdone|].
        rewrite by_thread_app, by_thread_one, Nat.eqb_refl, Hlog. cbn [pend kont_of t_pc]. unfold pend. cbn. rewrite app_nil_r. unfold pushes. rewrite flat_map_app. reflexivity.
    + apply (KS (hb_pipe (w_buf w) ++ [x])); [reflexivity|reflexivity|exact (fun H => H)].
  - destruct Htv as [js2 ->]. unfold staged_in in *. destruct (hb_pipe (w_buf w)) as [|x p] eqn:Hp; injection Ht as <- <- <-.
    + exists dirty. split; [|reflexivity]. exists log, st, b0, v. unfold staged_in. cbn [w_buf]. rewrite Hp. repeat (split; [assumption|]). split.
      * apply KT; [reflexivity|]. split; [exact I|]. exists (done ++ [JApply]). cbn [t_jobs tl]. rewrite <- app_assoc. split; [exact Hdone|].
        unfold pend. cbn. rewrite app_nil_r. unfold pushes in *. rewrite flat_map_app. cbn. rewrite app_nil_r. exact Hlog.
      * apply (KS []); [reflexivity|destruct (w_buf w); cbn in Hp; subst; reflexivity|exact (fun H => H)].
    + exists dirty. split; [|reflexivity]. destruct (KE I) as [HR HH]. destruct (enter _ (set_pipe (w_buf w) p) x _ (holds_pipe _ _ p _ HH)) as (v' & V1 & V2).
      exists log, (st ++ [x]), b0, v'. unfold staged_in. cbn [w_buf set_pipe hb_pipe]. split; [exact HN|]. split; [rewrite map_app; eapply bsteps_snoc; eauto|].
      rewrite <- app_assoc. cbn [app]. repeat (split; [assumption|]). split.
      * apply KT; [reflexivity|]. split; [cbn; eauto|]. exists done. split; [exact Hdone|]. unfold pend. cbn. rewrite app_nil_r. exact Hlog.
      * right. apply KO; [exact HR|]. exact V2.
  - contradiction.
Qed.

Lemma step_inv dirty w a w' : Inv dirty w -> wstep grow w a = Some w' -> exclusive w' ->
  exists dirty', Inv dirty' w' /\ (w_alive w = true -> dirty' = dirty).
Proof.
  intros (log & st & b0 & v & HN & HB & HP & HD & HL & HI & HT & HS) Hstep HX.
  destruct a as [i|al]; cbn [wstep] in Hstep.
  2:{ injection Hstep as <-. exists dirty. split; [|reflexivity]. exists log, st, b0, v. repeat (split; [assumption|]). exact HS. }
  destruct (nth_error (w_threads w) i) as [t|] eqn:Hi; [|discriminate].
  destruct (tstep grow (w_mem w) (w_buf w) (w_alive w) t) as [[[m' b'] t']|] eqn:Ht; [|discriminate]. injection Hstep as <-.
  assert (Hlt : i < length (w_threads w)) by (apply nth_error_Some; congruence).
  destruct (nth_error jobs i) as [js|] eqn:Hj; [|apply nth_error_None in Hj; lia].
  destruct (HT i js t Hj Hi) as (Htv & done & Hdone & Hlog).
  (* rebuilding the accounts of the threads *)
  assert (KT : forall log', (forall j js u, nth_error jobs j = Some js -> nth_error (w_threads w) j = Some u -> j <> i -> by_thread j log' = by_thread j log) ->
             (tinv t' /\ exists done, js = done ++ t_jobs t' /\ by_thread i log' = pushes done ++ pend t') ->
             forall j js0 u, nth_error jobs j = Some js0 -> nth_error (upd (w_threads w) i t') j = Some u ->
               tinv u /\ exists done, js0 = done ++ t_jobs u /\ by_thread j log' = pushes done ++ pend u).
  { intros log' H1 H2 j js0 u Hj0 Hu. rewrite nth_upd_thread in Hu by exact Hlt. destruct (Nat.eqb_spec i j) as [<-|ne].
    - injection Hu as <-. rewrite Hj in Hj0. injection Hj0 as <-. exact H2.
    - destruct (HT j js0 u Hj0 Hu) as (A & dn & B & C). split; [exact A|]. exists dn. split; [exact B|]. rewrite (H1 j js0 u Hj0 Hu); [exact C|congruence]. }
  assert (KL : length (upd (w_threads w) i t') = length jobs) by (rewrite upd_length; exact HL).
  destruct HS as [[HR HH]|(i0 & t0 & Hi0 & Hhalf & Hoth)].
  2: destruct (Nat.eq_dec i0 i) as [->|Hne].
  2:{ (* the storing goroutine goes on *)
      rewrite Hi in Hi0. injection Hi0 as <-. exists dirty. split; [|reflexivity].
      pose proof (half_storing _ _ _ _ Hhalf) as Hst. destruct (half_step _ _ _ _ _ _ _ _ Hhalf Ht) as (Hp & Hcase).
      exists log, st, b0, v. unfold staged_in in *. cbn [w_buf w_threads w_mem]. rewrite Hp. repeat (split; [assumption|]). split.
      - apply KT; [reflexivity|]. destruct Hcase as [(C1 & C2 & C3 & C4)|(C1 & [(C2 & ->)|(C2 & ->)])].
        + assert (tinv t') by (apply (tinv_storing t' C2); rewrite C1, C3; apply (tinv_storing t Hst); exact Htv).
          split; [assumption|]. exists done. rewrite C3. split; [exact Hdone|]. unfold pend in *. rewrite C1, C3. exact Hlog.
        + split; [exact I|]. unfold tinv in Htv. assert (exists x js, t_jobs t = JPush x :: js) as (x & js' & Hjs).
          { destruct (t_pc t); cbn in C2; try discriminate C2; injection C2 as ->; exact Htv. }
          exists (done ++ [JPush x]). cbn [t_jobs]. rewrite Hjs in *. cbn [tl]. rewrite <- app_assoc. split; [exact Hdone|].
          unfold pend in *. rewrite C2, Hjs in Hlog. cbn in Hlog. cbn [t_pc kont_of]. rewrite app_nil_r. unfold pushes in *. rewrite flat_map_app. exact Hlog.
        + unfold tinv in *. assert (exists js, t_jobs t = JApply :: js) as (js' & Hjs).
          { destruct (t_pc t); cbn in C2; try discriminate C2; injection C2 as ->; exact Htv. }
          cbn [t_pc t_jobs]. split; [eauto|]. exists done. split; [exact Hdone|]. unfold pend in *. rewrite C2 in Hlog. exact Hlog.
      - destruct Hcase as [(C1 & C2 & C3 & C4)|(C1 & C2)].
        + right. exists i, t'. split; [rewrite nth_upd_thread, Nat.eqb_refl by exact Hlt; reflexivity|]. split; [exact C4|].
          intros j u Hu Hji. rewrite nth_upd_thread in Hu by exact Hlt. destruct (Nat.eqb_spec i j); [congruence|]. eauto.
        + left. split; [|exact C1]. apply rest_of. cbn [w_threads]. intros j u Hu. rewrite nth_upd_thread in Hu by exact Hlt.
          destruct (Nat.eqb_spec i j); [|eauto]. injection Hu as <-. destruct C2 as [(_ & ->)|(_ & ->)]; exact (fun H => H). }
  (* the acting goroutine is not storing *)
  all: assert (Hns : ~ storing t) by (first [solve [eapply resting_nth; eauto] | apply (Hoth i t Hi); congruence]).
  all: match goal with |- exists d, Inv d ?w' /\ _ => set (W := w') in * end.
  all: assert (HS : (resting w /\ holds (w_mem w) (w_buf w) v) \/
     (exists i t, nth_error (w_threads w) i = Some t /\ half (w_mem w) (w_buf w) (t_pc t) v /\
        forall j u, nth_error (w_threads w) j = Some u -> j <> i -> ~ storing u)) by (first [solve [left; auto] | right; exists i0, t0; auto]).
  all: exact (step_idle _ _ _ _ _ _ _ _ _ _ _ _ _ HN HB HP HD HL HI HT HS Hi Ht Hns Hlt Hj Htv Hdone Hlog KT KL HX).
Qed.

Lemma push_history (st : list (option E)) : history [] (map PushSync st) = map PushSync st /\ stored l [] (map PushSync st) = l ++ st /\ no_apply (map PushSync st) /\ async_pushed (map PushSync st) = [].
Proof.
  split; [reflexivity|]. split; [unfold stored; cbn; f_equal; induction st; cbn; congruence|]. split.
  - intros H. apply in_map_iff in H. destruct H as (x & H & _). discriminate.
  - induction st; cbn; auto.
Qed.

Lemma by_thread_nil i : by_thread (E:=E) i [] = [].
Proof. reflexivity. Qed.

Lemma inv_start alive : Inv false (wstart l size alive jobs).
Proof.
  unfold wstart. assert (Hw : wf (E:=E) [l] (mkSlice 0 (length l))) by (split; cbn; lia).
  destruct (new_own [l] (mkSlice 0 (length l)) size Hw) as (m' & b & H1 & H2 & H3 & _ & _ & _). rewrite H1.
  assert (Hrd : read (E:=E) [l] (mkSlice 0 (length l)) = l) by (cbn; apply firstn_all). rewrite Hrd in H2.
  assert (Hpipe : hb_pipe b = [] /\ nonneg (hb_strategy b)).
  { unfold new_hbuffer, make_slice in H1. destruct (_ <? size)%Z eqn:Q1.
    - injection H1 as <- <-. cbn. split; [reflexivity|lia].
    - destruct (Z.ltb_spec 0 size); injection H1 as <- <-; cbn; split; try reflexivity; lia. }
  exists [], [], (held m' b), (held m' b). split; [exact H2|]. split; [constructor|]. unfold staged_in. cbn [w_buf w_threads w_mem]. rewrite (proj1 Hpipe).
  split; [reflexivity|]. split; [reflexivity|]. split; [apply map_length|]. split; [intros p []|]. split.
  - intros i js t Hj Ht. rewrite nth_error_map, Hj in Ht. injection Ht as <-. split; [exact I|]. exists []. split; reflexivity.
  - left. split.
    + apply rest_of. cbn [w_threads]. intros j u Hu. rewrite nth_error_map in Hu. destruct (nth_error jobs j); [|discriminate]. injection Hu as <-. exact (fun H => H).
    + split; [exact H3|]. split; [apply Hpipe|]. split; reflexivity.
Qed.

Lemma run_inv acts : forall dirty w w', Inv dirty w -> wrun grow w acts = Some w' -> always grow exclusive w acts ->
  exists dirty', Inv dirty' w' /\ (always grow (fun w => w_alive w = true) w acts -> dirty' = dirty).
Proof.
  induction acts as [|a acts IH]; intros dirty w w' HI Hr HA; cbn [wrun always] in *.
  - injection Hr as <-. exists dirty. auto.
  - destruct (wstep grow w a) as [w1|] eqn:Hs; [|discriminate]. destruct HA as [_ HA].
    assert (HX : exclusive w1) by (destruct acts; apply HA). destruct (step_inv _ _ _ _ HI Hs HX) as (d1 & I1 & D1).
    destruct (IH d1 w1 w' I1 Hr HA) as (d2 & I2 & D2). exists d2. split; [exact I2|]. intros [H1 H2]. rewrite D2; auto.
Qed.

Lemma inv_live dirty w : Inv dirty w -> Forall (fun t => t_pc t <> PDead) (w_threads w).
Proof.
  intros (log & st & b0 & v & HN & HB & HP & HD & HL & HI & HT & HS). rewrite Forall_forall. intros t Ht Q. apply In_nth_error in Ht. destruct Ht as [i Hi].
  assert (i < length jobs) by (rewrite <- HL; apply nth_error_Some; congruence). destruct (nth_error jobs i) as [js|] eqn:Hj; [|apply nth_error_None in Hj; lia].
  destruct (HT i js t Hj Hi) as [H1 _]. unfold tinv in H1. rewrite Q in H1. exact H1.
Qed.

Lemma inv_rest dirty w : Inv dirty w -> resting w ->
  exists log st, accounts jobs w log /\ Permutation (st ++ staged_in w) (map snd log) /\ (dirty = false -> st ++ staged_in w = map snd log) /\
    ((size <= 0)%Z -> stored_in w = l ++ st) /\
    ((0 < size)%Z -> rotation (stored_in w) (last_n (Z.to_nat size) (l ++ st)) /\ (Z.of_nat (length (stored_in w)) <= size)%Z).
Proof.
  intros (log & st & b0 & v & HN & HB & HP & HD & HL & HI & HT & HS) HR. exists log, st.
  assert (HH : holds (w_mem w) (w_buf w) v).
  { destruct HS as [[_ HH]|(i & t & Hi & Hh & _)]; [exact HH|]. exfalso. apply (resting_nth w i t HR Hi). eapply half_storing. exact Hh. }
  split.
  { split; [exact HL|]. split; [exact HI|]. intros i js t Hj Ht. destruct (HT i js t Hj Ht) as (_ & done & H1 & H2). exists done. split; [exact H1|].
    rewrite H2. unfold pend. pose proof (resting_nth w i t HR Ht) as Hn. destruct (kont_of (t_pc t)) as [k|] eqn:Q; [|apply app_nil_r].
    exfalso. apply Hn. apply storing_kont. eauto. }
  split; [exact HP|]. split; [exact HD|]. destruct (push_history st) as (P1 & P2 & P3 & P4). destruct HH as (H1 & H2 & H3 & H4). unfold stored_in. rewrite H3. split; intros Hs.
  - destruct (unbounded_main l size [] (map PushSync st) b0 Hs (Forall_nil _) P3 HN v HB) as [U1 _]. rewrite U1. exact P2.
  - destruct (frame_main l size [] (map PushSync st) b0 Hs (Forall_nil _) P3 HN v HB) as (U1 & U2 & _). rewrite P2 in *. split; [exact U1|lia].
Qed.

Lemma exclusive_main alive acts w : wrun grow (wstart l size alive jobs) acts = Some w -> always grow exclusive (wstart l size alive jobs) acts ->
  Forall (fun t => t_pc t <> PDead) (w_threads w) /\
  (resting w -> exists log st, accounts jobs w log /\ Permutation (st ++ staged_in w) (map snd log) /\
    ((size <= 0)%Z -> stored_in w = l ++ st) /\
    ((0 < size)%Z -> rotation (stored_in w) (last_n (Z.to_nat size) (l ++ st)) /\ (Z.of_nat (length (stored_in w)) <= size)%Z)).
Proof.
  intros Hr HA. destruct (run_inv acts _ _ _ (inv_start alive) Hr HA) as (d & HI & _). split; [eapply inv_live; exact HI|].
  intros HR. destruct (inv_rest _ _ HI HR) as (log & st & A & B & _ & C). exists log, st. auto.
Qed.

(** ** All pushes while alive *)
Definition jinv t : Prop := kont_of (t_pc t) <> Some KPush /\ (t_pc t = PRecv \/ kont_of (t_pc t) = Some KApply -> In JApply (t_jobs t)).
Lemma tl_incl {A} (a : list A) : incl (tl a) a.
Proof. destruct a; [apply incl_refl|apply incl_tl, incl_refl]. Qed.
Lemma tstep_jinv m b t m' b' t' : jinv t -> tstep grow m b true t = Some (m', b', t') -> jinv t' /\ incl (t_jobs t') (t_jobs t).
Proof.
  destruct t as [p js]. unfold jinv, tstep. cbn [t_pc t_jobs]. intros [H1 H2].
  destruct p as [|x| |k x|k x d|k x d|k x d|k x d|k x d|k x d|k d|k d q|k d|]; cbn [kont_of] in H1, H2;
    try (destruct k; [exfalso; apply H1; reflexivity|]).
  - destruct js as [|[x|] js]; [discriminate| |]; intros [= <- <- <-]; cbn; (split; [split; [discriminate|]|apply incl_refl]).
    + intros [Q|Q]; discriminate.
    + intros _. left. reflexivity.
  - destruct (_ <? _)%Z; [|discriminate]. intros [= <- <- <-]. cbn. split; [split; [discriminate|intros [Q|Q]; discriminate]|apply tl_incl].
  - destruct (hb_pipe b); intros [= <- <- <-]; cbn.
    + split; [split; [discriminate|intros [Q|Q]; discriminate]|apply tl_incl].
    + split; [split; [discriminate|auto]|apply incl_refl].
  - destruct (hb_strategy b); intros [= <- <- <-]; cbn; (split; [split; [discriminate|auto]|apply incl_refl]).
  - destruct (append grow m d x); intros [= <- <- <-]; cbn; (split; [split; [discriminate|auto]|apply incl_refl]).
  - destruct (_ =? _)%Z; intros [= <- <- <-]; cbn; (split; [split; [discriminate|auto]|apply incl_refl]).
  - intros [= <- <- <-]; cbn; (split; [split; [discriminate|auto]|apply incl_refl]).
  - destruct (_ <? _)%Z; intros [= <- <- <-]; cbn; (split; [split; [discriminate|auto]|apply incl_refl]).
  - destruct (Heap.store m d (position_of b) x); intros [= <- <- <-]; cbn; (split; [split; [discriminate|auto]|apply incl_refl]).
  - destruct (append grow m d x); intros [= <- <- <-]; cbn; (split; [split; [discriminate|auto]|apply incl_refl]).
  - intros [= <- <- <-]; cbn; (split; [split; [discriminate|auto]|apply incl_refl]).
  - intros [= <- <- <-]; cbn; (split; [split; [discriminate|auto]|apply incl_refl]).
  - intros [= <- <- <-]; cbn; (split; [split; [discriminate|auto]|apply incl_refl]).
  - discriminate.
Qed.

Definition one_applier : Prop := forall i j a b, nth_error jobs i = Some a -> nth_error jobs j = Some b -> In JApply a -> In JApply b -> i = j.
Definition calm w : Prop := forall i t, nth_error (w_threads w) i = Some t -> jinv t /\ exists js, nth_error jobs i = Some js /\ incl (t_jobs t) js.
Lemma calm_exclusive w : one_applier -> calm w -> exclusive w.
Proof.
  intros HO HC i j t u Hi Hj Ht Hu. destruct (HC i t Hi) as ((A1 & A2) & a & A3 & A4). destruct (HC j u Hj) as ((B1 & B2) & b & B3 & B4).
  apply storing_kont in Ht, Hu. destruct Ht as [[|] Ht]; [congruence|]. destruct Hu as [[|] Hu]; [congruence|]. apply (HO i j a b A3 B3); auto.
Qed.
Lemma calm_step w a w' : calm w -> w_alive w = true -> wstep grow w a = Some w' -> calm w'.
Proof.
  intros HC Ha Hs. destruct a as [i|al]; cbn [wstep] in Hs; [|injection Hs as <-; exact HC].
  destruct (nth_error (w_threads w) i) as [t|] eqn:Hi; [|discriminate]. rewrite Ha in Hs.
  destruct (tstep grow (w_mem w) (w_buf w) true t) as [[[m' b'] t']|] eqn:Ht; [|discriminate]. injection Hs as <-.
  assert (Hlt : i < length (w_threads w)) by (apply nth_error_Some; congruence).
  destruct (HC i t Hi) as (A1 & a & A3 & A4). destruct (tstep_jinv _ _ _ _ _ _ A1 Ht) as [B1 B2].
  intros j u Hu. cbn [w_threads] in Hu. rewrite nth_upd_thread in Hu by exact Hlt. destruct (Nat.eqb_spec i j) as [<-|]; [|auto].
  injection Hu as <-. split; [exact B1|]. exists a. split; [exact A3|]. intros z Hz. auto.
Qed.
Lemma calm_always acts : forall w, one_applier -> calm w -> always grow (fun w => w_alive w = true) w acts -> always grow exclusive w acts.
Proof.
  induction acts as [|a acts IH]; intros w HO HC HA; cbn [always] in *; (split; [apply calm_exclusive; assumption|]); [exact I|].
  destruct HA as [HA1 HA2]. destruct (wstep grow w a) as [w1|] eqn:Hs; [|exact I]. apply IH; auto. eapply calm_step; eauto.
Qed.
Lemma calm_start alive : calm (wstart l size alive jobs).
Proof.
  unfold wstart. destruct (new_hbuffer _ _ _) as [m b]. intros i t Ht. cbn [w_threads] in Ht. rewrite nth_error_map in Ht.
  destruct (nth_error jobs i) as [js|]; [|discriminate]. injection Ht as <-. split; [split; [discriminate|intros [Q|Q]; discriminate]|]. exists js. split; [reflexivity|apply incl_refl].
Qed.

Lemma alive_main acts w : (forall i j a b, nth_error jobs i = Some a -> nth_error jobs j = Some b -> In JApply a -> In JApply b -> i = j) ->
  wrun grow (wstart l size true jobs) acts = Some w -> ~ In (Status false) acts ->
  Forall (fun t => t_pc t <> PDead) (w_threads w) /\
  (resting w -> exists log st, accounts jobs w log /\ st ++ staged_in w = map snd log /\
    ((size <= 0)%Z -> stored_in w = l ++ st) /\
    ((0 < size)%Z -> rotation (stored_in w) (last_n (Z.to_nat size) (l ++ st)) /\ (Z.of_nat (length (stored_in w)) <= size)%Z)).
Proof.
  intros HO Hr Hn.
  assert (HA : forall acts w, w_alive w = true -> ~ In (Status false) acts -> always grow (fun w => w_alive w = true) w acts).
  { clear acts w Hr Hn. induction acts as [|a acts IH]; intros w Ha Hn; cbn [always]; (split; [exact Ha|]); [exact I|].
    destruct (wstep grow w a) as [w1|] eqn:Hs; [|exact I]. apply IH; [|intros H; apply Hn; right; exact H].
    destruct a as [i|al]; cbn [wstep] in Hs.
    - destruct (nth_error (w_threads w) i) as [t|]; [|discriminate]. destruct (tstep _ _ _ _ t) as [[[? ?] ?]|]; [|discriminate]. injection Hs as <-. exact Ha.
    - injection Hs as <-. destruct al; [reflexivity|]. exfalso. apply Hn. left. reflexivity. }
  assert (Hal : w_alive (wstart l size true jobs) = true) by (unfold wstart; destruct (new_hbuffer _ _ _); reflexivity).
  specialize (HA acts _ Hal Hn). pose proof (calm_always acts _ HO (calm_start true) HA) as HX.
  destruct (run_inv acts _ _ _ (inv_start true) Hr HX) as (d & HI & Hd). split; [eapply inv_live; exact HI|].
  intros HR. destruct (inv_rest _ _ HI HR) as (log & st & A & _ & B & C). exists log, st. split; [exact A|]. split; [apply B; apply Hd; exact HA|]. exact C.
Qed.
End Race.

(** ** Executions with races *)
Definition turns (i n : nat) : list act := repeat (Go i) n.

Definition lost_acts : list act := turns 0 2 ++ turns 1 4 ++ turns 0 2.
Lemma lost_witness : forall grow, exists w : world nat,
  wrun grow (wstart [] 0 false [[JPush (Some 1)]; [JPush (Some 2)]]) lost_acts = Some w /\ all_done w /\ staged_in w = [] /\ stored_in w = [Some 1].
Proof. intros grow. eexists. split; [lazy; reflexivity|]. split; [repeat constructor|]. split; reflexivity. Qed.

(** Client 0 pushes 1 while the algorithm is alive, then the run stops, then client 0 pushes 2 while Play of client 1 calls
    Init, which calls Apply. *)
Definition init_acts : list act := turns 0 2 ++ [Status false] ++ turns 0 2 ++ turns 1 6 ++ turns 0 2.
Lemma init_witness : forall grow, exists w : world nat,
  wrun grow (wstart [] 0 true [[JPush (Some 1); JPush (Some 2)]; [JApply]]) init_acts = Some w /\ all_done w /\ staged_in w = [] /\ stored_in w = [Some 2].
Proof. intros grow. eexists. split; [lazy; reflexivity|]. split; [repeat constructor|]. split; reflexivity. Qed.

Definition dead_acts : list act := turns 0 5 ++ turns 1 8 ++ turns 0 1.
Lemma dead_witness : forall grow, exists w : world nat,
  wrun grow (wstart [Some 0] 1 false [[JPush (Some 1)]; [JPush (Some 2)]]) dead_acts = Some w /\ map t_pc (w_threads w) = [PDead; PReady].
Proof. intros grow. eexists. split; [lazy; reflexivity|reflexivity]. Qed.

(** Client 0 has stored 1 and loaded the position; client 1 pushes 2 and 3; then client 0 stores the position it had loaded
    plus one, and client 1 pushes 4. *)
Definition back_acts : list act := turns 0 7 ++ turns 1 16 ++ turns 0 2 ++ turns 1 8.
Lemma back_witness : forall grow, exists w : world nat,
  wrun grow (wstart [Some 7; Some 8; Some 9] 3 false [[JPush (Some 1)]; [JPush (Some 2); JPush (Some 3); JPush (Some 4)]]) back_acts = Some w /\
  all_done w /\ staged_in w = [] /\ stored_in w = [Some 2; Some 4; Some 9].
Proof. intros grow. eexists. split; [lazy; reflexivity|]. split; [repeat constructor|]. split; reflexivity. Qed.

Definition grow_acts : list act := turns 0 6 ++ turns 1 5 ++ turns 0 3 ++ turns 1 3.
Definition beyond (w : world nat) (n : nat) (xs : list nat) : Prop :=
  wf (w_mem w) (hb_data (w_buf w)) /\ length (stored_in w) = n /\ hb_strategy (w_buf w) = FixedSize 1 (Z.of_nat (S n)) /\ 0 < n /\ w_alive w = false /\
  w_threads w = [mkThread PReady []; mkThread PReady []; mkThread PReady (map (fun x => JPush (Some x)) xs)].

Lemma beyond_run grow xs : forall w n, beyond w n xs -> exists acts w', wrun grow w acts = Some w' /\ beyond w' (n + length xs) [].
Proof.
  induction xs as [|x xs IH]; intros w n HB.
  - exists [], w. split; [reflexivity|]. cbn. rewrite Nat.add_0_r. exact HB.
  - destruct w as [m [pipe d st] al ts]. destruct HB as (B1 & B2 & B3 & B4 & B5 & B6). unfold stored_in in B2. cbn [w_mem w_buf hb_data hb_strategy w_alive w_threads] in *. subst st al ts.
    pose proof (read_length _ _ B1) as HL. destruct (append grow m d (Some x)) as [m1 d1] eqn:EA. destruct (append_spec grow m d (Some x) m1 d1 B1 EA) as (A1 & A2 & A3 & _).
    destruct (IH (mkWorld m1 (mkHBuffer pipe d1 (FixedSize 1 (Z.of_nat (S n) + 1))) false [mkThread PReady []; mkThread PReady []; mkThread PReady (map (fun x => JPush (Some x)) xs)]) (S n)) as (acts & w' & W1 & W2).
    { split; [exact A1|]. unfold stored_in. cbn [w_mem w_buf hb_data hb_strategy]. split; [rewrite A2, app_length; cbn; lia|]. split; [f_equal; lia|]. split; [lia|]. split; reflexivity. }
    exists (turns 2 8 ++ acts), w'. split; [|replace (n + length (x :: xs)) with (S n + length xs) by (cbn; lia); exact W2].
    rewrite <- W1. cbn -[append Z.eqb Z.of_nat Z.ltb Z.add]. destruct (Z.eqb_spec (Z.of_nat (S n)) 1); [lia|]. cbn -[append Z.eqb Z.of_nat Z.ltb Z.add].
    destruct (Z.ltb_spec (Z.of_nat (S n)) (Z.of_nat (sl_len d))); [lia|]. cbn -[append Z.eqb Z.of_nat Z.ltb Z.add]. rewrite EA. cbn -[append Z.eqb Z.of_nat Z.ltb Z.add]. reflexivity.
Qed.

Lemma wrun_app {E} grow (a : list act) : forall (w : world E) b, wrun grow w (a ++ b) = match wrun grow w a with Some w => wrun grow w b | None => None end.
Proof. induction a as [|x a IH]; intros w b; cbn [app wrun]; [reflexivity|]. destruct (wstep grow w x); auto. Qed.

Lemma grows_witness : forall grow (xs : list nat), exists acts w,
  wrun grow (wstart [Some 0] 1 false [[JPush (Some 1)]; [JPush (Some 2)]; map (fun x => JPush (Some x)) xs]) acts = Some w /\ all_done w /\
  length (stored_in w) = 1 + length xs.
Proof.
  intros grow xs.
  assert (H : exists w, wrun grow (wstart [Some 0] 1 false [[JPush (Some 1)]; [JPush (Some 2)]; map (fun x => JPush (Some x)) xs]) grow_acts = Some w /\ beyond w 1 xs).
  { eexists. split; [lazy; reflexivity|]. split; [split; cbn; lia|]. split; [reflexivity|]. split; [reflexivity|]. split; [lia|]. split; reflexivity. }
  destruct H as (w & H1 & H2). destruct (beyond_run grow xs w 1 H2) as (acts & w' & W1 & W2). exists (grow_acts ++ acts), w'. rewrite wrun_app, H1.
  split; [exact W1|]. destruct W2 as (_ & C & _ & _ & _ & D). split; [|exact C]. unfold all_done. rewrite D. repeat constructor.
Qed.

(** ** Checking that an execution is exclusive *)
Definition storingb {E} (t : thread E) : bool := match t_pc t with PReady | PSend _ | PRecv | PDead => false | _ => true end.
Lemma storingb_spec {E} (t : thread E) : storing t -> storingb t = true.
Proof. unfold storing, storingb. destruct (t_pc t); tauto. Qed.
Fixpoint checks {E} grow (w : world E) (l : list act) : bool :=
  (length (filter storingb (w_threads w)) <=? 1) && match l with [] => true | a :: l => match wstep grow w a with None => true | Some w => checks grow w l end end.
Lemma filter_one {E} (ts : list (thread E)) : forall i t, nth_error ts i = Some t -> storingb t = true -> 1 <= length (filter storingb ts).
Proof.
  induction ts as [|u ts IH]; intros [|i] t Hi Ht; cbn in *; try discriminate.
  - injection Hi as ->. rewrite Ht. cbn. lia.
  - specialize (IH i t Hi Ht). destruct (storingb u); cbn; lia.
Qed.
Lemma filter_two {E} (ts : list (thread E)) : forall i j t u, nth_error ts i = Some t -> nth_error ts j = Some u -> storingb t = true -> storingb u = true ->
  i <> j -> 2 <= length (filter storingb ts).
Proof.
  induction ts as [|z ts IH]; intros [|i] [|j] t u Hi Hj Ht Hu Hn; cbn in *; try discriminate; try congruence.
  - injection Hi as ->. rewrite Ht. cbn. pose proof (filter_one ts j u Hj Hu). lia.
  - injection Hj as ->. rewrite Hu. cbn. pose proof (filter_one ts i t Hi Ht). lia.
  - assert (2 <= length (filter storingb ts)) by (apply (IH i j t u); congruence). destruct (storingb z); cbn; lia.
Qed.
Lemma checks_always {E} grow (l : list act) : forall w : world E, checks grow w l = true -> always grow exclusive w l.
Proof.
  induction l as [|a l IH]; intros w H; cbn [checks always] in *; apply andb_prop in H; destruct H as [H1 H2]; apply Nat.leb_le in H1.
  all: split; [intros i j t u Hi Hj Ht Hu; destruct (Nat.eq_dec i j); [assumption|]; pose proof (filter_two _ i j t u Hi Hj (storingb_spec _ Ht) (storingb_spec _ Hu) n); lia|].
  - exact I.
  - destruct (wstep grow w a); [auto|exact I].
Qed.
