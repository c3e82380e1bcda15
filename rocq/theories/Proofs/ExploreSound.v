(** Every execution of the controller is one of the account of Proofs/Explore.v, and what can move in the
    account can move in the execution. *)
From Coq Require Import List ZArith Bool Lia FMapPositive.
From Verif Require Import Base.Go Base.Num Model.Status Model.Finish Model.CtrlLang Model.CtrlCode Proofs.GoLemmas Proofs.ConfProofs
  Proofs.Explore Proofs.ExploreRun Proofs.ExploreEq.
Import ListNotations.
Local Open Scope list_scope.

Section Sound.
  Context {C : Type}.
  Variable cf : cconf.
  Variable z : setting.
  Notation thread := (thread C).
  Notation shared := (shared C).
  Notation state := (state C).
  Notation locals := (locals C).
  Notation oracle := (oracle C).
  Notation code_at := (code_at (z_prog z)).
  Hypothesis Hg : program_ok (z_prog z) = true.
  Hypothesis Ht : cf_timeout cf = false.
  Hypothesis Hfin : forall m, In (is_finished (run_finishing cf) m) (z_fin z).
  Hypothesis Hnever : z_never z = match cf_fin cf with None => true | Some _ => false end && (cf_iter cf =? 0)%Z && (cf_ipd cf =? 0)%Z.
  Hypothesis Hdpi : (0 <? cf_dpi cf)%Z = true -> z_dpi z = true.

  Definition some_b {A} (o : option A) : bool := match o with Some _ => true | None => false end.
  Definition abs_iter (r : iter_result C) : option (bool * bool) :=
    match r with IterRes c _ e => Some (some_b c, some_b e) | IterPanic _ => None end.
  (** The implementation does what the account expects of it. *)
  Definition expected (o : oracle) : Prop :=
    In (some_b (fst (o_init o)), some_b (snd (o_init o))) (z_init z) /\ In (abs_iter (o_iter o)) (z_iter z) /\ In (some_b (o_push o)) (z_push z).

  Definition orel {A B} (f : B -> A) (x : option A) (y : B) : Prop := match x with None => True | Some v => f y = v end.
  Record lrel (l : aloc) (cl : locals) : Prop := mkLrel {
    lr_recv : orel abs_st (x_recv l) (l_recv cl);
    lr_val : orel abs_st (x_val l) (l_val cl);
    lr_got : orel (fun b => b) (x_got l) (l_got cl);
    lr_ok : orel (fun b => b) (x_ok l) (l_ok cl);
    lr_go : orel (fun b => b) (x_go l) (l_go cl);
    lr_zero : orel (fun b => b) (x_zero l) (l_zero cl);
    lr_err : orel abs_err (x_err l) (l_err cl);
    lr_panic : match x_panic l with None => True | Some b => abs_err (l_panic cl) = err_of b end;
    lr_cent : orel some_b (x_cent l) (l_cent cl) }.

  Definition cm (am : nat -> nat) (c : achan) : channel :=
    match c with AStatus => ChStatus | ANotif => ChNotif | AAck n => ChAck (am n) end.

  (** The calls a client still has to make, in each phase. *)
  Variable K : nat -> list dcall -> Prop.
  Hypothesis HK : forall p c cs, K p (c :: cs) ->
    exists pc q, In (pc, q) (z_calls z p) /\ code_at pc = Some (map erase (call_code cf c ++ [IReturn (returns_error c)])) /\ K q cs.
  Definition tail_ok (k : kind) (phase : nat) (tail : list instr) : Prop :=
    match k with KClient => exists cs, tail = client_code cf cs /\ K phase cs | _ => tail = [] end.
  Definition defer_ok (k : kind) (d : option positive) (p : option (list instr)) : Prop :=
    match d with None => p = None | Some d => k <> KClient /\ exists q, p = Some q /\ code_at d = Some (map erase q) end.

  Definition in_place (am : nat -> nat) (m : amode) (k tail code : list instr) : Prop :=
    match m with
    | AAt => code = k ++ tail /\ (k = [] -> tail = [])
    | AAcquire m => exists i k0, k = i :: k0 /\ code = IAcquire m :: k0 ++ tail
    | ASending c v => exists i k0 v', k = i :: k0 /\ abs_st v' = v /\ code = ISending (cm am c) v' :: k0 ++ tail
    | AReceiving c => exists i k0, k = i :: k0 /\ code = IReceiving (cm am c) :: k0 ++ tail
    end.
  Record thr (am : nat -> nat) (ath : athread) (th : thread) : Prop := mkThr {
    tr_kind : th_kind th = t_kind ath;
    tr_loc : lrel (t_loc ath) (th_loc th);
    tr_defer : defer_ok (t_kind ath) (t_defer ath) (th_defer th);
    tr_code : exists k tail, code_at (t_pc ath) = Some (map erase k) /\ tail_ok (t_kind ath) (t_phase ath) tail /\ in_place am (t_mode ath) k tail (th_code th) }.

  Definition lockrel (id : nat -> nat) (k : alock) (r : rwlock) : Prop :=
    rw_holder r = match k_holder k with AFree => HFree | ABy i => HBy (id i) | ALeaked => HLeaked end /\
    rw_pending r = option_map id (k_pending k) /\ rw_readers r = map id (k_readers k).
  Record sh_rel (id am : nat -> nat) (a : astate) (s : shared) : Prop := mkShRel {
    r_crash : sh_crashed s = false;
    r_status : abs_st (sh_status s) = a_status a;
    r_ls : lockrel id (a_ls a) (sh_lock_s s);
    r_lm : lockrel id (a_lm a) (sh_lock_m s);
    r_new0 : (0 <= m_new (sh_model s))%Z;
    r_new : a_new a = (m_new (sh_model s) =? 0)%Z;
    r_notif : sh_notif s = a_notif a;
    r_timeout : sh_timeout s = None;
    r_ack : sh_ack s = am (a_ack a) }.
  Record ack_rel (am : nat -> nat) (refs : list nat) (a : astate) (s : shared) : Prop := mkAckRel {
    k_lt : forall n, In n refs -> am n < sh_nack s;
    k_closed : forall n, In n refs -> mem (am n) (sh_closed s) = existsb (Nat.eqb n) (a_closed a);
    k_inj : forall n m, In n refs -> In m refs -> am n = am m -> n = m;
    k_old : forall x, In x (sh_closed s) -> x < sh_nack s }.
  Definition refs (a : astate) : list nat := a_ack a :: acks (a_th a).
  Definition live_at (aths : list (option athread)) (i : nat) (ath : athread) : Prop := nth_error aths i = Some (Some ath).
  Definition live_rel (a : astate) : Prop := forall i, refers i a = true -> exists ath, live_at (a_th a) i ath.
  Record th_rel (id am : nat -> nat) (aths : list (option athread)) (ths : list thread) : Prop := mkThRel {
    h_client : forall i ath, live_at aths i ath -> t_kind ath = KClient -> id i = i;
    h_live : forall i ath, live_at aths i ath -> exists th, nth_error ths (id i) = Some th /\ thr am ath th;
    h_other : forall t th, nth_error ths t = Some th -> th_code th = [] /\ th_kind th <> KClient \/ exists i ath, live_at aths i ath /\ id i = t;
    h_inj : forall i j x y, live_at aths i x -> live_at aths j y -> id i = id j -> i = j }.
  Record rel (id am : nat -> nat) (a : astate) (st : state) : Prop := mkRel {
    rel_sh : sh_rel id am a (s_sh st);
    rel_ack : ack_rel am (refs a) a (s_sh st);
    rel_live : live_rel a;
    rel_th : th_rel id am (a_th a) (s_th st) }.
  Definition Rel (a : astate) (st : state) : Prop := exists id am, rel id am a st.

  (** Forgetting locals. *)
  Lemma orel_keep {A B} (f : B -> A) b x y : orel f x y -> orel f (keep b x) y.
  Proof. destruct b; cbn; [exact (fun H => H)|exact (fun _ => Logic.I)]. Qed.
  Lemma lrel_keep v l cl : lrel l cl -> lrel (keep_live v l) cl.
  Proof.
    intros [A1 A2 A3 A4 A5 A6 A7 A8 A9]. constructor; cbn; try (apply orel_keep; assumption).
    destruct (v_panic v); [exact A8|exact Logic.I].
  Qed.
  Lemma lrel0 : lrel aloc0 locals0.
  Proof. constructor; reflexivity. Qed.

  Lemma live_upd aths i x j y : live_at aths j y -> j <> i -> live_at (upd aths i x) j y.
  Proof. unfold live_at. intros H N. rewrite nth_error_upd. apply Nat.eqb_neq in N. rewrite N. exact H. Qed.
  Lemma live_upd_same aths i x y : live_at aths i y -> live_at (upd aths i (Some x)) i x.
  Proof.
    unfold live_at. intros H. rewrite nth_error_upd, Nat.eqb_refl. cbn [andb].
    destruct (Nat.ltb_spec i (length aths)) as [L|L]; [reflexivity|]. apply nth_error_None in L. congruence.
  Qed.
  Lemma live_upd_inv aths i x j y : live_at (upd aths i (Some x)) j y -> j = i /\ y = x \/ j <> i /\ live_at aths j y.
  Proof.
    unfold live_at. rewrite nth_error_upd. destruct (Nat.eqb_spec j i) as [E|E]; cbn [andb].
    - destruct (Nat.ltb_spec i (length aths)) as [L|L]; [intros H; left; split; [exact E|congruence]|].
      intros H. subst j. assert (nth_error aths i <> None) by congruence. apply nth_error_Some in H0. lia.
    - intros H. right. split; assumption.
  Qed.
  Lemma live_none_inv aths i j y : live_at (upd aths i None) j y -> j <> i /\ live_at aths j y.
  Proof.
    unfold live_at. rewrite nth_error_upd. destruct (Nat.eqb_spec j i) as [E|E]; cbn [andb].
    - destruct (Nat.ltb_spec i (length aths)) as [L|L]; [intros H; discriminate|].
      intros H. subst j. assert (nth_error aths i <> None) by congruence. apply nth_error_Some in H0. lia.
    - intros H. split; assumption.
  Qed.

  Lemma acks_in aths n : In n (acks aths) -> exists i ath, live_at aths i ath /\ In n (mode_acks (t_mode ath)).
  Proof.
    unfold acks. rewrite in_flat_map. intros (o & Ho & Hn). destruct o as [ath|]; [|destruct Hn].
    apply In_nth_error in Ho as (i & Hi). exists i, ath. split; assumption.
  Qed.
  Lemma acks_live aths i ath n : live_at aths i ath -> In n (mode_acks (t_mode ath)) -> In n (acks aths).
  Proof. intros H Hn. unfold acks. rewrite in_flat_map. exists (Some ath). split; [exact (nth_error_In _ _ H)|exact Hn]. Qed.
  Lemma ack_sub am r r' a a' s : ack_rel am r a s -> (forall n, In n r' -> In n r) -> a_closed a' = a_closed a -> ack_rel am r' a' s.
  Proof. intros [A B D E] H Hc. constructor; intros; rewrite ?Hc; auto. Qed.

  (** A goroutine goes on. *)
  Lemma th_put id am aths ths i ath ath' (th' : thread) : th_rel id am aths ths -> live_at aths i ath -> t_kind ath' = t_kind ath -> thr am ath' th' ->
    th_rel id am (upd aths i (Some ath')) (upd ths (id i) th').
  Proof.
    intros [Hc Hl Ho Hi] Hlive Hk Hthr.
    assert (Lt : id i < length ths) by (destruct (Hl _ _ Hlive) as (th & Hn & _); apply nth_error_Some; congruence).
    constructor.
    - intros j x Hj Hkj. apply live_upd_inv in Hj as [(-> & ->)|(Hne & Hj)]; [apply (Hc _ _ Hlive); congruence|apply (Hc _ _ Hj Hkj)].
    - intros j x Hj. apply live_upd_inv in Hj as [(-> & ->)|(Hne & Hj)].
      + exists th'. rewrite nth_error_upd, Nat.eqb_refl. cbn [andb]. apply Nat.ltb_lt in Lt. rewrite Lt. split; [reflexivity|exact Hthr].
      + destruct (Hl _ _ Hj) as (th & Hn & Hth). exists th. split; [|exact Hth]. rewrite nth_error_upd.
        destruct (Nat.eqb_spec (id j) (id i)) as [E|E]; [|exact Hn]. exfalso. apply Hne. exact (Hi _ _ _ _ Hj Hlive E).
    - intros t th Hn. rewrite nth_error_upd in Hn. destruct (Nat.eqb_spec t (id i)) as [E|E]; cbn [andb] in Hn.
      + right. exists i, ath'. split; [exact (live_upd_same _ _ _ _ Hlive)|congruence].
      + destruct (Ho _ _ Hn) as [H|(j & x & Hj & Ej)]; [left; exact H|]. right. exists j, x. split; [|exact Ej].
        apply live_upd; [exact Hj|congruence].
    - intros j k x y Hj Hk' E. apply live_upd_inv in Hj as [(-> & ->)|(Hne & Hj)]; apply live_upd_inv in Hk' as [(-> & ->)|(Hne' & Hk')].
      + reflexivity.
      + exact (Hi _ _ _ _ Hlive Hk' E).
      + exact (Hi _ _ _ _ Hj Hlive E).
      + exact (Hi _ _ _ _ Hj Hk' E).
  Qed.
  Lemma th_drop id am aths ths i ath (th' : thread) : th_rel id am aths ths -> live_at aths i ath -> th_code th' = [] -> th_kind th' <> KClient ->
    th_rel id am (upd aths i None) (upd ths (id i) th').
  Proof.
    intros [Hc Hl Ho Hi] Hlive Hcode Hk.
    constructor.
    - intros j x Hj Hkj. apply live_none_inv in Hj as (Hne & Hj). apply (Hc _ _ Hj Hkj).
    - intros j x Hj. apply live_none_inv in Hj as (Hne & Hj).
      destruct (Hl _ _ Hj) as (th & Hn & Hth). exists th. split; [|exact Hth]. rewrite nth_error_upd.
      destruct (Nat.eqb_spec (id j) (id i)) as [E|E]; [|exact Hn]. exfalso. apply Hne. exact (Hi _ _ _ _ Hj Hlive E).
    - intros t th Hn. rewrite nth_error_upd in Hn. destruct (Nat.eqb_spec t (id i)) as [E|E]; cbn [andb] in Hn.
      + destruct (Nat.ltb_spec (id i) (length ths)) as [L|L].
        * left. injection Hn as <-. split; assumption.
        * assert (nth_error ths t <> None) as H by congruence. apply nth_error_Some in H. lia.
      + destruct (Ho _ _ Hn) as [H|(j & x & Hj & Ej)]; [left; exact H|]. right. exists j, x. split; [|exact Ej].
        apply live_upd; [exact Hj|congruence].
    - intros j k x y Hj Hk' E. apply live_none_inv in Hj as (Hne & Hj). apply live_none_inv in Hk' as (Hne' & Hk'). exact (Hi _ _ _ _ Hj Hk' E).
  Qed.

  Lemma aset_th_sh id am a s ths : sh_rel id am a s -> sh_rel id am (aset_th ths a) s.
  Proof. intros []. constructor; assumption. Qed.

  Lemma rel_put id am a s ths i ath ath' (th' : thread) : rel id am a (mkState s ths) -> live_at (a_th a) i ath -> t_kind ath' = t_kind ath -> thr am ath' th' ->
    (forall n, In n (mode_acks (t_mode ath')) -> In n (refs a)) ->
    rel id am (aset_th (upd (a_th a) i (Some ath')) a) (mkState s (upd ths (id i) th')).
  Proof.
    intros [R1 R2 R3 R4] Hl Hk Hthr Ha. constructor; cbn [s_sh s_th] in *.
    - apply aset_th_sh. exact R1.
    - apply (ack_sub _ _ _ _ _ _ R2); [|reflexivity]. intros n [<-|Hn]; [left; reflexivity|]. cbn in Hn.
      apply acks_in in Hn as (j & x & Hj & Hn). apply live_upd_inv in Hj as [(-> & ->)|(_ & Hj)]; [exact (Ha _ Hn)|].
      right. exact (acks_live _ _ _ _ Hj Hn).
    - intros j Hj. change (refers j a = true) in Hj. destruct (R3 _ Hj) as (x & Hx). cbn.
      destruct (Nat.eq_dec j i) as [->|N]; [exists ath'; exact (live_upd_same _ _ _ _ Hl)|exists x; apply live_upd; assumption].
    - cbn. exact (th_put _ _ _ _ _ _ _ _ R4 Hl Hk Hthr).
  Qed.
  Lemma rel_drop id am a s ths i ath (th' : thread) : rel id am a (mkState s ths) -> live_at (a_th a) i ath -> th_code th' = [] -> th_kind th' <> KClient ->
    refers i a = false -> rel id am (aset_th (upd (a_th a) i None) a) (mkState s (upd ths (id i) th')).
  Proof.
    intros [R1 R2 R3 R4] Hl Hc Hk Hr. constructor; cbn [s_sh s_th] in *.
    - apply aset_th_sh. exact R1.
    - apply (ack_sub _ _ _ _ _ _ R2); [|reflexivity]. intros n [<-|Hn]; [left; reflexivity|]. cbn in Hn.
      apply acks_in in Hn as (j & x & Hj & Hn). apply live_none_inv in Hj as (_ & Hj). right. exact (acks_live _ _ _ _ Hj Hn).
    - intros j Hj. change (refers j a = true) in Hj. destruct (R3 _ Hj) as (x & Hx). cbn. exists x. apply live_upd; [exact Hx|congruence].
    - cbn. exact (th_drop _ _ _ _ _ _ _ R4 Hl Hc Hk).
  Qed.

  Lemma over_spec pc k : code_at pc = Some (map erase k) -> over z pc = match k with [] => true | _ => false end.
  Proof. unfold over. unfold ExploreEq.code_at. intros ->. destruct k; reflexivity. Qed.

  Lemma go_to_ok id am a s ths i ath ath0 pc l k tail cl d kd r :
    rel id am a (mkState s ths) -> live_at (a_th a) i ath -> t_kind ath0 = t_kind ath -> t_phase ath0 = t_phase ath -> kd = t_kind ath ->
    code_at pc = Some (map erase k) -> tail_ok (t_kind ath) (t_phase ath) tail -> lrel l cl -> defer_ok (t_kind ath) (t_defer ath0) d ->
    go_to z i ath0 pc l a = Some r ->
    exists a', In a' r /\ rel id am a' (mkState s (upd ths (id i) (mkThread kd (k ++ tail) cl d))).
  Proof.
    intros HR Hl Hk Hp -> Hpc Htl Hlr Hd Hgo. unfold go_to in Hgo. rewrite (over_spec _ _ Hpc) in Hgo.
    destruct k as [|i0 k0].
    - cbn [app]. cbn [map] in Hpc. destruct (t_kind ath) eqn:Ek.
      1:{ rewrite Hk in Hgo. injection Hgo as <-. destruct Htl as (cs & -> & Hcs). rewrite Hp. destruct cs as [|c cs']; [|destruct (HK _ _ _ Hcs) as (pc' & q & Hin & Hcode & Hcs')].
        - eexists. split; [left; reflexivity|]. refine (rel_put _ _ _ _ _ _ _ _ _ HR Hl _ _ _).
          + cbn. congruence.
          + constructor; cbn; [congruence|apply lrel_keep; exact Hlr|congruence|]. exists [], []. split; [exact Hpc|]. split; [|split; [reflexivity|reflexivity]].
            rewrite Hk, Hp. exists []. split; [reflexivity|exact Hcs].
          + cbn. intros n [].
        - eexists. split.
          + right. apply in_map. apply in_map. exact Hin.
          + refine (rel_put _ _ _ _ _ _ _ _ _ HR Hl _ _ _).
            * cbn. congruence.
            * constructor; cbn [enter at_place t_kind t_loc t_defer t_pc t_phase t_mode th_kind th_loc th_defer th_code fst snd]; [congruence| |congruence|].
              -- apply lrel_keep. apply lrel_keep. exact Hlr.
              -- exists (call_code cf c ++ [IReturn (returns_error c)]), (client_code cf cs'). split; [exact Hcode|]. split.
                 ++ rewrite Hk. exists cs'. split; [reflexivity|exact Hcs'].
                 ++ split; [reflexivity|]. intros E. destruct (call_code cf c); discriminate.
            * cbn. intros n []. }
      all: rewrite Hk in Hgo; destruct (refers i a) eqn:Er; [discriminate|]; injection Hgo as <-; eexists; (split; [left; reflexivity|]);
        (refine (rel_drop _ _ _ _ _ _ _ _ HR Hl _ _ Er); [cbn in *; assumption|cbn; congruence]).
    - injection Hgo as <-. eexists. split; [left; reflexivity|]. refine (rel_put _ _ _ _ _ _ _ _ _ HR Hl _ _ _).
      + cbn. congruence.
      + constructor; cbn [at_place t_kind t_loc t_defer t_pc t_phase t_mode th_kind th_loc th_defer th_code]; [congruence|apply lrel_keep; exact Hlr|rewrite Hk; exact Hd|].
        exists (i0 :: k0), tail. split; [exact Hpc|]. split; [rewrite Hk, Hp; exact Htl|]. split; [reflexivity|discriminate].
      + cbn. intros n [].
  Qed.

  (** Changes of the shared fields. *)
  Lemma rel_shared id am a s ths a' s' : rel id am a (mkState s ths) -> sh_rel id am a' s' -> a_th a' = a_th a ->
    a_ack a' = a_ack a -> a_closed a' = a_closed a -> sh_closed s' = sh_closed s -> sh_nack s' = sh_nack s ->
    (forall j, refers j a' = true -> refers j a = true \/ exists x, live_at (a_th a) j x) -> rel id am a' (mkState s' ths).
  Proof.
    intros [R1 R2 R3 R4] H1 E1 E2 E3 E4 E5 Hr. constructor; cbn [s_sh s_th] in *.
    - exact H1.
    - unfold refs. rewrite E1, E2. destruct R2 as [A B D F]. constructor; rewrite ?E3, ?E4, ?E5; assumption.
    - intros j Hj. rewrite E1. destruct (Hr j Hj) as [H|H]; [exact (R3 _ H)|exact H].
    - rewrite E1. exact R4.
  Qed.
  Lemma rel_lock id am a s ths m k r : rel id am a (mkState s ths) -> lockrel id k r ->
    (forall j, lock_refers j k = true -> lock_refers j (alock_of m a) = true \/ exists x, live_at (a_th a) j x) ->
    rel id am (aset_lock m k a) (mkState (set_lock m r s) ths).
  Proof.
    intros HR Hk Hr. pose proof (rel_sh _ _ _ _ HR) as [B1 B2 B3 B4 B5 B6 B7 B8 B9]. cbn [s_sh] in *.
    apply (rel_shared _ _ _ _ _ _ _ HR); destruct m; try reflexivity; cbn [aset_lock set_lock].
    - constructor; assumption.
    - constructor; assumption.
    - intros j Hj. unfold refers in *. cbn in Hj, Hr. apply orb_prop in Hj as [Hj|Hj].
      + destruct (Hr j Hj) as [H|H]; [left; rewrite H; reflexivity|right; exact H].
      + left. rewrite Hj. apply orb_true_r.
    - intros j Hj. unfold refers in *. cbn in Hj, Hr. apply orb_prop in Hj as [Hj|Hj].
      + left. rewrite Hj. reflexivity.
      + destruct (Hr j Hj) as [H|H]; [left; rewrite H; apply orb_true_r|right; exact H].
  Qed.
  Lemma rel_lockrel id am a s ths m : rel id am a (mkState s ths) -> lockrel id (alock_of m a) (lock_of m s).
  Proof. intros HR. destruct (rel_sh _ _ _ _ HR). destruct m; assumption. Qed.
  Lemma rel_status id am a s ths v w x : rel id am a (mkState s ths) -> abs_st w = v ->
    rel id am (aset_status v a) (mkState (add_log (set_status_ s w) x) ths).
  Proof.
    intros HR Hv. pose proof (rel_sh _ _ _ _ HR) as [B1 B2 B3 B4 B5 B6 B7 B8 B9]. cbn [s_sh] in *.
    apply (rel_shared _ _ _ _ _ _ _ HR); try reflexivity; [constructor; assumption|left; assumption].
  Qed.
  Lemma rel_log id am a s ths x : rel id am a (mkState s ths) -> rel id am a (mkState (add_log s x) ths).
  Proof.
    intros HR. pose proof (rel_sh _ _ _ _ HR) as [B1 B2 B3 B4 B5 B6 B7 B8 B9]. cbn [s_sh] in *.
    apply (rel_shared _ _ _ _ _ _ _ HR); try reflexivity; [constructor; assumption|left; assumption].
  Qed.
  Lemma rel_notif id am a s ths : rel id am a (mkState s ths) -> rel id am (aset_notif true a) (mkState (set_notif s true) ths).
  Proof.
    intros HR. pose proof (rel_sh _ _ _ _ HR) as [B1 B2 B3 B4 B5 B6 B7 B8 B9]. cbn [s_sh] in *.
    apply (rel_shared _ _ _ _ _ _ _ HR); try reflexivity; [constructor; try assumption; reflexivity|left; assumption].
  Qed.
  Lemma rel_model id am a s ths b m : rel id am a (mkState s ths) -> (0 <= m_new m)%Z -> b = (m_new m =? 0)%Z ->
    rel id am (aset_new b a) (mkState (set_model s m) ths).
  Proof.
    intros HR H0 Hb. pose proof (rel_sh _ _ _ _ HR) as [B1 B2 B3 B4 B5 B6 B7 B8 B9]. cbn [s_sh] in *.
    apply (rel_shared _ _ _ _ _ _ _ HR); try reflexivity; [constructor; assumption|left; assumption].
  Qed.
  Lemma aset_new_same a : aset_new (a_new a) a = a.
  Proof. destruct a. reflexivity. Qed.
  Lemma rel_close id am a s ths : rel id am a (mkState s ths) -> rel id am (aset_ack (a_ack a) (a_ack a :: a_closed a) a) (mkState (close_ack s) ths).
  Proof.
    intros [[B1 B2 B3 B4 B5 B6 B7 B8 B9] [K1 K2 K3 K4] R3 R4]. cbn [s_sh s_th] in *. constructor; cbn [s_sh s_th].
    - constructor; assumption.
    - constructor; try assumption.
      + intros n Hn. change (In n (refs a)) in Hn. cbn. rewrite B9. unfold mem. cbn.
        f_equal; [|apply K2; exact Hn].
        destruct (Nat.eqb_spec n (a_ack a)) as [->|N]; [apply Nat.eqb_refl|]. apply Nat.eqb_neq. intros E. apply N.
        apply K3; [exact Hn|left; reflexivity|exact E].
      + cbn. intros x [<-|Hx]; [rewrite B9; apply K1; left; reflexivity|apply K4; exact Hx].
    - exact R3.
    - exact R4.
  Qed.
  Lemma cm_mode am am' m k tail code : (forall n, In n (mode_acks m) -> am' n = am n) -> in_place am m k tail code -> in_place am' m k tail code.
  Proof.
    intros H. destruct m as [|m|c v|c]; cbn; try exact (fun x => x).
    - intros (i & k0 & v' & E1 & E2 & E3). exists i, k0, v'. split; [exact E1|]. split; [exact E2|]. rewrite E3. f_equal. f_equal. destruct c; cbn in *; try reflexivity. f_equal. symmetry. apply H. left. reflexivity.
    - intros (i & k0 & E1 & E3). exists i, k0. split; [exact E1|]. rewrite E3. f_equal. f_equal. destruct c; cbn in *; try reflexivity. f_equal. symmetry. apply H. left. reflexivity.
  Qed.
  Lemma filter_mem n m l : m <> n -> existsb (Nat.eqb m) (filter (fun x => negb (Nat.eqb n x)) l) = existsb (Nat.eqb m) l.
  Proof.
    intros N. induction l as [|x l IH]; [reflexivity|]. cbn. destruct (Nat.eqb_spec n x) as [<-|E]; cbn.
    - rewrite IH. apply Nat.eqb_neq in N. rewrite N. reflexivity.
    - rewrite IH. reflexivity.
  Qed.
  Lemma filter_none n l : existsb (Nat.eqb n) (filter (fun x => negb (Nat.eqb n x)) l) = false.
  Proof. induction l as [|x l IH]; [reflexivity|]. cbn. destruct (Nat.eqb_spec n x) as [<-|E]; cbn; [exact IH|]. apply Nat.eqb_neq in E. rewrite E. exact IH. Qed.
  Lemma mem_false x l : (forall y, In y l -> y <> x) -> mem x l = false.
  Proof. induction l as [|y l IH]; intros H; [reflexivity|]. unfold mem. cbn. assert (N : x <> y) by (intros ->; apply (H y); [left|]; reflexivity). apply Nat.eqb_neq in N. rewrite N. apply IH. intros w Hw. apply H. right. exact Hw. Qed.
  Lemma rel_make id am a s ths n : rel id am a (mkState s ths) -> existsb (Nat.eqb n) (acks (a_th a)) = false ->
    rel id (fun m => if Nat.eqb m n then sh_nack s else am m) (aset_ack n (filter (fun m => negb (Nat.eqb n m)) (a_closed a)) a) (mkState (make_ack s) ths).
  Proof.
    intros [[B1 B2 B3 B4 B5 B6 B7 B8 B9] [K1 K2 K3 K4] R3 R4] Hn. cbn [s_sh s_th] in *.
    assert (Hne : forall m, In m (acks (a_th a)) -> m <> n).
    { intros m Hm ->. assert (existsb (Nat.eqb n) (acks (a_th a)) = true) by (apply existsb_exists; exists n; split; [exact Hm|apply Nat.eqb_refl]). congruence. }
    constructor; cbn [s_sh s_th].
    - constructor; try assumption. cbn. rewrite Nat.eqb_refl. reflexivity.
    - constructor.
      + intros m [<-|Hm]; cbn; [rewrite Nat.eqb_refl; lia|]. cbn in Hm. rewrite (proj2 (Nat.eqb_neq m n) (Hne _ Hm)).
        pose proof (K1 m (or_intror Hm)). lia.
      + intros m [<-|Hm]; cbn.
        * rewrite Nat.eqb_refl, filter_none. apply mem_false. intros y Hy E. subst y. pose proof (K4 _ Hy). lia.
        * cbn in Hm. rewrite (proj2 (Nat.eqb_neq m n) (Hne _ Hm)). rewrite filter_mem by exact (Hne _ Hm). apply K2. right. exact Hm.
      + intros m m' [<-|Hm] [<-|Hm']; cbn in *.
        * reflexivity.
        * rewrite Nat.eqb_refl, (proj2 (Nat.eqb_neq m' n) (Hne _ Hm')). intros E. pose proof (K1 m' (or_intror Hm')). lia.
        * rewrite Nat.eqb_refl, (proj2 (Nat.eqb_neq m n) (Hne _ Hm)). intros E. pose proof (K1 m (or_intror Hm)). lia.
        * rewrite (proj2 (Nat.eqb_neq m n) (Hne _ Hm)), (proj2 (Nat.eqb_neq m' n) (Hne _ Hm')). apply K3; right; assumption.
      + cbn. intros x Hx. pose proof (K4 _ Hx). lia.
    - exact R3.
    - destruct R4 as [Hc Hl Ho Hi]. constructor; try assumption. intros i ath Hlive. destruct (Hl _ _ Hlive) as (th & Hth & [T1 T2 T3 (k & tail & T4 & T5 & T6)]).
      exists th. split; [exact Hth|]. constructor; try assumption. exists k, tail. split; [exact T4|]. split; [exact T5|].
      apply (cm_mode am); [|exact T6]. intros m Hm. rewrite (proj2 (Nat.eqb_neq m n)); [reflexivity|]. apply Hne. exact (acks_live _ _ _ _ Hlive Hm).
  Qed.

  (** A new goroutine. *)
  Lemma free_slot_spec n aths : n <= free_slot n aths /\ free_slot n aths <= n + length aths /\
    (free_slot n aths < n + length aths -> nth_error aths (free_slot n aths - n) = Some None).
  Proof.
    revert n. induction aths as [|[x|] aths IH]; intros n; cbn [free_slot length].
    - split; [lia|]. split; [lia|]. lia.
    - destruct (IH (S n)) as (A & B & D). split; [lia|]. split; [lia|]. intros H. replace (free_slot (S n) aths - n) with (S (free_slot (S n) aths - S n)) by lia.
      cbn. apply D. lia.
    - split; [lia|]. split; [lia|]. intros _. replace (n - n) with 0 by lia. reflexivity.
  Qed.
  Lemma lockrel_ext id id' k r : (forall j, lock_refers j k = true -> id' j = id j) -> lockrel id k r -> lockrel id' k r.
  Proof.
    intros H (A & B & D). unfold lock_refers in H. split; [|split].
    - rewrite A. destruct (k_holder k) as [|i|]; try reflexivity. f_equal. symmetry. apply H. rewrite Nat.eqb_refl. reflexivity.
    - rewrite B. destruct (k_pending k) as [i|]; [|reflexivity]. cbn. f_equal. symmetry. apply H. rewrite Nat.eqb_refl. destruct (k_holder k); cbn; rewrite ?orb_true_r; reflexivity.
    - rewrite D. apply map_ext_in. intros j Hj. symmetry. apply H. replace (existsb (Nat.eqb j) (k_readers k)) with true; [apply orb_true_r|].
      symmetry. apply existsb_exists. exists j. split; [exact Hj|apply Nat.eqb_refl].
  Qed.
  Definition put_slot (aths : list (option athread)) (x : athread) : list (option athread) :=
    if Nat.ltb (free_slot 0 aths) (length aths) then upd aths (free_slot 0 aths) (Some x) else aths ++ [Some x].
  Lemma put_slot_live aths x j y : live_at (put_slot aths x) j y <-> j = free_slot 0 aths /\ y = x \/ j <> free_slot 0 aths /\ live_at aths j y.
  Proof.
    destruct (free_slot_spec 0 aths) as (A & B & D). unfold put_slot, live_at. cbn [plus] in *. rewrite Nat.sub_0_r in D.
    destruct (Nat.ltb_spec (free_slot 0 aths) (length aths)) as [L|L].
    - rewrite nth_error_upd. apply Nat.ltb_lt in L. rewrite L, andb_true_r. destruct (Nat.eqb_spec j (free_slot 0 aths)) as [E|E].
      + split; [intros H; left; split; [exact E|congruence]|]. intros [(_ & ->)|(N & _)]; [reflexivity|congruence].
      + split; [intros H; right; split; assumption|]. intros [(E' & _)|(_ & H)]; [congruence|exact H].
    - assert (E : free_slot 0 aths = length aths) by lia. rewrite E. destruct (Nat.lt_ge_cases j (length aths)) as [Lj|Lj].
      + rewrite nth_error_app1 by exact Lj. split; [intros H; right; split; [lia|exact H]|]. intros [(H & _)|(_ & H)]; [lia|exact H].
      + rewrite nth_error_app2 by exact Lj. destruct (j - length aths) as [|q] eqn:Eq.
        * split; [intros H; left; split; [lia|cbn in H; congruence]|]. intros [(_ & ->)|(N & _)]; [reflexivity|lia].
        * split; [destruct q; discriminate|]. intros [(H & _)|(_ & H)]; [lia|]. apply nth_error_None in Lj. congruence.
  Qed.
  Lemma free_slot_dead aths y : ~ live_at aths (free_slot 0 aths) y.
  Proof.
    destruct (free_slot_spec 0 aths) as (A & B & D). rewrite Nat.sub_0_r in D. unfold live_at. intros H.
    assert (L : free_slot 0 aths < length aths) by (apply nth_error_Some; congruence). rewrite D in H by exact L. discriminate.
  Qed.
  Lemma rel_spawn id am a s ths x (th : thread) : rel id am a (mkState s ths) -> thr am x th -> t_kind x <> KClient -> t_mode x = AAt ->
    exists id', rel id' am (add_thread x a) (mkState s (ths ++ [th])) /\ forall i ath, live_at (a_th a) i ath -> id' i = id i /\ live_at (a_th (add_thread x a)) i ath.
  Proof.
    intros [[B1 B2 B3 B4 B5 B6 B7 B8 B9] R2 R3 R4] Hthr Hk Hm. cbn [s_sh s_th] in *. remember (free_slot 0 (a_th a)) as n eqn:En.
    assert (Hd : forall y, ~ live_at (a_th a) n y) by (intros y; rewrite En; apply free_slot_dead).
    assert (Hr : forall j, refers j a = true -> j <> n) by (intros j Hj ->; destruct (R3 _ Hj) as (y & Hy); exact (Hd _ Hy)).
    exists (fun j => if Nat.eqb j n then length ths else id j).
    assert (Heq : forall j, j <> n -> (if Nat.eqb j n then length ths else id j) = id j) by (intros j Hj; apply Nat.eqb_neq in Hj; rewrite Hj; reflexivity).
    assert (Ha : a_th (add_thread x a) = put_slot (a_th a) x) by reflexivity.
    assert (PS : forall j y, live_at (put_slot (a_th a) x) j y <-> j = n /\ y = x \/ j <> n /\ live_at (a_th a) j y) by (intros j y; rewrite En; apply put_slot_live).
    clear En. split.
    - constructor; cbn [s_sh s_th].
      + constructor; try assumption.
        * apply (lockrel_ext id); [|exact B3]. intros j Hj. apply Heq. apply Hr. unfold refers. cbn in Hj. rewrite Hj. reflexivity.
        * apply (lockrel_ext id); [|exact B4]. intros j Hj. apply Heq. apply Hr. unfold refers. cbn in Hj. rewrite Hj. apply orb_true_r.
      + apply (ack_sub _ _ _ _ _ _ R2); [|reflexivity]. intros m [<-|Hm']; [left; reflexivity|]. rewrite Ha in Hm'.
        apply acks_in in Hm' as (i & y & Hi & Hy). apply PS in Hi as [(-> & ->)|(_ & Hi)]; [rewrite Hm in Hy; destruct Hy|].
        right. exact (acks_live _ _ _ _ Hi Hy).
      + intros j Hj. change (refers j a = true) in Hj. destruct (R3 _ Hj) as (y & Hy). exists y. rewrite Ha. apply PS. right. split; [exact (Hr _ Hj)|exact Hy].
      + rewrite Ha. destruct R4 as [Hc Hl Ho Hi]. constructor.
        * intros i y Hy Ky. apply PS in Hy as [(-> & ->)|(Hne & Hy)]; [congruence|]. rewrite Heq by exact Hne. exact (Hc _ _ Hy Ky).
        * intros i y Hy. apply PS in Hy as [(-> & ->)|(Hne & Hy)].
          -- exists th. rewrite Nat.eqb_refl, nth_error_app2, Nat.sub_diag by lia. split; [reflexivity|exact Hthr].
          -- rewrite Heq by exact Hne. destruct (Hl _ _ Hy) as (u & Hu & Hth). exists u. split; [|exact Hth]. rewrite nth_error_app1; [exact Hu|]. apply nth_error_Some. congruence.
        * intros t u Hu. destruct (Nat.lt_ge_cases t (length ths)) as [L|L].
          -- rewrite nth_error_app1 in Hu by exact L. destruct (Ho _ _ Hu) as [H|(i & y & Hy & E)]; [left; exact H|].
             right. exists i, y. assert (Hne : i <> n) by (intros ->; exact (Hd _ Hy)). split; [apply PS; right; split; [exact Hne|exact Hy]|]. rewrite Heq by exact Hne. exact E.
          -- rewrite nth_error_app2 in Hu by exact L. right. exists n, x. split; [apply PS; left; split; reflexivity|]. rewrite Nat.eqb_refl.
             destruct (t - length ths) as [|q] eqn:Eq; [lia|destruct q; discriminate].
        * intros i j y w Hy Hw E. apply PS in Hy as [(-> & ->)|(Hne & Hy)]; apply PS in Hw as [(-> & ->)|(Hne' & Hw)].
          -- reflexivity.
          -- rewrite Nat.eqb_refl, Heq in E by exact Hne'. destruct (Hl _ _ Hw) as (u & Hu & _). assert (id j < length ths) by (apply nth_error_Some; congruence). lia.
          -- rewrite Nat.eqb_refl, Heq in E by exact Hne. destruct (Hl _ _ Hy) as (u & Hu & _). assert (id i < length ths) by (apply nth_error_Some; congruence). lia.
          -- rewrite !Heq in E by assumption. exact (Hi _ _ _ _ Hy Hw E).
    - intros i ath Hi. assert (Hne : i <> n) by (intros ->; exact (Hd _ Hi)). split; [apply Heq; exact Hne|]. rewrite Ha. apply PS. right. split; assumption.
  Qed.

  (** Reads and conditions. *)
  Ltac locs := match goal with H : lrel _ _ |- _ => destruct H; constructor; cbn in *; try assumption; try exact Logic.I; auto end.
  Lemma abs_err_none (e : option algo_error) : is_none (abs_err e) = match e with None => true | Some _ => false end.
  Proof. destruct e as [[]|]; reflexivity. Qed.
  Lemma abs_err_panic (e : option algo_error) b : abs_err e = err_of b -> some_b e = b.
  Proof. destruct e as [[]|], b; cbn; congruence. Qed.
  Lemma st_ok e l cl v : lrel l cl -> aeval_st e l = Some v -> abs_st (eval_st e cl) = v.
  Proof.
    intros [A1 A2 A3 A4 A5 A6 A7 A8 A9]. destruct e as [w|[e| |]|]; cbn.
    - intros [= <-]. reflexivity.
    - intros [= <-]. reflexivity.
    - destruct (x_err l); cbn; [|discriminate]. intros [= <-]. unfold abs_st. cbn in *. congruence.
    - destruct (x_panic l) as [[]|]; cbn in *; intros [= <-]; unfold abs_st; cbn; rewrite A8; reflexivity.
    - destruct (x_recv l); [|discriminate]. intros [= <-]. exact A1.
  Qed.
  Lemma cond_ok id am a s c l cl b : sh_rel id am a s -> lrel l cl -> aeval_cond z (erase_c c) a l = Some b -> eval_cond cf c s cl = b.
  Proof.
    intros [B1 B2 B3 B4 B5 B6 B7 B8 B9] [A1 A2 A3 A4 A5 A6 A7 A8 A9].
    destruct c; cbn [erase_c aeval_cond eval_cond]; try discriminate.
    - intros [= <-]. rewrite <- B2. reflexivity.
    - destruct (x_val l) as [v'|]; [|discriminate]. intros [= <-]. cbn in A2. rewrite <- A2. reflexivity.
    - destruct (x_err l); [|discriminate]. intros [= <-]. cbn in A7. rewrite <- A7, abs_err_none. reflexivity.
    - destruct (x_err l); [|discriminate]. intros [= <-]. cbn in A7. rewrite <- A7. destruct (l_err cl) as [[]|]; reflexivity.
    - destruct (x_err l); [|discriminate]. destruct (x_cent l); [|discriminate]. intros [= <-]. cbn in A7, A9. rewrite <- A7, abs_err_none. destruct (l_err cl), (l_cent cl); cbn in *; congruence.
    - destruct (x_panic l) as [p|]; [|discriminate]. intros [= <-]. apply abs_err_panic in A8. destruct (l_panic cl); exact A8.
    - destruct (x_got l); [|discriminate]. destruct (x_panic l) as [p|]; [|discriminate]. intros [= <-]. apply abs_err_panic in A8. cbn in A3. destruct (l_panic cl); cbn in A8; subst; reflexivity.
    - destruct (x_got l); [|discriminate]. intros [= <-]. exact A3.
    - destruct (x_recv l); [|discriminate]. intros [= <-]. cbn in A1. rewrite <- A1. reflexivity.
    - destruct (x_go l); [|discriminate]. intros [= <-]. exact A5.
    - destruct (x_zero l); [|discriminate]. intros [= <-]. exact A6.
    - destruct (x_ok l); [|discriminate]. intros [= <-]. cbn in A4. rewrite A4. reflexivity.
    - intros [= <-]. rewrite B8. reflexivity.
    - intros [= <-]. exact Ht.
    - unfold plain_wait. rewrite Ht. destruct f as [f|]; cbn [aeval_cond any_fin].
      + intros [= <-]. reflexivity.
      + destruct (d <=? 0)%Z; cbn [aeval_cond any_fin]; intros [= <-]; [|reflexivity]. rewrite Hnever. cbn. rewrite andb_true_r. reflexivity.
    - intros [= <-]. reflexivity.
  Qed.
  Lemma get_ok id am a s g now l cl r : sh_rel id am a s -> lrel l cl -> aeval_get z (erase_g g) a l = Some r ->
    exists l', In l' r /\ lrel l' (eval_get cf g now s cl).
  Proof.
    intros [B1 B2 B3 B4 B5 B6 B7 B8 B9] HL. pose proof HL as [A1 A2 A3 A4 A5 A6 A7 A8 A9].
    destruct g; cbn [erase_g aeval_get eval_get].
    - intros [= <-]. eexists. split; [left; reflexivity|]. locs.
    - intros [= <-]. eexists. split; [left; reflexivity|]. locs. rewrite <- B2. reflexivity.
    - intros [= <-]. eexists. split; [left; reflexivity|]. locs.
    - intros [= <-]. eexists. split; [left; reflexivity|]. locs.
    - destruct (x_err l) as [e|] eqn:E; [|discriminate]. intros [= <-]. eexists. split; [left; reflexivity|]. cbn in A7. rewrite <- A7, abs_err_none. locs. 
    - destruct (x_go l) as [b|] eqn:E; [|discriminate]. intros [= <-]. eexists. split; [left; reflexivity|]. cbn in A5. rewrite <- B2. locs. congruence.
    - destruct (x_go l) as [b|] eqn:E; [|discriminate]. intros [= <-]. cbn in A5. eexists. split; [apply in_map; apply (Hfin (the_model s))|]. locs. congruence.
    - intros [= <-]. eexists. split; [left; reflexivity|]. exact HL.
    - intros [= <-]. eexists. split; [left; reflexivity|]. locs.
    - intros [= <-]. eexists. split; [left; reflexivity|]. locs.
    - unfold plain_wait. destruct f as [f|]; cbn [aeval_get any_fin].
      + intros [= <-]. destruct (is_finished _ _); [|destruct ((0 <? d)%Z && (l_deadline cl <? now)%Z)].
        * eexists. split; [left; reflexivity|]. locs.
        * eexists. split; [right; left; reflexivity|]. locs.
        * eexists. split; [right; right; left; reflexivity|]. locs.
      + destruct (Z.leb_spec d 0) as [Ld|Ld]; cbn [aeval_get any_fin].
        * destruct (x_val l) as [v|] eqn:E; [|discriminate]. intros [= <-]. cbn in A2.
          assert (W : waited v = is_finished (wait_finishing None) (mkFinModel (l_val cl) match l_figs cl with Some rf => rf | None => [] end)).
          { rewrite <- A2. unfold waited, abs_st. destruct (l_val cl) as [w e]. cbn. unfold status_is_finished. cbn. rewrite abs_err_none. destruct e as [e|]; cbn; [reflexivity|].
            destruct w; reflexivity. }
          rewrite <- W. destruct (waited v).
          -- eexists. split; [left; reflexivity|]. locs.
          -- replace (0 <? d)%Z with false by (symmetry; apply Z.ltb_ge; exact Ld). eexists. split; [left; reflexivity|]. locs.
        * intros [= <-]. destruct (is_finished _ _); [|destruct ((0 <? d)%Z && (l_deadline cl <? now)%Z)].
          -- eexists. split; [left; reflexivity|]. locs.
          -- eexists. split; [right; left; reflexivity|]. locs.
          -- eexists. split; [right; right; left; reflexivity|]. locs.
    - destruct (x_err l) as [e|] eqn:E; [|discriminate]. cbn in A7. destruct e; try (intros H; assert (r = [l]) as -> by (destruct (x_val l); congruence); (eexists; split; [left; reflexivity|]; destruct (l_err cl) as [[]|] eqn:El; try discriminate; exact HL)).
      destruct (x_val l) as [v|] eqn:Ev; [|discriminate]. intros [= <-]. eexists. split; [left; reflexivity|]. cbn in A2.
      destruct (l_err cl) as [[]|] eqn:El; try discriminate. locs. rewrite <- A2. reflexivity.
  Qed.
  Lemma mop_ok id am a s ths op now l cl r : rel id am a (mkState s ths) -> lrel l cl -> amop z op a l = Some r ->
    exists a', In a' r /\ rel id am a' (mkState (mop_log op cl (set_model s (mop_model cf op cl now (sh_model s)))) ths) /\ a_th a' = a_th a.
  Proof.
    intros HR HL. pose proof (rel_sh _ _ _ _ HR) as [B1 B2 B3 B4 B5 B6 B7 B8 B9]. cbn [s_sh] in *.
    assert (same : forall m : model_st C, m_new m = m_new (sh_model s) -> rel id am a (mkState (set_model s m) ths)).
    { intros m E. rewrite <- (aset_new_same a). apply rel_model; rewrite ?E; assumption. }
    destruct op; cbn [amop mop_log mop_model].
    - intros [= <-]. exists a. split; [left; reflexivity|]. split; [apply rel_log; apply same; reflexivity|reflexivity].
    - intros [= <-]. exists a. split; [left; reflexivity|]. split; [apply same; reflexivity|reflexivity].
    - intros [= <-]. exists a. split; [left; reflexivity|]. split; [apply rel_log; apply same; reflexivity|reflexivity].
    - destruct (x_val l) as [v|] eqn:Ev; [|discriminate]. intros [= <-]. pose proof (lr_val _ _ HL) as A2. rewrite Ev in A2. cbn in A2.
      unfold model_new_data. replace (st_value (l_val cl)) with (fst v) by (rewrite <- A2; reflexivity).
      destruct (status_eqb (fst v) Ready) eqn:E1; cbn [andb].
      + destruct (0 <? cf_dpi cf)%Z eqn:E2; cbn [andb].
        * rewrite (Hdpi eq_refl). destruct (cf_dpi cf <=? m_new (sh_model s))%Z.
          -- exists (aset_new true a). split; [left; reflexivity|]. split; [apply rel_model; [exact HR|cbn; lia|reflexivity]|reflexivity].
          -- exists (aset_new false a). split; [right; left; reflexivity|]. split; [apply rel_model; [exact HR|cbn; lia|cbn; symmetry; apply Z.eqb_neq; lia]|reflexivity].
        * exists (aset_new false a). split; [destruct (z_dpi z); [right|]; left; reflexivity|]. split; [apply rel_model; [exact HR|cbn; lia|cbn; symmetry; apply Z.eqb_neq; lia]|reflexivity].
      + exists (aset_new false a). split; [left; reflexivity|]. split; [apply rel_model; [exact HR|cbn; lia|cbn; symmetry; apply Z.eqb_neq; lia]|reflexivity].
    - intros [= <-]. exists a. split; [left; reflexivity|]. split; [apply same; reflexivity|reflexivity].
    - intros [= <-]. exists a. split; [left; reflexivity|]. split; [apply rel_log; apply same; reflexivity|reflexivity].
    - intros [= <-]. exists a. split; [left; reflexivity|]. split; [apply same; reflexivity|reflexivity].
  Qed.

  (** Channels. *)
  Lemma chan_eqb_eq a b : chan_eqb a b = true <-> a = b.
  Proof. destruct a, b; cbn; split; try congruence; intros H; [apply Nat.eqb_eq in H; congruence|apply Nat.eqb_eq; congruence]. Qed.
  Lemma cm_inj am a s c c' : ack_rel am (refs a) a s -> (forall n, c = AAck n -> In n (refs a)) -> (forall n, c' = AAck n -> In n (refs a)) -> cm am c = cm am c' -> c = c'.
  Proof.
    intros HA H H'. destruct c as [| |n], c' as [| |n']; cbn; try congruence. intros [= E]. f_equal. exact (k_inj _ _ _ _ HA _ _ (H _ eq_refl) (H' _ eq_refl) E).
  Qed.
  Lemma cm_eqb am a s c c' : ack_rel am (refs a) a s -> (forall n, c = AAck n -> In n (refs a)) -> (forall n, c' = AAck n -> In n (refs a)) ->
    chan_eqb (cm am c) (cm am c') = achan_eqb c c'.
  Proof.
    intros HA H H'. destruct (achan_eqb c c') eqn:E.
    - apply achan_eqb_eq in E. subst. apply chan_eqb_eq. reflexivity.
    - destruct (chan_eqb (cm am c) (cm am c')) eqn:E'; [|reflexivity]. apply chan_eqb_eq in E'. rewrite (cm_inj _ _ _ _ _ HA H H' E') in E.
      rewrite (proj2 (achan_eqb_eq _ _) eq_refl) in E. discriminate.
  Qed.
  Lemma closed_ok am a s c : ack_rel am (refs a) a s -> (forall n, c = AAck n -> In n (refs a)) -> closed (cm am c) s = aclosed c a.
  Proof. intros HA H. destruct c as [| |n]; try reflexivity. exact (k_closed _ _ _ _ HA _ (H _ eq_refl)). Qed.
  Lemma sent_refs a i ath c v : live_at (a_th a) i ath -> t_mode ath = ASending c v -> forall n, c = AAck n -> In n (refs a).
  Proof. intros Hl Hm n ->. right. apply (acks_live _ _ _ _ Hl). rewrite Hm. left. reflexivity. Qed.
  Lemma recv_refs a i ath c : live_at (a_th a) i ath -> t_mode ath = AReceiving c -> forall n, c = AAck n -> In n (refs a).
  Proof. intros Hl Hm n ->. right. apply (acks_live _ _ _ _ Hl). rewrite Hm. left. reflexivity. Qed.
  Lemma cur_refs a n : AAck (a_ack a) = AAck n -> In n (refs a).
  Proof. intros [= <-]. left. reflexivity. Qed.
  Lemma no_sending pc c v k : code_at pc <> Some (ISending c v :: k).
  Proof.
    intros H. destruct (node_spec _ Hg _ _ _ H) as (n & _ & E & _).
    pose proof (fold_and _ _ Hg _ _ H) as X. unfold node_ok in X. destruct (PositiveMap.find pc (g_nodes (z_prog z))) as [n'|]; [|discriminate]. destruct (n_instr n'); discriminate.
  Qed.
  Lemma no_receiving pc c k : code_at pc <> Some (IReceiving c :: k).
  Proof.
    intros H. pose proof (fold_and _ _ Hg _ _ H) as X. unfold node_ok in X. destruct (PositiveMap.find pc (g_nodes (z_prog z))) as [n'|]; [|discriminate]. destruct (n_instr n'); discriminate.
  Qed.
  Lemma erase_sending i c v : erase i = ISending c v -> i = ISending c v.
  Proof. destruct i; cbn; congruence. Qed.
  Lemma head_sending am ath (th : thread) c v k : thr am ath th -> th_code th = ISending c v :: k -> exists c', t_mode ath = ASending c' (abs_st v) /\ c = cm am c'.
  Proof.
    intros [_ _ _ (k0 & tail & H1 & _ & H2)] Hc. destruct (t_mode ath) as [|m|c' v'|c']; cbn in H2.
    - destruct H2 as (H2 & H3). destruct k0 as [|i k0]; [rewrite (H3 eq_refl) in H2; cbn in H2; congruence|].
      rewrite H2 in Hc. injection Hc as -> _. exfalso. exact (no_sending _ _ _ _ H1).
    - destruct H2 as (i & k1 & _ & H2). congruence.
    - destruct H2 as (i & k1 & w & _ & H2 & H3). rewrite H3 in Hc. injection Hc as <- <- _. exists c'. split; [congruence|reflexivity].
    - destruct H2 as (i & k1 & _ & H2). congruence.
  Qed.
  Lemma parked_ok id am a s ths c : rel id am a (mkState s ths) -> (forall n, c = AAck n -> In n (refs a)) -> sender_parked (cm am c) ths = aparked c (a_th a).
  Proof.
    intros [R1 R2 R3 [Hc Hl Ho Hi]] Href. cbn [s_sh s_th] in *. apply eq_true_iff_eq. unfold sender_parked, aparked. rewrite !existsb_exists. split.
    - intros (th & Hin & H). apply In_nth_error in Hin as (t & Hth). unfold head in H. destruct (th_code th) as [|i0 k0] eqn:Ec; cbn in H; [discriminate|].
      destruct i0; try discriminate. destruct (Ho _ _ Hth) as [(E & _)|(i & ath & Hlive & <-)]; [congruence|].
      destruct (Hl _ _ Hlive) as (th' & Hth' & Hthr). assert (th' = th) as -> by congruence.
      destruct (head_sending _ _ _ _ _ _ Hthr Ec) as (c' & Hm & ->). exists (Some ath). split; [exact (nth_error_In _ _ Hlive)|]. rewrite Hm.
      rewrite (cm_eqb _ _ _ _ _ R2) in H; [exact H|exact Href|exact (sent_refs _ _ _ _ _ Hlive Hm)].
    - intros (o & Hin & H). destruct o as [ath|]; [|discriminate]. destruct (t_mode ath) as [|m|c' v|c'] eqn:Hm; try discriminate.
      apply In_nth_error in Hin as (i & Hlive). destruct (Hl _ _ Hlive) as (th & Hth & [_ _ _ (k & tail & _ & _ & H2)]). rewrite Hm in H2.
      destruct H2 as (i0 & k0 & v' & _ & _ & Hcode). exists th. split; [exact (nth_error_In _ _ Hth)|]. unfold head. rewrite Hcode. cbn.
      apply achan_eqb_eq in H. subst c'. apply chan_eqb_eq. reflexivity.
  Qed.

  (** Steps. *)
  Lemma next_ok id am a s ths i ath ath0 pc l k tail cl d kd code r :
    rel id am a (mkState s ths) -> live_at (a_th a) i ath -> t_kind ath0 = t_kind ath -> t_phase ath0 = t_phase ath -> kd = t_kind ath ->
    code_at pc = Some (map erase k) -> tail_ok (t_kind ath) (t_phase ath) tail -> lrel l cl -> defer_ok (t_kind ath) (t_defer ath0) d -> code = k ++ tail ->
    go_to z i ath0 pc l a = Some r ->
    exists a', In a' r /\ Rel a' (mkState s (upd ths (id i) (mkThread kd code cl d))).
  Proof.
    intros A1 A2 A3 A4 A5 A6 A7 A8 A9 -> A10. destruct (go_to_ok _ _ _ _ _ _ _ _ _ _ _ _ _ _ _ _ A1 A2 A3 A4 A5 A6 A7 A8 A9 A10) as (a' & H & H').
    exists a'. split; [exact H|]. exists id, am. exact H'.
  Qed.
  Lemma put_ok id am a s ths i ath ath' (th' : thread) r : rel id am a (mkState s ths) -> live_at (a_th a) i ath -> t_kind ath' = t_kind ath -> thr am ath' th' ->
    (forall n, In n (mode_acks (t_mode ath')) -> In n (refs a)) -> Some [aset_th (upd (a_th a) i (Some ath')) a] = Some r ->
    exists a', In a' r /\ Rel a' (mkState s (upd ths (id i) th')).
  Proof.
    intros A1 A2 A3 A4 A5 [= <-]. eexists. split; [left; reflexivity|]. exists id, am. exact (rel_put _ _ _ _ _ _ _ _ _ A1 A2 A3 A4 A5).
  Qed.
  Lemma each_ok {A} (f : A -> option (list astate)) l r x : each f l = Some r -> In x l -> exists r', f x = Some r' /\ incl r' r.
  Proof.
    revert r. induction l as [|y l IH]; intros r H Hx; [destruct Hx|]. cbn in H. destruct (f y) as [r1|] eqn:E; [|discriminate]. destruct (each f l) as [r2|]; [|discriminate].
    injection H as <-. destruct Hx as [->|Hx].
    - exists r1. split; [exact E|apply incl_appl, incl_refl].
    - destruct (IH _ eq_refl Hx) as (r' & E' & Hi). exists r'. split; [exact E'|apply incl_appr; exact Hi].
  Qed.
  Lemma panic_ok id am a s ths i ath (th : thread) n r : rel id am a (mkState s ths) -> live_at (a_th a) i ath -> thr am ath th ->
    apanic z i ath a = Some r -> exists a', In a' r /\ Rel a' (do_panic (id i) n th (mkState s ths)).
  Proof.
    intros HR Hl [T1 T2 T3 (k & tail & T4 & T5 & T6)] H. unfold apanic in H. unfold do_panic. destruct (t_defer ath) as [d|]; [|discriminate].
    destruct T3 as (Hk & q & -> & Hq). cbn [s_sh s_th]. eapply (next_ok _ _ _ _ _ _ ath); [exact HR|exact Hl| | |exact T1|exact Hq| | | | |exact H]; try reflexivity.
    - instantiate (1 := []). destruct (t_kind ath); try reflexivity. exfalso. apply Hk. reflexivity.
    - locs.
    - cbn. rewrite app_nil_r. reflexivity.
  Qed.
  Lemma remove1_in n l x : In x (remove1 n l) -> In x l.
  Proof. induction l as [|y l IH]; cbn; [tauto|]. destruct (Nat.eqb n y); [right; assumption|]. intros [->|H]; [left; reflexivity|right; exact (IH H)]. Qed.
  Lemma eqb_id (id : nat -> nat) i j : (id i = id j -> i = j) -> Nat.eqb (id i) (id j) = Nat.eqb i j.
  Proof. intros H. destruct (Nat.eqb_spec i j) as [->|N]; [apply Nat.eqb_refl|]. apply Nat.eqb_neq. intros E. apply N, H, E. Qed.
  Lemma mem_id id i l : (forall j, In j l -> id i = id j -> i = j) -> mem (id i) (map id l) = existsb (Nat.eqb i) l.
  Proof.
    induction l as [|j l IH]; intros H; [reflexivity|]. unfold mem in *. cbn. rewrite eqb_id by (apply H; left; reflexivity). f_equal. apply IH. intros m Hm. apply H. right. exact Hm.
  Qed.
  Lemma remove1_id id i l : (forall j, In j l -> id i = id j -> i = j) -> remove1 (id i) (map id l) = map id (remove1 i l).
  Proof.
    induction l as [|j l IH]; intros H; [reflexivity|]. cbn. rewrite eqb_id by (apply H; left; reflexivity). destruct (Nat.eqb i j); [reflexivity|]. cbn. f_equal.
    apply IH. intros m Hm. apply H. right. exact Hm.
  Qed.
  Lemma refers_of m i a : lock_refers i (alock_of m a) = true -> refers i a = true.
  Proof. unfold refers. destruct m; cbn; intros ->; rewrite ?orb_true_r; reflexivity. Qed.
  Lemma refers_pending i k : k_pending k = Some i -> lock_refers i k = true.
  Proof. unfold lock_refers. intros ->. rewrite Nat.eqb_refl, orb_true_r. reflexivity. Qed.
  Lemma refers_reader i k : In i (k_readers k) -> lock_refers i k = true.
  Proof.
    unfold lock_refers. intros H. replace (existsb (Nat.eqb i) (k_readers k)) with true; [apply orb_true_r|]. symmetry. apply existsb_exists. exists i. split; [exact H|apply Nat.eqb_refl].
  Qed.
  Lemma abs_impl (e : option nat) : abs_err (option_map ErrImpl e) = err_of (some_b e).
  Proof. destruct e; reflexivity. Qed.
  Lemma chan_ok id am a s f : sh_rel id am a s -> channel_of f s = option_map (cm am) (achan_of f a).
  Proof. intros [B1 B2 B3 B4 B5 B6 B7 B8 B9]. destruct f; cbn; rewrite ?B7, ?B9; try reflexivity. destruct (a_notif a); reflexivity. Qed.
  Lemma chan_refs f a c n : achan_of f a = Some c -> c = AAck n -> In n (refs a).
  Proof. destruct f; cbn; [| |destruct (a_notif a)]; intros [= <-] H; try discriminate. injection H as <-. left. reflexivity. Qed.

  Lemma solo_ok id am a s ths i ath o r : rel id am a (mkState s ths) -> live_at (a_th a) i ath -> expected o -> asolo z i a = Some r ->
    match step cf (id i) o (mkState s ths) with Some st' => exists a', In a' r /\ Rel a' st' | None => r = [] end.
  Proof.
    intros HR Hlive (Oi & Ot & Op) Hs. destruct (h_live _ _ _ _ (rel_th _ _ _ _ HR) _ _ Hlive) as (th & Hth & Hthr). cbn [s_th] in Hth.
    pose proof Hthr as [T1 T2 T3 (k & tail & T4 & T5 & T6)].
    unfold asolo in Hs. pose proof Hlive as Hl0. unfold live_at in Hl0. rewrite Hl0 in Hs. cbn zeta in Hs. unfold step. cbn [s_th s_sh]. rewrite Hth. clear Hl0.
    pose proof (rel_sh _ _ _ _ HR) as HS. pose proof (rel_ack _ _ _ _ HR) as HA. cbn [s_sh] in HS, HA.
    assert (Hinj : forall m j, lock_refers j (alock_of m a) = true -> id i = id j -> i = j).
    { intros m j Hj E. destruct (rel_live _ _ _ _ HR j (refers_of _ _ _ Hj)) as (y & Hy). exact (h_inj _ _ _ _ (rel_th _ _ _ _ HR) _ _ _ _ Hlive Hy E). }
    destruct (t_mode ath) as [|m|c v|c] eqn:Em; cbn [in_place] in T6.
    - destruct T6 as (Ec & Etl). rewrite (over_spec _ _ T4) in Hs. destruct k as [|i0 k0].
      { rewrite Ec, (Etl eq_refl). cbn. congruence. }
      cbn [app] in Ec. rewrite Ec. clear Etl. cbn [map] in T4. destruct (node_spec _ Hg _ _ _ T4) as (nd & Hnd & Hi & Hnext & Hbr).
      replace (node_at z (t_pc ath)) with nd in Hs by (unfold node_at; rewrite Hnd; reflexivity). rewrite Hi in Hs.
      Ltac nx HR Hl Hs := eapply (next_ok _ _ _ _ _ _ _); [exact HR|exact Hl|reflexivity|reflexivity|eassumption|eassumption|eassumption|try eassumption|cbn [t_defer]; try eassumption|reflexivity|exact Hs].
      destruct i0; cbn [erase] in Hs, Hbr, T4; try discriminate.
      + (* ILock *) destruct (rel_lockrel _ _ _ _ _ m HR) as (L1 & L2 & L3). rewrite L1, L2. destruct (k_holder (alock_of m a)) eqn:Eh; try (injection Hs as <-; reflexivity).
        destruct (k_pending (alock_of m a)) eqn:Ep; cbn [option_map]; [injection Hs as <-; reflexivity|].
        assert (HR1 : rel id am (aset_lock m (mkAlock AFree (Some i) (k_readers (alock_of m a))) a) (mkState (set_lock m (mkRw HFree (Some (id i)) (rw_readers (lock_of m s))) s) ths)).
        { apply rel_lock; [exact HR|repeat split; cbn; exact L3|]. intros j Hj. unfold lock_refers in Hj |- *. cbn in Hj. destruct (Nat.eqb_spec j i) as [Eji|N]; [right; exists ath; rewrite Eji; exact Hlive|]. cbn in Hj. left. rewrite Hj. apply orb_true_r. }
        assert (Hl1 : live_at (a_th (aset_lock m (mkAlock AFree (Some i) (k_readers (alock_of m a))) a)) i ath) by (destruct m; exact Hlive).
        eapply put_ok; [exact HR1|exact Hl1| | | |exact Hs]; [reflexivity| |intros n []].
        constructor; cbn; try assumption. exists (ILock m :: k0), tail. split; [exact T4|]. split; [exact T5|]. exists (ILock m), k0. split; reflexivity.
      + (* IUnlock *) destruct (rel_lockrel _ _ _ _ _ m HR) as (L1 & L2 & L3). rewrite L1.
        assert (HR1 : rel id am (aset_lock m (mkAlock AFree (k_pending (alock_of m a)) (k_readers (alock_of m a))) a) (mkState (set_lock m (mkRw HFree (rw_pending (lock_of m s)) (rw_readers (lock_of m s))) s) ths)).
        { apply rel_lock; [exact HR|repeat split; cbn; assumption|]. intros j Hj. left. unfold lock_refers in Hj |- *. cbn in Hj. apply orb_prop in Hj as [Hj|Hj]; rewrite Hj; rewrite ?orb_true_r; reflexivity. }
        assert (Hl1 : live_at (a_th (aset_lock m (mkAlock AFree (k_pending (alock_of m a)) (k_readers (alock_of m a))) a)) i ath) by (destruct m; exact Hlive).
        destruct (k_holder (alock_of m a)) eqn:Eh; try discriminate; nx HR1 Hl1 Hs.
      + (* IRLock *) destruct (rel_lockrel _ _ _ _ _ m HR) as (L1 & L2 & L3). rewrite L1, L2. destruct (k_holder (alock_of m a)) eqn:Eh; try (injection Hs as <-; reflexivity).
        destruct (k_pending (alock_of m a)) eqn:Ep; cbn [option_map]; [injection Hs as <-; reflexivity|].
        assert (HR1 : rel id am (aset_lock m (mkAlock AFree None (i :: k_readers (alock_of m a))) a) (mkState (set_lock m (mkRw HFree None (id i :: rw_readers (lock_of m s))) s) ths)).
        { apply rel_lock; [exact HR|repeat split; cbn; congruence|]. intros j Hj. unfold lock_refers in Hj |- *. cbn in Hj. destruct (Nat.eqb_spec j i) as [Eji|N]; [right; exists ath; rewrite Eji; exact Hlive|]. cbn in Hj. left. rewrite Hj. apply orb_true_r. }
        assert (Hl1 : live_at (a_th (aset_lock m (mkAlock AFree None (i :: k_readers (alock_of m a))) a)) i ath) by (destruct m; exact Hlive).
        nx HR1 Hl1 Hs.
      + (* IRUnlock *) destruct (rel_lockrel _ _ _ _ _ m HR) as (L1 & L2 & L3). destruct (existsb (Nat.eqb i) (k_readers (alock_of m a))) eqn:Er; [|discriminate].
        assert (I : forall j, In j (k_readers (alock_of m a)) -> id i = id j -> i = j) by (intros j Hj; apply (Hinj m), refers_reader, Hj).
        destruct (rw_readers (lock_of m s)) as [|t' rs] eqn:Err; [destruct (k_readers (alock_of m a)); discriminate|]. rewrite L3, (mem_id _ _ _ I), Er, (remove1_id _ _ _ I).
        assert (HR1 : rel id am (aset_lock m (mkAlock (k_holder (alock_of m a)) (k_pending (alock_of m a)) (remove1 i (k_readers (alock_of m a)))) a) (mkState (set_lock m (mkRw (rw_holder (lock_of m s)) (rw_pending (lock_of m s)) (map id (remove1 i (k_readers (alock_of m a))))) s) ths)).
        { apply rel_lock; [exact HR|repeat split; cbn; assumption|]. intros j Hj. left. unfold lock_refers in Hj |- *. cbn in Hj. apply orb_prop in Hj as [Hj|Hj]; [rewrite Hj; reflexivity|].
          apply existsb_exists in Hj as (y & Hy & Ey). apply Nat.eqb_eq in Ey. subst y. apply remove1_in in Hy. apply refers_reader in Hy. exact Hy. }
        assert (Hl1 : live_at (a_th (aset_lock m (mkAlock (k_holder (alock_of m a)) (k_pending (alock_of m a)) (remove1 i (k_readers (alock_of m a)))) a)) i ath) by (destruct m; exact Hlive).
        nx HR1 Hl1 Hs.
      + (* ISetStatus *) destruct (aeval_st e (t_loc ath)) as [v|] eqn:E; [|discriminate].
        pose proof (rel_status _ _ _ _ _ _ _ (EvStatus (id i) (eval_st e (th_loc th))) HR (st_ok _ _ _ _ T2 E)) as HR1. nx HR1 Hlive Hs.
      + (* IModel *) destruct (amop z op a (t_loc ath)) as [rs|] eqn:E; [|discriminate].
        destruct (mop_ok _ _ _ _ _ _ (o_time o) _ _ _ HR T2 E) as (a1 & Hin & HR1 & Eth). destruct (each_ok _ _ _ _ Hs Hin) as (r' & Hr' & Hincl).
        assert (Hl1 : live_at (a_th a1) i ath) by (rewrite Eth; exact Hlive).
        assert (X : exists a', In a' r' /\ Rel a' (go_on (id i) th (k0 ++ tail) (th_loc th) (mop_log op (th_loc th) (set_model s (mop_model cf op (th_loc th) (o_time o) (sh_model s)))) ths)) by (nx HR1 Hl1 Hr').
        destruct X as (a' & Ha' & HRa'). exists a'. split; [apply Hincl, Ha'|exact HRa'].
      + (* IGet *) destruct (aeval_get z (erase_g g) a (t_loc ath)) as [rs|] eqn:E; [|discriminate].
        destruct (get_ok _ _ _ _ _ (o_time o) _ _ _ HS T2 E) as (l1 & Hin & HL1). destruct (each_ok _ _ _ _ Hs Hin) as (r' & Hr' & Hincl).
        assert (X : exists a', In a' r' /\ Rel a' (go_on (id i) th (k0 ++ tail) (eval_get cf g (o_time o) s (th_loc th)) s ths)) by (nx HR Hlive Hr').
        destruct X as (a' & Ha' & HRa'). exists a'. split; [apply Hincl, Ha'|exact HRa'].
      + (* ISend *) rewrite (chan_ok _ _ _ _ f HS). destruct (achan_of f a) as [c|] eqn:E; cbn [option_map]; [|injection Hs as <-; reflexivity].
        assert (Href : forall n, c = AAck n -> In n (refs a)) by (intros n; apply (chan_refs f), E). rewrite (closed_ok _ _ _ _ HA Href).
        destruct (aclosed c a); [exact (panic_ok _ _ _ _ _ _ _ _ _ _ HR Hlive Hthr Hs)|].
        destruct (aeval_st e (t_loc ath)) as [v|] eqn:Ev; [|discriminate]. eapply put_ok; [exact HR|exact Hlive| | | |exact Hs]; [reflexivity| |].
        * constructor; cbn; try assumption. exists (ISend f e :: k0), tail. split; [exact T4|]. split; [exact T5|]. eexists _, k0, _. split; [reflexivity|]. split; [exact (st_ok _ _ _ _ T2 Ev)|reflexivity].
        * intros n Hn. cbn in Hn. destruct c; cbn in Hn; try contradiction; destruct Hn as [<-|[]]. apply Href. reflexivity.
      + (* IRecv *) rewrite (chan_ok _ _ _ _ f HS). destruct (achan_of f a) as [c|] eqn:E; cbn [option_map]; [|injection Hs as <-; reflexivity].
        assert (Href : forall n, c = AAck n -> In n (refs a)) by (intros n; apply (chan_refs f), E).
        eapply put_ok; [exact HR|exact Hlive| | | |exact Hs]; [reflexivity| |].
        * constructor; cbn; try assumption. exists (IRecv f :: k0), tail. split; [exact T4|]. split; [exact T5|]. exists (IRecv f), k0. split; reflexivity.
        * intros n Hn. cbn in Hn. destruct c; cbn in Hn; try contradiction; destruct Hn as [<-|[]]. apply Href. reflexivity.
      + (* ITryStatus *) change ChStatus with (cm am AStatus). rewrite (parked_ok _ _ _ _ _ AStatus HR) by discriminate. destruct (aparked AStatus (a_th a)); [injection Hs as <-; reflexivity|].
        nx HR Hlive Hs. locs.
      + (* ITryAck *) replace (ChAck (sh_ack s)) with (cm am (AAck (a_ack a))) by (cbn; rewrite (r_ack _ _ _ _ HS); reflexivity).
        rewrite (closed_ok _ _ _ _ HA (cur_refs a)). destruct (aclosed (AAck (a_ack a)) a); [clear Hbr; nx HR Hlive Hs|].
        rewrite (parked_ok _ _ _ _ _ _ HR (cur_refs a)). destruct (aparked (AAck (a_ack a)) (a_th a)); [injection Hs as <-; reflexivity|].
        eapply (next_ok _ _ _ _ _ _ _); [exact HR|exact Hlive|reflexivity|reflexivity|eassumption| |eassumption|eassumption|eassumption| |exact Hs]; [rewrite <- map_app in Hbr; exact Hbr|apply app_assoc].
      + (* IMakeAck *) destruct (existsb (Nat.eqb (fresh (S (length (acks (a_th a)))) 0 (acks (a_th a)))) (acks (a_th a))) eqn:E; [discriminate|].
        pose proof (rel_make _ _ _ _ _ _ HR E) as HR1. nx HR1 Hlive Hs.
      + (* IMakeNotif *) pose proof (rel_notif _ _ _ _ _ HR) as HR1. nx HR1 Hlive Hs.
      + (* ICloseAck *) replace (ChAck (sh_ack s)) with (cm am (AAck (a_ack a))) by (cbn; rewrite (r_ack _ _ _ _ HS); reflexivity).
        rewrite (closed_ok _ _ _ _ HA (cur_refs a)). destruct (aclosed (AAck (a_ack a)) a); [exact (panic_ok _ _ _ _ _ _ _ _ _ _ HR Hlive Hthr Hs)|].
        pose proof (rel_close _ _ _ _ _ HR) as HR1. nx HR1 Hlive Hs.
      + (* ISpawn *) destruct (over z (n_a nd) || kind_eqb k KClient) eqn:E; [discriminate|]. apply orb_false_elim in E as (E1 & E2).
        assert (Hk : k <> KClient) by (intros ->; discriminate).
        destruct (rel_spawn id am a s ths (mkAthread k 0 (n_a nd) AAt (keep_live (n_live (node_at z (n_a nd))) aloc0) None) (mkThread k p locals0 None) HR) as (id' & HR1 & Hid).
        * constructor; cbn; [reflexivity|apply lrel_keep, lrel0|reflexivity|]. exists p, []. split; [exact Hbr|]. split; [destruct k; try reflexivity; congruence|]. split; [symmetry; apply app_nil_r|reflexivity].
        * exact Hk.
        * reflexivity.
        * destruct (Hid _ _ Hlive) as (Ei & Hl1). rewrite <- Ei. clear Hbr. nx HR1 Hl1 Hs.
      + (* IIf *) destruct (aeval_cond z (erase_c c) a (t_loc ath)) as [b|] eqn:E; [|discriminate]. rewrite (cond_ok _ _ _ _ _ _ _ _ HS T2 E). destruct Hbr as (Hp & Hq). rewrite <- map_app in Hp, Hq.
        destruct b; (eapply (next_ok _ _ _ _ _ _ _); [exact HR|exact Hlive|reflexivity|reflexivity|eassumption| |eassumption|eassumption|eassumption| |exact Hs]; [eassumption|apply app_assoc]).
      + (* ILoop *) destruct (aeval_cond z (erase_c c) a (t_loc ath)) as [b|] eqn:E; [|discriminate]. rewrite (cond_ok _ _ _ _ _ _ _ _ HS T2 E).
        change (ILoop (erase_c c) (map erase p) :: map erase k0) with (map erase (ILoop c p :: k0)) in Hbr. rewrite <- map_app in Hbr.
        destruct b; [|clear Hbr; nx HR Hlive Hs]. eapply (next_ok _ _ _ _ _ _ _); [exact HR|exact Hlive|reflexivity|reflexivity|eassumption| |eassumption|eassumption|eassumption| |exact Hs]; [exact Hbr|].
        rewrite <- app_assoc. reflexivity.
      + (* IImplInit *) destruct (o_init o) as [c e] eqn:Eo. cbn in Oi. destruct (each_ok _ _ _ _ Hs Oi) as (r' & Hr' & Hincl). cbn [fst snd] in Hr'.
        assert (X : exists a', In a' r' /\ Rel a' (go_on (id i) th (k0 ++ tail) (set_err (set_cent (th_loc th) c) (option_map ErrImpl e)) s ths)) by (nx HR Hlive Hr'; locs; apply abs_impl).
        destruct X as (a' & Ha' & HRa'). exists a'. split; [apply Hincl, Ha'|exact HRa'].
      + (* IIterBegin *) nx HR Hlive Hs.
      + (* IImplIterate *) destruct (o_iter o) as [c f e|n] eqn:Eo; cbn in Ot; destruct (each_ok _ _ _ _ Hs Ot) as (r' & Hr' & Hincl); cbn [fst snd] in Hr'.
        * assert (X : exists a', In a' r' /\ Rel a' (go_on (id i) th (k0 ++ tail) (set_err (set_figs (set_cent (th_loc th) c) f) (option_map ErrImpl e)) s ths)) by (nx HR Hlive Hr'; locs; apply abs_impl).
          destruct X as (a' & Ha' & HRa'). exists a'. split; [apply Hincl, Ha'|exact HRa'].
        * destruct (panic_ok _ _ _ _ _ _ _ _ n _ HR Hlive Hthr Hr') as (a' & Ha' & HRa'). exists a'. split; [apply Hincl, Ha'|exact HRa'].
      + (* IImplPush *) destruct (each_ok _ _ _ _ Hs Op) as (r' & Hr' & Hincl). cbn beta in Hr'.
        assert (X : exists a', In a' r' /\ Rel a' (go_on (id i) th (k0 ++ tail) (set_err (th_loc th) (option_map ErrImpl (o_push o))) s ths)) by (nx HR Hlive Hr'; locs; apply abs_impl).
        destruct X as (a' & Ha' & HRa'). exists a'. split; [apply Hincl, Ha'|exact HRa'].
      + (* IDefer *) destruct (kind_eqb (t_kind ath) KClient) eqn:E; [discriminate|].
        eapply next_ok; [exact HR|exact Hlive| | |exact T1|exact Hnext|exact T5|exact T2| |reflexivity|exact Hs]; try reflexivity.
        split; [intros X; rewrite X in E; discriminate|]. exists p. split; [reflexivity|exact Hbr].
      + (* IEndDefer *) eapply next_ok; [exact HR|exact Hlive| | |exact T1|exact Hnext|exact T5|exact T2| |reflexivity|exact Hs]; reflexivity.
      + (* IReturn *) pose proof (rel_log _ _ _ _ _ (EvReturn (id i) (if e then l_err (th_loc th) else None)) HR) as HR1. nx HR1 Hlive Hs.
    - destruct T6 as (i0 & k0 & -> & Ec). rewrite Ec. cbn [map] in T4. destruct (node_spec _ Hg _ _ _ T4) as (nd & Hnd & Hi & Hnext & _).
      replace (node_at z (t_pc ath)) with nd in Hs by (unfold node_at; rewrite Hnd; reflexivity).
      destruct (rel_lockrel _ _ _ _ _ m HR) as (L1 & L2 & L3). rewrite L1, L2, L3. destruct (k_holder (alock_of m a)) eqn:Eh; try (injection Hs as <-; reflexivity).
      destruct (k_pending (alock_of m a)) as [j|] eqn:Ep; cbn [option_map]; [|injection Hs as <-; reflexivity].
      destruct (k_readers (alock_of m a)) as [|x rs] eqn:Er; cbn [map]; [|injection Hs as <-; reflexivity].
      rewrite eqb_id by (apply (Hinj m), refers_pending, Ep). destruct (Nat.eqb_spec i j) as [->|N]; [|injection Hs as <-; reflexivity].
      assert (HR1 : rel id am (aset_lock m (mkAlock (ABy j) None []) a) (mkState (set_lock m (mkRw (HBy (id j)) None []) s) ths)).
      { apply rel_lock; [exact HR|repeat split|]. intros y Hy. right. exists ath. unfold lock_refers in Hy. cbn in Hy. rewrite !orb_false_r in Hy. apply Nat.eqb_eq in Hy. subst y. exact Hlive. }
      assert (Hl1 : live_at (a_th (aset_lock m (mkAlock (ABy j) None []) a)) j ath) by (destruct m; exact Hlive).
      nx HR1 Hl1 Hs.
    - destruct T6 as (i0 & k0 & v' & -> & Ev & Ec). rewrite Ec. rewrite (closed_ok _ _ _ _ HA (sent_refs _ _ _ _ _ Hlive Em)).
      destruct (aclosed c a); [exact (panic_ok _ _ _ _ _ _ _ _ _ _ HR Hlive Hthr Hs)|]. congruence.
    - destruct T6 as (i0 & k0 & -> & Ec). rewrite Ec. rewrite (closed_ok _ _ _ _ HA (recv_refs _ _ _ _ Hlive Em)).
      cbn [map] in T4. destruct (node_spec _ Hg _ _ _ T4) as (nd & Hnd & Hi & Hnext & _).
      replace (node_at z (t_pc ath)) with nd in Hs by (unfold node_at; rewrite Hnd; reflexivity).
      destruct (aclosed c a); [|congruence]. nx HR Hlive Hs. locs.
  Qed.

  Lemma receive_ok am a s j ath (th : thread) c : ack_rel am (refs a) a s -> am (a_ack a) = sh_ack s -> live_at (a_th a) j ath -> thr am ath th ->
    (forall n, c = AAck n -> In n (refs a)) ->
    if areceives z c a ath then exists k tail, receiver (cm am c) s (th_code th) = Some (k ++ tail) /\ code_at (n_next (node_at z (t_pc ath))) = Some (map erase k) /\
      tail_ok (t_kind ath) (t_phase ath) tail
    else receiver (cm am c) s (th_code th) = None.
  Proof.
    intros HA Hack Hl [_ _ _ (k & tail & T4 & T5 & T6)] Href. unfold areceives. destruct (t_mode ath) as [|m|c' v|c'] eqn:Em; cbn [in_place] in T6.
    - destruct T6 as (Ec & Etl). rewrite (over_spec _ _ T4). destruct k as [|i0 k0]; [rewrite Ec, (Etl eq_refl); reflexivity|]. cbn [negb andb].
      cbn [map] in T4. destruct (node_spec _ Hg _ _ _ T4) as (nd & Hnd & Hi & Hnext & _).
      replace (node_at z (t_pc ath)) with nd by (unfold node_at; rewrite Hnd; reflexivity). rewrite Hi, Ec. cbn [app].
      destruct i0; cbn [erase receiver]; try reflexivity; try (exfalso; exact (no_receiving _ _ _ T4)).
      + change ChStatus with (cm am AStatus). rewrite (cm_eqb _ _ _ _ _ HA Href) by discriminate. destruct (achan_eqb c AStatus); [|reflexivity].
        exists k0, tail. split; [reflexivity|]. split; assumption.
      + replace (ChAck (sh_ack s)) with (cm am (AAck (a_ack a))) by (cbn; congruence). rewrite (cm_eqb _ _ _ _ _ HA Href (cur_refs a)). destruct (achan_eqb c (AAck (a_ack a))); [|reflexivity].
        exists k0, tail. split; [reflexivity|]. split; assumption.
    - destruct T6 as (i0 & k0 & _ & Ec). rewrite Ec. reflexivity.
    - destruct T6 as (i0 & k0 & v' & _ & _ & Ec). rewrite Ec. reflexivity.
    - destruct T6 as (i0 & k0 & -> & Ec). rewrite Ec. cbn [receiver]. rewrite (cm_eqb _ _ _ _ _ HA Href (recv_refs _ _ _ _ Hl Em)). destruct (achan_eqb c c'); [|reflexivity].
      cbn [map] in T4. destruct (node_spec _ Hg _ _ _ T4) as (nd & Hnd & Hi & Hnext & _). exists k0, tail. split; [reflexivity|]. split; [|exact T5].
      replace (node_at z (t_pc ath)) with nd by (unfold node_at; rewrite Hnd; reflexivity). exact Hnext.
  Qed.
  Lemma go_to_live i ath pc l a r a' j y : go_to z i ath pc l a = Some r -> In a' r -> j <> i -> live_at (a_th a) j y -> live_at (a_th a') j y.
  Proof.
    intros H Ha N Hl. assert (X : exists x, a' = aset_th (upd (a_th a) i x) a).
    { unfold go_to in H. destruct (over z pc).
      - destruct (t_kind ath); [|destruct (refers i a); [discriminate|]; injection H as <-; destruct Ha as [<-|[]]; eexists; reflexivity..].
        injection H as <-. change (In a' (map (fun th => aset_th (upd (a_th a) i (Some th)) a) (at_place z ath pc l :: map (enter z (at_place z ath pc l)) (z_calls z (t_phase ath))))) in Ha.
        apply in_map_iff in Ha as (x & <- & _). eexists. reflexivity.
      - injection H as <-. destruct Ha as [<-|[]]. eexists. reflexivity. }
    destruct X as (x & ->). exact (live_upd _ _ _ _ _ Hl N).
  Qed.
  Lemma comm_ok id am a s ths i j athi athj r : rel id am a (mkState s ths) -> live_at (a_th a) i athi -> live_at (a_th a) j athj -> acomm z i j a = Some r ->
    match comm (id i) (id j) (mkState s ths) with Some st' => exists a', In a' r /\ Rel a' st' | None => r = [] end.
  Proof.
    intros HR Hi Hj H. pose proof (rel_sh _ _ _ _ HR) as HS. pose proof (rel_ack _ _ _ _ HR) as HA. pose proof (rel_th _ _ _ _ HR) as HT. cbn [s_sh s_th] in HS, HA, HT.
    unfold acomm in H. unfold comm. rewrite eqb_id by (apply (h_inj _ _ _ _ HT _ _ _ _ Hi Hj)). destruct (Nat.eqb_spec i j) as [E|N]; [congruence|].
    destruct (h_live _ _ _ _ HT _ _ Hi) as (thi & Hthi & Ti). destruct (h_live _ _ _ _ HT _ _ Hj) as (thj & Hthj & Tj). cbn [s_th s_sh]. rewrite Hthi, Hthj.
    pose proof Hi as Hi'. pose proof Hj as Hj'. unfold live_at in Hi', Hj'. rewrite Hi', Hj' in H. clear Hi' Hj'.
    destruct (th_code thi) as [|i0 k1] eqn:Ec.
    { destruct (t_mode athi) as [|m|c v|c] eqn:Em; try congruence. destruct Ti as [_ _ _ (k & tail & _ & _ & T6)]. rewrite Em in T6. destruct T6 as (? & ? & ? & _ & _ & ?). congruence. }
    destruct (t_mode athi) as [|m|c v|c] eqn:Em.
    - assert (match i0 with ISending _ _ => False | _ => True end) by (destruct i0; try exact Logic.I; destruct (head_sending _ _ _ _ _ _ Ti Ec) as (? & ? & _); congruence).
      destruct i0; try contradiction; congruence.
    - destruct Ti as [_ _ _ (k & tail & _ & _ & T6)]. rewrite Em in T6. destruct T6 as (? & ? & _ & X). rewrite Ec in X. injection X as -> _. congruence.
    - destruct Ti as [T1 T2 T3 (k & tail & T4 & T5 & T6)]. rewrite Em in T6. destruct T6 as (i1 & k0 & v' & -> & Ev & X). rewrite Ec in X. injection X as -> ->.
      pose proof (sent_refs _ _ _ _ _ Hi Em) as Href. rewrite (closed_ok _ _ _ _ HA Href). destruct (aclosed c a); [congruence|].
      pose proof (receive_ok _ _ _ _ _ _ _ HA (eq_sym (r_ack _ _ _ _ HS)) Hj Tj Href) as HRc. destruct (areceives z c a athj); [|rewrite HRc; congruence].
      destruct HRc as (kr & tailr & -> & Hnr & Htr). cbn [map] in T4. destruct (node_spec _ Hg _ _ _ T4) as (nd & Hnd & _ & Hnext & _).
      replace (node_at z (t_pc athi)) with nd in H by (unfold node_at; rewrite Hnd; reflexivity).
      destruct (go_to z i athi (n_next nd) (t_loc athi) a) as [r1|] eqn:Eg; [|discriminate].
      assert (HR0 : rel id am a (mkState (deliver_log (id i) (cm am c) v' s) ths)) by (destruct c; cbn; try exact HR; apply rel_log, HR).
      destruct (go_to_ok _ _ _ _ _ _ _ _ _ _ _ _ _ _ _ _ HR0 Hi eq_refl eq_refl T1 Hnext T5 T2 T3 Eg) as (a1 & Hin & HR1).
      pose proof (go_to_live _ _ _ _ _ _ _ _ _ Eg Hin (fun E => N (eq_sym E)) Hj) as Hj1.
      destruct (each_ok _ _ _ _ H Hin) as (r' & Hr' & Hincl). destruct Tj as [U1 U2 U3 _].
      assert (HLd : lrel (adeliver c v (t_loc athj)) (deliver (cm am c) v' (th_loc thj))) by (clear - U2 Ev; destruct c; cbn; locs).
      destruct (next_ok _ _ _ _ _ _ _ _ _ _ _ _ _ _ _ _ _ HR1 Hj1 eq_refl eq_refl U1 Hnr Htr HLd U3 eq_refl Hr') as (a' & Ha' & HRa').
      exists a'. split; [apply Hincl, Ha'|exact HRa'].
    - destruct Ti as [_ _ _ (k & tail & _ & _ & T6)]. rewrite Em in T6. destruct T6 as (? & ? & _ & X). rewrite Ec in X. injection X as -> _. congruence.
  Qed.
End Sound.
