(** Executions of a few goroutines among many: the steps used to build an execution of the controller. *)
From Coq Require Import List ZArith Bool Lia.
From Verif Require Import Base.Go Base.Num Model.Status Model.Finish Model.CtrlLang Model.CtrlCode Proofs.GoLemmas.
Import ListNotations.
Local Open Scope list_scope.

Section Lang.
  Context {C : Type}.
  Variable cf : cconf.
  Notation thread := (thread C).
  Notation shared := (shared C).
  Notation state := (state C).
  Notation oracle := (oracle C).

  Definition go (st st' : state) : Prop := exists ms, exec cf ms st = Some st'.
  Lemma go_refl st : go st st.
  Proof. exists []. reflexivity. Qed.
  Lemma exec_app ms ms' (st : state) : exec cf (ms ++ ms') st = match exec cf ms st with None => None | Some st' => exec cf ms' st' end.
  Proof. revert st. induction ms as [|m ms IH]; intros st; [reflexivity|]. cbn [app exec]. destruct (do_move cf m st); [apply IH|reflexivity]. Qed.
  Lemma go_trans st1 st2 st3 : go st1 st2 -> go st2 st3 -> go st1 st3.
  Proof. intros (m1 & H1) (m2 & H2). exists (m1 ++ m2). rewrite exec_app, H1. exact H2. Qed.
  Lemma go_move m st st' : do_move cf m st = Some st' -> go st st'.
  Proof. intros H. exists [m]. cbn [exec]. rewrite H. reflexivity. Qed.

  (** The steps that read and write nothing of the other goroutines. *)
  Definition local_step (t : nat) (o : oracle) (th : thread) (s : shared) : option (thread * shared) :=
    let l := th_loc th in
    let next k l s := Some (mkThread (th_kind th) k l (th_defer th), s) in
    match th_code th with
    | [] => None
    | i :: k =>
        match i with
        | ILock m =>
            let r := lock_of m s in
            match rw_holder r, rw_pending r with
            | HFree, None => next (IAcquire m :: k) l (set_lock m (mkRw HFree (Some t) (rw_readers r)) s)
            | _, _ => None
            end
        | IAcquire m =>
            let r := lock_of m s in
            match rw_holder r, rw_pending r, rw_readers r with
            | HFree, Some t', [] => if Nat.eqb t t' then next k l (set_lock m (mkRw (HBy t) None []) s) else None
            | _, _, _ => None
            end
        | IUnlock m =>
            let r := lock_of m s in
            match rw_holder r with
            | HFree => None
            | _ => next k l (set_lock m (mkRw HFree (rw_pending r) (rw_readers r)) s)
            end
        | IRLock m =>
            let r := lock_of m s in
            match rw_holder r, rw_pending r with
            | HFree, None => next k l (set_lock m (mkRw HFree None (t :: rw_readers r)) s)
            | _, _ => None
            end
        | IRUnlock m =>
            let r := lock_of m s in
            match rw_readers r with
            | [] => None
            | t' :: rs => if Nat.eqb t t' then next k l (set_lock m (mkRw (rw_holder r) (rw_pending r) rs) s) else None
            end
        | ILeak m =>
            let r := lock_of m s in
            match rw_holder r with
            | HFree => next k l s
            | _ => next k l (set_lock m (mkRw HLeaked (rw_pending r) (rw_readers r)) s)
            end
        | ISetStatus e => let v := eval_st e l in next k l (add_log (set_status_ s v) (EvStatus t v))
        | IModel op => next k l (mop_log op l (set_model s (mop_model cf op l (o_time o) (sh_model s))))
        | IGet g => next k (eval_get cf g (o_time o) s l) s
        | ISend f e =>
            match channel_of f s with
            | None => None
            | Some c => if closed c s then None else next (ISending c (eval_st e l) :: k) l s
            end
        | IRecv f => match channel_of f s with None => None | Some c => next (IReceiving c :: k) l s end
        | IReceiving c => if closed c s then next k (set_ok l false) s else None
        | IMakeAck => next k l (make_ack s)
        | IMakeNotif => next k l (set_notif s true)
        | ICloseAck => if closed (ChAck (sh_ack s)) s then None else next k l (close_ack s)
        | IIf c p q => next ((if eval_cond cf c s l then p else q) ++ k) l s
        | ILoop c p => next (if eval_cond cf c s l then p ++ ILoop c p :: k else k) l s
        | IImplInit => let (c, e) := o_init o in next k (set_err (set_cent l c) (option_map ErrImpl e)) s
        | IIterBegin => next k l s
        | IImplIterate =>
            match o_iter o with
            | IterRes c f e => next k (set_err (set_figs (set_cent l c) f) (option_map ErrImpl e)) s
            | IterPanic n =>
                match th_defer th with
                | Some d => Some (mkThread (th_kind th) d (set_panic l (Some (ErrImpl n))) None, s)
                | None => None
                end
            end
        | IImplPush => next k (set_err l (option_map ErrImpl (o_push o))) s
        | IDefer p => Some (mkThread (th_kind th) k l (Some p), s)
        | IEndDefer => Some (mkThread (th_kind th) k l None, s)
        | IDisable =>
            match sh_timeout s with
            | None => next k l s
            | Some n => next k l (set_timers s (Some n) (upd (sh_timers s) n false))
            end
        | IReturn b => next k l (add_log s (EvReturn t (if b then l_err l else None)))
        | _ => None
        end
    end.

  Lemma local_ok t o th s th' s' ths : local_step t o th s = Some (th', s') -> nth_error ths t = Some th ->
    step cf t o (mkState s ths) = Some (mkState s' (upd ths t th')).
  Proof.
    intros H Ht. unfold step. cbn [s_th s_sh]. rewrite Ht. revert H. unfold local_step. destruct (th_code th) as [|i k]; [discriminate|].
    destruct i; try discriminate; try (intros [= <- <-]; reflexivity).
    - destruct (rw_holder (lock_of m s)); try discriminate. destruct (rw_pending (lock_of m s)); try discriminate. intros [= <- <-]. reflexivity.
    - destruct (rw_holder (lock_of m s)); try discriminate. destruct (rw_pending (lock_of m s)); try discriminate. destruct (rw_readers (lock_of m s)); try discriminate.
      destruct (Nat.eqb t n); try discriminate. intros [= <- <-]. reflexivity.
    - destruct (rw_holder (lock_of m s)); try discriminate; intros [= <- <-]; reflexivity.
    - destruct (rw_holder (lock_of m s)); try discriminate. destruct (rw_pending (lock_of m s)); try discriminate. intros [= <- <-]. reflexivity.
    - destruct (rw_readers (lock_of m s)) as [|n rs] eqn:Er; try discriminate. destruct (Nat.eqb t n) eqn:En; try discriminate. intros [= <- <-].
      unfold mem. cbn [existsb remove1]. rewrite En. reflexivity.
    - destruct (rw_holder (lock_of m s)); intros [= <- <-]; reflexivity.
    - destruct (channel_of f s); try discriminate. destruct (closed c s); try discriminate. intros [= <- <-]. reflexivity.
    - destruct (channel_of f s); try discriminate. intros [= <- <-]. reflexivity.
    - destruct (closed c s); try discriminate. intros [= <- <-]. reflexivity.
    - destruct (closed (ChAck (sh_ack s)) s); try discriminate. intros [= <- <-]. reflexivity.
    - destruct (o_init o). intros [= <- <-]. reflexivity.
    - destruct (o_iter o); [intros [= <- <-]; reflexivity|]. unfold do_panic. destruct (th_defer th); try discriminate. intros [= <- <-]. reflexivity.
    - destruct (sh_timeout s); intros [= <- <-]; reflexivity.
  Qed.

  (** Several local steps. *)
  Fixpoint local_run (t : nat) (os : list oracle) (x : thread * shared) : option (thread * shared) :=
    match os with
    | [] => Some x
    | o :: os' =>
        if sh_crashed (snd x) then None else
        match local_step t o (fst x) (snd x) with None => None | Some x' => local_run t os' x' end
    end.

  Lemma upd_upd {A} (l : list A) i x y : upd (upd l i x) i y = upd l i y.
  Proof. revert i. induction l as [|a l IH]; intros [|i]; cbn; [reflexivity..|]. rewrite IH. reflexivity. Qed.
  Lemma upd_comm {A} (l : list A) i j x y : i <> j -> upd (upd l i x) j y = upd (upd l j y) i x.
  Proof.
    revert i j. induction l as [|a l IH]; intros [|i] [|j] H; cbn; try reflexivity; try congruence.
    rewrite IH; [reflexivity|congruence].
  Qed.
  Lemma upd_same {A} (l : list A) i x : nth_error l i = Some x -> upd l i x = l.
  Proof. revert i. induction l as [|a l IH]; intros [|i] H; cbn in *; try discriminate; [congruence|]. rewrite IH; [reflexivity|exact H]. Qed.
  Lemma get_upd {A} (l : list A) i x : i < length l -> nth_error (upd l i x) i = Some x.
  Proof. intros H. rewrite nth_error_upd, Nat.eqb_refl. destruct (Nat.ltb_spec i (length l)); [reflexivity|lia]. Qed.
  Lemma get_upd_other {A} (l : list A) i j x : i <> j -> nth_error (upd l i x) j = nth_error l j.
  Proof. intros H. rewrite nth_error_upd. destruct (Nat.eqb_spec j i); [congruence|reflexivity]. Qed.
  Lemma lt_of {A} (l : list A) i x : nth_error l i = Some x -> i < length l.
  Proof. intros H. apply nth_error_Some. congruence. Qed.

  Lemma local_go t os : forall th s th' s' ths, local_run t os (th, s) = Some (th', s') -> nth_error ths t = Some th ->
    go (mkState s ths) (mkState s' (upd ths t th')).
  Proof.
    induction os as [|o os IH]; intros th s th' s' ths H Ht; cbn [local_run fst snd] in H.
    - injection H as <- <-. rewrite (upd_same ths t th Ht). apply go_refl.
    - destruct (sh_crashed s) eqn:Ec; [discriminate|]. destruct (local_step t o th s) as [[th1 s1]|] eqn:El; [|discriminate].
      eapply go_trans.
      + apply (go_move (Solo t o)). unfold do_move. cbn [s_sh]. rewrite Ec. apply (local_ok t o th s th1 s1 ths El Ht).
      + rewrite <- (upd_upd ths t th1 th'). apply (IH th1 s1); [exact H|]. apply get_upd. exact (lt_of _ _ _ Ht).
  Qed.

  Definition comm_at (t r : nat) (s : shared) (th thr : thread) c v k kr : Prop :=
    th_code th = ISending c v :: k /\ closed c s = false /\ receiver c s (th_code thr) = Some kr.
  Lemma comm_go t r s ths th thr c v k kr : t <> r -> sh_crashed s = false -> nth_error ths t = Some th -> nth_error ths r = Some thr ->
    comm_at t r s th thr c v k kr ->
    go (mkState s ths) (mkState (deliver_log t c v s)
      (upd (upd ths t (mkThread (th_kind th) k (th_loc th) (th_defer th))) r (mkThread (th_kind thr) kr (deliver c v (th_loc thr)) (th_defer thr)))).
  Proof.
    intros Hn Hc Ht Hr (H1 & H2 & H3). apply (go_move (Comm t r)). unfold do_move, comm. cbn [s_sh s_th]. rewrite Hc.
    destruct (Nat.eqb_spec t r); [contradiction|]. rewrite Ht, Hr, H1, H2, H3. reflexivity.
  Qed.
End Lang.
