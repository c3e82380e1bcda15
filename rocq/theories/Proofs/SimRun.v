(** Executions of the run goroutine with the goroutine that sends it a status. *)
From Coq Require Import List ZArith Bool Lia.
From Verif Require Import Base.Go Base.Num Model.Status Model.Finish Model.CtrlLang Model.CtrlCode Proofs.GoLemmas Proofs.SimLang Proofs.SimWorld.
Import ListNotations.
Local Open Scope list_scope.

Ltac lr := lrun; repeat (match goal with
  | H : mem ?a ?b = false |- context [mem ?a ?b] => rewrite H
  | H : l_err ?l = _ |- context [l_err ?l] => rewrite H
  | H : l_panic ?l = _ |- context [l_panic ?l] => rewrite H
  | H : l_ok ?l = _ |- context [l_ok ?l] => rewrite H
  end; lrun).

Section Run.
  Context {C : Type}.
  Variable cf : cconf.
  Notation thread := (thread C).
  Notation shared := (shared C).
  Notation state := (state C).
  Notation oracle := (oracle C).
  Notation go := (go cf).
  Notation o0 := (@at_time C 0).

  Lemma go_ex {X} st1 st2 (F : X -> state) : go st1 st2 -> (exists x, go st2 (F x)) -> exists x, go st1 (F x).
  Proof. intros H (x & Hx). exists x. exact (go_trans cf _ _ _ H Hx). Qed.

  Definition rest_of_run : list instr := ILoop CGo (loop_body ++ loop_test) :: run_end ++ recover_code.
  Definition test_code : list instr := loop_test ++ rest_of_run.
  Definition select_code : list instr := loop_body ++ loop_test ++ rest_of_run.
  Definition recv_code : list instr := IReceiving ChStatus :: set_status XRecv true ++ send_ack ++ test_code.
  Definition runner_at (code : list instr) (l : locals C) : thread := mkThread KRunner code l (Some recover_code).

  (** The goroutine [t] sets the status [v] and notifies it. *)
  Definition stat (t : nat) (v : oc_status) (s : shared) : shared :=
    add_log (add_log (set_status_ s v) (EvStatus t v)) (EvNotified t v).

  Definition open_ack (s : shared) : Prop := mem (sh_ack s) (sh_closed s) = false.
  (** Nothing is locked for writing; [rd] read the model. *)
  Definition idle (rd : list nat) (s : shared) : Prop :=
    sh_crashed s = false /\ sh_notif s = true /\ sh_lock_s s = rw_free /\ sh_lock_m s = mkRw HFree None rd.

  Ltac comm_ok := unfold comm_at; cbn [th_code]; split; [reflexivity|split]; [lr; reflexivity|unfold receiver; cbn [chan_eqb]; rewrite ?Nat.eqb_refl; reflexivity].
  Ltac opened := match goal with H : idle _ ?s |- _ => destruct s as [?v0 ?ls ?lm ?md ?no ?ack ?nack ?cl ?to ?tms ?lg ?cr];
    unfold idle, open_ack in *; cbn [sh_crashed sh_notif sh_lock_s sh_lock_m sh_ack sh_closed sh_status sh_model] in *; destruct H as (?Hcr & ?Hno & ?Hls & ?Hlm); subst end.

  Section Slots.
    Variables (ths : list thread) (t n r : nat).
    Hypotheses (Hl : t < length ths /\ n < length ths /\ r < length ths) (Hd : t <> n /\ t <> r /\ n <> r).
    Notation V := (W ths t n r).
    Ltac st os := eapply go_ex; [apply (w_t cf ths t n r Hl Hd os); lr; reflexivity|].
    Ltac sr os := eapply go_ex; [apply (w_r cf ths t n r Hl os); lr; reflexivity|].
    Ltac tr := eapply go_ex; [eapply (w_tr cf ths t n r Hl Hd); [reflexivity|comm_ok]|]; cbn [deliver_log deliver th_kind th_loc th_defer].
    Ltac rt := eapply go_ex; [eapply (w_rt cf ths t n r Hl Hd); [reflexivity|comm_ok]|]; cbn [deliver_log deliver th_kind th_loc th_defer].
    Ltac nr ln' := match goal with |- context [mkState ?s (V ?a (nrest ?ln) (mkThread ?kd (ISend FldNotif ?e :: ?k) ?l ?d))] =>
      let H := fresh "H" in
      destruct (w_notify_r cf ths t n r Hl Hd s kd e k l d ln a _ eq_refl eq_refl eq_refl) as [ln' H];
      eapply go_ex; [exact H|clear H] end.

    Lemma take_status s ka e k la da ln lc rd : idle rd s -> open_ack s ->
      exists ln', go (mkState s (V (mkThread ka (ISend FldStatus e :: IRecv FldAck :: k) la da) (nrest ln) (runner_at recv_code lc)))
        (mkState (stat r (eval_st e la) s) (V (mkThread ka k (set_ok la true) da) (nrest ln') (runner_at test_code (set_got (set_recv lc (eval_st e la)) true)))).
    Proof.
      intros H Ha. opened. unfold runner_at, recv_code. set (v := eval_st e la).
      st [o0]. tr. sr [o0; o0; o0; o0]. nr ln'. sr [o0]. st [o0]. rt. exists ln'. apply go_refl.
    Qed.

    (** Pause received at the select. *)
    Lemma take_pause s ka k la da ln lc rd : idle rd s -> open_ack s ->
      exists ln', go (mkState s (V (mkThread ka (ISend FldStatus (XValue Idle) :: IRecv FldAck :: k) la da) (nrest ln) (runner_at select_code lc)))
        (mkState (stat r (new_status Idle) s) (V (mkThread ka k (set_ok la true) da) (nrest ln') (runner_at recv_code (set_got (set_recv lc (new_status Idle)) true)))).
    Proof.
      intros H Ha. opened. unfold runner_at, select_code, loop_body.
      st [o0]. tr. sr [o0; o0; o0; o0; o0]. nr ln'. sr [o0]. sr [o0]. st [o0]. rt. sr [o0]. exists ln'. apply go_refl.
    Qed.

    (** Stop received at the select: the client waits for the acknowledgement while the run ends. *)
    Lemma take_stop s ka e k la da ln lc : idle [] s -> open_ack s -> l_err lc = None ->
      exists ln', go (mkState s (V (mkThread ka (ISend FldStatus (XError (SrcConst e)) :: IRecv FldAck :: k) la da) (nrest ln) (runner_at select_code lc)))
        (mkState (stat r (mkStatus Finished e) s) (V (mkThread ka (IReceiving (ChAck (sh_ack s)) :: k) la da) (nrest ln')
          (runner_at (run_end ++ recover_code) (set_go (set_got (set_recv lc (mkStatus Finished e)) true) false)))).
    Proof.
      intros H Ha He. opened. unfold runner_at, select_code, loop_body.
      st [o0]. tr. sr [o0; o0; o0; o0; o0]. nr ln'. sr [o0]. unfold loop_test. sr [o0; o0; o0]. unfold rest_of_run. sr [o0]. st [o0].
      exists ln'. apply go_refl.
    Qed.
  End Slots.

  (** The run goroutine alone. *)
  Section Alone.
    Variables (ths : list thread) (r n : nat).
    Hypotheses (Hl : r < length ths /\ n < length ths) (Hd : r <> n).
    Notation V := (W2 ths r n).
    Ltac st os := eapply go_ex; [apply (w2_t cf ths r n Hl Hd os); lr; reflexivity|].
    Ltac nt ln' := match goal with |- context [mkState ?s (V (mkThread ?kd (ISend FldNotif ?e :: ?k) ?l ?d) (nrest ?ln))] =>
      let H := fresh "H" in
      destruct (w2_notify cf ths r n Hl Hd s kd e k l d ln _ eq_refl eq_refl eq_refl) as [ln' H];
      cbn [eval_st eval_err l_err l_panic set_got set_recv set_go set_ok] in H; try (match goal with E : l_err l = _ |- _ => rewrite E in H end); try (match goal with E : l_panic l = _ |- _ => rewrite E in H end);
      eapply go_ex; [exact H|clear H] end.
    Hypothesis (Hq : quiet ths).
    Lemma quiet2 a b : not_sending a -> not_sending b -> quiet (V a b).
    Proof. intros. apply quiet_upd; [apply quiet_upd; auto|auto]. Qed.
    Ltac try_ := match goal with |- context [mkState ?s (V (mkThread ?kd (ITryStatus :: ?k) ?l ?d) ?b)] =>
      eapply go_ex; [apply (try_go cf (V (mkThread kd (ITryStatus :: k) l d) b) r s kd k l d); [apply G2t; assumption|apply quiet2; exact Logic.I|reflexivity]|rewrite (W2t ths r n Hd)] end.
    Ltac tack := match goal with |- context [mkState ?s (V (mkThread ?kd (ITryAck ?p :: ?k) ?l ?d) ?b)] =>
      eapply go_ex; [apply (try_ack_go cf (V (mkThread kd (ITryAck p :: k) l d) b) r s kd p k l d); [apply G2t; assumption|apply quiet2; exact Logic.I|reflexivity|lr; reflexivity]|rewrite (W2t ths r n Hd)] end.

    Definition over (err : option algo_error) (now : Z) (s : shared) : shared :=
      let s := match err with
               | None => if status_eqb (st_value (sh_status s)) Running then stat r (new_status Ready) s else s
               | Some e => stat r (new_status_error e) s
               end in
      close_ack (set_model s (model_duration (sh_model s) now)).

    Lemma recovered now s l ln d : idle [] s -> open_ack s -> 
      exists x, go (mkState s (V (mkThread KRunner recover_code l d) (nrest ln)))
        (mkState (close_ack (set_model (match l_panic l with None => s | Some e => stat r (new_status_error e) s end) (model_duration (sh_model s) now))) (V (mkThread KRunner [] (fst x) None) (nrest (snd x)))).
    Proof.
      intros H Ha. opened. unfold recover_code. destruct (l_panic l) as [e|] eqn:Ep.
      - st [o0; o0; o0; o0]. st [o0]. nt ln'. st [o0; o0; at_time now; o0]. try_. st [o0]. tack. st [o0; o0]. exists (set_got l false, ln'). apply go_refl.
      - st [o0; o0; o0; o0]. st [o0; o0; at_time now; o0]. try_. st [o0]. tack. st [o0; o0]. exists (set_got l false, ln). apply go_refl.
    Qed.
    Lemma ended now s l ln : idle [] s -> open_ack s -> l_panic l = None ->
      exists x, go (mkState s (V (runner_at (run_end ++ recover_code) l) (nrest ln)))
        (mkState (over (l_err l) now s) (V (mkThread KRunner [] (fst x) None) (nrest (snd x)))).
    Proof.
      intros H Ha Hp. unfold runner_at, run_end, over.
      destruct (l_err l) as [e|] eqn:Ee.
      - opened. st [o0; o0; o0; o0; o0]. nt ln'.
        match goal with |- exists x, go (mkState ?s0 (V (mkThread _ _ ?l0 ?d0) (nrest ?ln0))) _ =>
          destruct (recovered now s0 l0 ln0 d0) as [x Hx]; [repeat split|exact Ha|rewrite Hp in Hx; exists x; exact Hx] end.
      - opened. destruct (status_eqb (st_value v0) Running) eqn:Er.
        + eapply go_ex; [apply (w2_t cf ths r n Hl Hd [o0]); lr; reflexivity|]. eapply go_ex; [apply (w2_t cf ths r n Hl Hd [o0]); lr; rewrite Er; reflexivity|]. st [o0; o0; o0; o0]. nt ln'.
          match goal with |- exists x, go (mkState ?s0 (V (mkThread _ _ ?l0 ?d0) (nrest ?ln0))) _ =>
            destruct (recovered now s0 l0 ln0 d0) as [x Hx]; [repeat split|exact Ha|rewrite Hp in Hx; exists x; exact Hx] end.
        + eapply go_ex; [apply (w2_t cf ths r n Hl Hd [o0]); lr; reflexivity|]. eapply go_ex; [apply (w2_t cf ths r n Hl Hd [o0]); lr; rewrite Er; reflexivity|].
          match goal with |- exists x, go (mkState ?s0 (V (mkThread _ _ ?l0 ?d0) (nrest ?ln0))) _ =>
            destruct (recovered now s0 l0 ln0 d0) as [x Hx]; [repeat split|exact Ha|rewrite Hp in Hx; exists x; exact Hx] end.
    Qed.

    (** The loop condition. *)
    Definition goes (s : shared) : bool := status_eqb (st_value (sh_status s)) Running && negb (is_finished (run_finishing cf) (the_model s)).
    Lemma tested s l ln : idle [] s -> l_err l = None -> 
      go (mkState s (V (runner_at test_code l) (nrest ln)))
        (mkState s (V (runner_at (if goes s then select_code else run_end ++ recover_code) (set_go l (goes s))) (nrest ln))).
    Proof.
      intros H He. unfold goes, runner_at. opened. unfold test_code, loop_test.
      eapply go_trans; [apply (w2_t cf ths r n Hl Hd [o0; o0]); lr; reflexivity|].
      destruct (status_eqb (st_value v0) Running) eqn:Er; cbn [andb].
      - eapply go_trans; [apply (w2_t cf ths r n Hl Hd [o0; o0; o0; o0]); lr; rewrite ?Er; lr; reflexivity|].
        destruct (is_finished _ _) eqn:Ef; cbn [negb].
        + eapply go_trans; [apply (w2_t cf ths r n Hl Hd [o0]); lr; rewrite ?Ef; lr; reflexivity|]. apply go_refl.
        + eapply go_trans; [apply (w2_t cf ths r n Hl Hd [o0]); lr; rewrite ?Ef; lr; reflexivity|]. apply go_refl.
      - eapply go_trans; [apply (w2_t cf ths r n Hl Hd [o0; o0]); lr; rewrite ?Er; lr; reflexivity|]. apply go_refl.
    Qed.
    Lemma tested_err s l ln e : idle [] s -> l_err l = Some e ->
      go (mkState s (V (runner_at test_code l) (nrest ln)))
        (mkState s (V (runner_at (run_end ++ recover_code) (set_go l false)) (nrest ln))).
    Proof.
      intros H He. unfold runner_at. opened. unfold test_code, loop_test.
      eapply go_trans; [apply (w2_t cf ths r n Hl Hd [o0; o0; o0; o0]); lr; reflexivity|]. apply go_refl.
    Qed.

    (** A turn of the loop: the results of the implementation. *)
    Definition saved (c : C) f d (s : shared) : shared := add_log (set_model s (model_save (sh_model s) (Some c) f d)) (EvSaved (Some c) f).
    Notation orc x := (mkOracle (None, None) x None 0%Z).
    Definition turn_state (x : iter_result C) d (s : shared) : shared := match x with IterRes (Some c) f None => saved c f d s | _ => s end.
    Definition turn_thread (x : iter_result C) l : thread :=
      match x with
      | IterRes c f e => runner_at test_code (set_err (set_figs (set_cent (set_got l false) c) f) (option_map ErrImpl e))
      | IterPanic m => mkThread KRunner recover_code (set_panic (set_got l false) (Some (ErrImpl m))) None
      end.
    Lemma turned x d s l ln : idle [] s ->
      go (mkState s (V (runner_at select_code l) (nrest ln))) (mkState (turn_state x d s) (V (turn_thread x l) (nrest ln))).
    Proof.
      intros H. cut (exists u : unit, go (mkState s (V (runner_at select_code l) (nrest ln))) (mkState (turn_state x d s) (V (turn_thread x l) (nrest ln)))); [intros [_ X]; exact X|].
      opened. unfold runner_at, select_code, loop_body, turn_state, turn_thread, saved. cbn [app]. try_. st [o0; o0; o0].
      destruct x as [[c|] f [e|]|m].
      - eapply go_ex; [apply (w2_t cf ths r n Hl Hd [orc (IterRes (Some c) f (Some e))]); lr; cbn [o_iter]; reflexivity|]. st [o0]. exists tt. apply go_refl.
      - eapply go_ex; [apply (w2_t cf ths r n Hl Hd [orc (IterRes (Some c) f None)]); lr; cbn [o_iter]; reflexivity|]. st [o0; o0; o0; at_time d; o0]. exists tt. apply go_refl.
      - eapply go_ex; [apply (w2_t cf ths r n Hl Hd [orc (IterRes None f (Some e))]); lr; cbn [o_iter]; reflexivity|]. st [o0]. exists tt. apply go_refl.
      - eapply go_ex; [apply (w2_t cf ths r n Hl Hd [orc (IterRes None f None)]); lr; cbn [o_iter]; reflexivity|]. st [o0]. exists tt. apply go_refl.
      - eapply go_ex; [apply (w2_t cf ths r n Hl Hd [orc (IterPanic m)]); lr; cbn [o_iter]; reflexivity|]. exists tt. apply go_refl.
    Qed.
  End Alone.
End Run.
