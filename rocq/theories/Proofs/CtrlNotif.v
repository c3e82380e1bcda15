(** Every status set is notified, once, in the order in which its goroutine set them. *)
From Coq Require Import List ZArith Bool Lia.
From Verif Require Import Base.Go Base.Num Model.Status Model.Finish Model.CtrlLang Model.CtrlCode
  Spec.CtrlSpec Proofs.GoLemmas.
Import ListNotations.
Local Open Scope list_scope.

Definition simple (i : instr) : bool :=
  match i with
  | ISetStatus _ | ISend FldNotif _ | ISending _ _ | ITryAck _ | ISpawn _ _ | IIf _ _ _ | ILoop _ _
  | IDefer _ | IStartTimer _ => false
  | _ => true
  end.

(** Each status set is followed by the send of its notification, and there is no other one. *)
Inductive paired : list instr -> Prop :=
| pd_nil : paired []
| pd_set e k : paired k -> paired (ISetStatus e :: ISend FldNotif e :: k)
| pd_set_u e k : paired k -> paired (ISetStatus e :: IUnlock MStatus :: ISend FldNotif e :: k)
| pd_simple i k : simple i = true -> paired k -> paired (i :: k)
| pd_sending c v k : c <> ChNotif -> paired k -> paired (ISending c v :: k)
| pd_try p k : paired p -> paired k -> paired (ITryAck p :: k)
| pd_spawn kd p k : paired p -> paired k -> paired (ISpawn kd p :: k)
| pd_if c p q k : paired p -> paired q -> paired k -> paired (IIf c p q :: k)
| pd_loop c p k : paired p -> paired k -> paired (ILoop c p :: k)
| pd_defer p k : paired p -> paired k -> paired (IDefer p :: k)
| pd_timer p k : paired p -> paired k -> paired (IStartTimer p :: k).

Lemma paired_app p q : paired p -> paired q -> paired (p ++ q).
Proof. intros H Hq. induction H; cbn [app]; try (constructor; assumption). exact Hq. Qed.

Ltac pair := repeat first [assumption | apply paired_app
  | match goal with
    | |- paired [] => constructor
    | |- paired (ISetStatus _ :: ISend _ _ :: _) => apply pd_set
    | |- paired (ISetStatus _ :: IUnlock _ :: _) => apply pd_set_u
    | |- paired (ITryAck _ :: _) => apply pd_try
    | |- paired (ISpawn _ _ :: _) => apply pd_spawn
    | |- paired (IIf _ _ _ :: _) => apply pd_if
    | |- paired (ILoop _ _ :: _) => apply pd_loop
    | |- paired (IDefer _ :: _) => apply pd_defer
    | |- paired (IStartTimer _ :: _) => apply pd_timer
    | |- paired (_ :: _) => apply pd_simple; [reflexivity|]
    end].

Lemma paired_status : paired status_code.
Proof. unfold status_code. pair. Qed.
Lemma paired_model : paired model_code.
Proof. unfold model_code. pair. Qed.
Lemma paired_interrupt e : paired (interrupt_code e).
Proof. unfold interrupt_code, set_status, send_status. cbn [app]. pair. Qed.
Lemma paired_wait f d : paired (wait_call f d).
Proof. unfold wait_call, wait_code, wait_poll, status_code, model_code. cbn [app]. pair. Qed.
Lemma paired_pause : paired pause_call.
Proof. unfold pause_call, send_status. cbn [app]. pair. Qed.
Lemma paired_recover : paired recover_code.
Proof. unfold recover_code, set_status. cbn [app]. pair. Qed.
Lemma paired_run : paired run_code.
Proof.
  pose proof paired_recover.
  unfold run_code, loop_test, loop_body, run_end, receive_status, set_status, send_ack, model_code. cbn [app]. 
  repeat (pair; cbn [app]).
Qed.
Lemma paired_play_ready : paired play_ready.
Proof.
  pose proof paired_run. pose proof (paired_interrupt (Some ErrTimeout)).
  unfold play_ready, send_status, model_code, timer_code. cbn [app]. pair.
Qed.
Lemma paired_loop u : (forall p, u = Some p -> paired p) -> paired (notification_loop u).
Proof.
  intros H. unfold notification_loop, model_code. cbn [app]. pair.
  destruct u as [p|]; [apply H; reflexivity|constructor].
Qed.

Section Codes.
  Variable cf : cconf.
  Hypothesis Hu : forall p, cf_notifier cf = Some p -> paired p.

  Lemma paired_init : paired (init_code cf).
  Proof.
    pose proof (paired_loop _ Hu).
    unfold init_code, init_common, set_status, model_code. cbn [app]. pair.
  Qed.
  Lemma paired_play : paired (play_call cf).
  Proof.
    pose proof paired_init. pose proof paired_play_ready.
    unfold play_call, play_init, send_status. cbn [app]. pair.
  Qed.
  Lemma paired_call c : paired (call_code cf c).
  Proof.
    pose proof paired_init. pose proof paired_play. pose proof (paired_interrupt None).
    destruct c; cbn [call_code].
    - unfold init_call. pair.
    - assumption.
    - apply paired_pause.
    - assumption.
    - apply paired_wait.
    - unfold push_call, status_code. cbn [app]. pair.
    - unfold batch_call, stop_call. pose proof (paired_wait None 0). pair.
    - apply paired_status.
    - apply paired_model.
  Qed.
  Lemma paired_client cs : paired (client_code cf cs).
  Proof.
    induction cs as [|c cs IH]; [constructor|]. cbn. pose proof (paired_call c). pair.
  Qed.
End Codes.

Lemma plain_paired cf : plain_notifier cf -> forall p, cf_notifier cf = Some p -> paired p.
Proof.
  unfold plain_notifier. intros H p E. rewrite E in H. destruct H as (cs & H & ->). clear E.
  induction H as [|c cs Hc H IH]; [constructor|]. cbn [flat_map]. apply paired_app; [|exact IH].
  destruct c; cbn in Hc; try contradiction; cbn [call_code].
  - apply paired_pause.
  - apply paired_interrupt.
  - apply paired_wait.
  - apply paired_status.
  - apply paired_model.
Qed.

Section Notif.
  Context {C : Type}.
  Variable cf : cconf.
  Notation state := (state C).
  Notation thread := (thread C).

  (** The code of a goroutine: paired, or paired after a notification to send. *)
  Definition code_ok (code : list instr) : Prop :=
    paired code \/ (exists e k, code = ISend FldNotif e :: k /\ paired k) \/
    (exists e k, code = IUnlock MStatus :: ISend FldNotif e :: k /\ paired k) \/
    (exists v k, code = ISending ChNotif v :: k /\ paired k).

  Definition thr_ok (log : list (event C)) (t : nat) (th : thread) : Prop :=
    code_ok (th_code th) /\ (forall d, th_defer th = Some d -> paired d) /\
    set_by t log = notified_by t log ++ to_notify th.

  Lemma to_notify_paired kd code l d : paired code -> to_notify (mkThread kd code l d : thread) = [].
  Proof.
    intros H. unfold to_notify. cbn [th_code th_loc]. destruct H; try reflexivity.
    - destruct i; try reflexivity; try discriminate.
      + destruct m; [|reflexivity]. inversion H0; subst; try reflexivity.
        destruct i; try reflexivity. destruct f; [reflexivity|reflexivity|discriminate].
      + destruct f; [reflexivity|reflexivity|discriminate].
    - destruct c; try reflexivity. congruence.
  Qed.

  Lemma set_by_cons t e (log : list (event C)) :
    set_by t (e :: log) = set_by t log ++ match e with EvStatus u s => if Nat.eqb t u then [s] else [] | _ => [] end.
  Proof. unfold set_by. cbn. rewrite flat_map_app. cbn. rewrite app_nil_r. reflexivity. Qed.
  Lemma notified_by_cons t e (log : list (event C)) :
    notified_by t (e :: log) = notified_by t log ++ match e with EvNotified u s => if Nat.eqb t u then [s] else [] | _ => [] end.
  Proof. unfold notified_by. cbn. rewrite flat_map_app. cbn. rewrite app_nil_r. reflexivity. Qed.

  Definition notif_inv (st : state) : Prop :=
    (forall t th, nth_error (s_th st) t = Some th -> thr_ok (sh_log (s_sh st)) t th) /\
    (forall t, List.length (s_th st) <= t ->
       set_by t (sh_log (s_sh st)) = [] /\ notified_by t (sh_log (s_sh st)) = []).

  (** Events that are neither a status nor a notification. *)
  Definition other_event (e : event C) : Prop :=
    match e with EvStatus _ _ | EvNotified _ _ => False | _ => True end.
  Definition same_hist (l l' : list (event C)) : Prop :=
    forall t, set_by t l' = set_by t l /\ notified_by t l' = notified_by t l.
  Lemma same_hist_refl l : same_hist l l.
  Proof. split; reflexivity. Qed.
  Lemma same_hist_cons e l : other_event e -> same_hist l (e :: l).
  Proof.
    intros H t. rewrite set_by_cons, notified_by_cons. destruct e; try contradiction; rewrite !app_nil_r; auto.
  Qed.

  Lemma notif_upd s s' ths t th th' : notif_inv (mkState s ths) -> nth_error ths t = Some th ->
    same_hist (sh_log s) (sh_log s') ->
    code_ok (th_code th') -> (forall d, th_defer th' = Some d -> paired d) -> to_notify th' = to_notify th ->
    notif_inv (mkState s' (upd ths t th')).
  Proof.
    intros [H1 H2] N S K D E. split; cbn [s_sh s_th] in *.
    - intros u thu Hu. rewrite nth_error_upd in Hu.
      destruct (S u) as [S1 S2]. unfold thr_ok. rewrite S1, S2.
      destruct (Nat.eqb_spec u t) as [->|Ne]; cbn [andb] in Hu.
      + destruct (Nat.ltb_spec t (List.length ths)); [|apply H1; exact Hu].
        injection Hu as <-. destruct (H1 t th N) as (_ & _ & H3). rewrite E. auto.
      + apply H1. exact Hu.
    - intros u. rewrite upd_length. intros Hu. destruct (S u) as [S1 S2]. rewrite S1, S2. auto.
  Qed.

  Lemma notif_spawn s ths th : notif_inv (mkState s ths) -> paired (th_code th) -> th_defer th = None ->
    notif_inv (mkState s (ths ++ [th])).
  Proof.
    intros [H1 H2] P D. split; cbn [s_sh s_th] in *.
    - intros u thu Hu. destruct (Nat.lt_ge_cases u (List.length ths)) as [Lt|Ge].
      + rewrite nth_error_app1 in Hu by exact Lt. auto.
      + rewrite nth_error_app2 in Hu by exact Ge.
        destruct (u - List.length ths) as [|n] eqn:E; cbn in Hu; [|destruct n; discriminate].
        injection Hu as <-. split; [left; exact P|]. split; [congruence|].
        destruct (H2 u Ge) as [-> ->]. destruct th. cbn in *. rewrite to_notify_paired by exact P. reflexivity.
    - intros u. rewrite app_length. cbn. intros Hu. apply H2. lia.
  Qed.

  Lemma paired_tail i k : simple i = true -> paired (i :: k) -> paired k.
  Proof. intros H P. inversion P; subst; try discriminate; assumption. Qed.

  Lemma step_notif t o (st st' : state) : notif_inv st -> step cf t o st = Some st' -> notif_inv st'.
  Proof.
    intros I E. unfold step in E. destruct (nth_error (s_th st) t) as [th|] eqn:N; [|discriminate].
    destruct (th_code th) as [|i k] eqn:Ec; [discriminate|].
    destruct st as [s ths]. cbn [s_sh s_th] in *.
    pose proof (proj1 I t th N) as (K & D & Q). cbn [s_sh s_th] in *. rewrite Ec in K.
    destruct K as [K|[(e & k0 & Ek & K)|[(e & k0 & Ek & K)|(v & k0 & Ek & K)]]].
    - (* paired *)
      assert (Z : to_notify th = []).
      { destruct th as [kd c l d]. cbn in Ec. subst c. apply to_notify_paired. exact K. }
      assert (Hgo : forall s' code l, same_hist (sh_log s) (sh_log s') -> paired code ->
                 notif_inv (go_on t th code l s' ths)).
      { intros s' code l S P. unfold go_on. eapply notif_upd; [exact I|exact N|exact S|left; exact P|exact D|].
        rewrite Z. apply to_notify_paired. exact P. }
      assert (Hpanic : forall n, notif_inv (do_panic t n th (mkState s ths))).
      { intros n. unfold do_panic. destruct (th_defer th) as [d|] eqn:Ed; cbn [s_sh s_th].
        - eapply notif_upd; [exact I|exact N|apply same_hist_refl|left; apply D; reflexivity|discriminate|].
          rewrite Z. apply to_notify_paired. apply D. reflexivity.
        - eapply notif_upd; [exact I|exact N|apply same_hist_refl|left; constructor|discriminate|].
          rewrite Z. apply to_notify_paired. constructor. }
      assert (Hcrash : notif_inv (mkState (crash s) ths)) by exact I.
      assert (Hl : forall m x, same_hist (sh_log s) (sh_log (set_lock m x s))).
      { intros m x. destruct m; apply same_hist_refl. }
      destruct i;
        try (assert (Pk : paired k) by (eapply paired_tail; [|exact K]; reflexivity));
        repeat match type of E with
               | match ?x with _ => _ end = Some _ => destruct x eqn:?; try discriminate
               | (if ?x then _ else _) = Some _ => destruct x eqn:?; try discriminate
               end;
        try (injection E as <-); try exact Hcrash; try apply Hpanic;
        try solve [apply Hgo; [first [apply same_hist_refl|apply Hl]|first [exact Pk|apply pd_simple; [reflexivity|exact Pk]]]].
      + (* ISetStatus *)
        unfold go_on.
        assert (Hk : exists k0, (k = ISend FldNotif e :: k0 \/ k = IUnlock MStatus :: ISend FldNotif e :: k0) /\ paired k0).
        { inversion K; subst; try discriminate; eauto. }
        destruct Hk as (k0 & Hk & P0). destruct I as [H1 H2]. cbn [s_sh s_th] in *. split; cbn [s_sh s_th].
        * intros u thu Hu. rewrite nth_error_upd in Hu. unfold thr_ok.
          cbn [add_log set_status_ sh_log]. rewrite set_by_cons, notified_by_cons, app_nil_r.
          destruct (Nat.eqb_spec u t) as [->|Ne]; cbn [andb] in Hu.
          -- destruct (Nat.ltb_spec t (List.length ths)) as [Lt|Ge]; [|apply nth_error_None in Ge; congruence].
             injection Hu as <-. cbn [th_code th_defer]. split; [|split; [exact D|]].
             ++ right. destruct Hk as [->| ->]; [left|right; left]; eauto.
             ++ rewrite Q, Z, app_nil_r. unfold to_notify. cbn [th_code th_loc].
                destruct Hk as [->| ->]; reflexivity.
          -- rewrite app_nil_r. apply H1. exact Hu.
        * intros u. rewrite upd_length. intros Hu. cbn [add_log set_status_ sh_log].
          rewrite set_by_cons, notified_by_cons, app_nil_r. destruct (H2 u Hu) as [-> ->].
          destruct (Nat.eqb_spec u t) as [->|Ne]; [|auto].
          apply nth_error_None in Hu. congruence.
      + (* IModel *)
        apply Hgo; [|exact Pk]. destruct op; try apply same_hist_refl; apply same_hist_cons; exact Logic.I.
      + (* ISend *)
        destruct f; cbn in Heqo0; try discriminate.
        * injection Heqo0 as <-. apply Hgo; [apply same_hist_refl|]. apply pd_sending; [discriminate|].
          inversion K; subst; try discriminate; assumption.
        * injection Heqo0 as <-. apply Hgo; [apply same_hist_refl|]. apply pd_sending; [discriminate|].
          inversion K; subst; try discriminate; assumption.
        * inversion K; subst; discriminate.
      + (* ITryAck closed *)
        apply Hgo; [apply same_hist_refl|]. inversion K; subst; try discriminate; assumption.
      + apply Hgo; [apply same_hist_refl|]. inversion K; subst; try discriminate; apply paired_app; assumption.
      + (* ISpawn *)
        assert (P2 : paired p /\ paired k) by (inversion K; subst; try discriminate; auto). destruct P2 as [Pp Pk].
        unfold go_on. eapply notif_upd with (s := s) (th := th);
          [apply notif_spawn; [exact I|exact Pp|reflexivity]| |apply same_hist_refl|left; exact Pk|exact D|].
        * rewrite nth_error_app1; [exact N|]. apply nth_error_Some. congruence.
        * rewrite Z. apply to_notify_paired. exact Pk.
      + (* IIf *)
        apply Hgo; [apply same_hist_refl|]. inversion K; subst; try discriminate.
        destruct (eval_cond cf c s (th_loc th)); apply paired_app; assumption.
      + (* ILoop *)
        apply Hgo; [apply same_hist_refl|]. inversion K; subst; try discriminate.
        destruct (eval_cond cf c s (th_loc th)); [apply paired_app; assumption|assumption].
      + (* IDefer *)
        assert (P2 : paired p /\ paired k) by (inversion K; subst; try discriminate; auto). destruct P2 as [Pp Pk].
        eapply notif_upd; [exact I|exact N|apply same_hist_refl|left; exact Pk| |].
        * cbn. intros d [= <-]. exact Pp.
        * rewrite Z. apply to_notify_paired. exact Pk.
      + (* IEndDefer *)
        eapply notif_upd; [exact I|exact N|apply same_hist_refl|left; exact Pk|discriminate|].
        rewrite Z. apply to_notify_paired. exact Pk.
      + (* IStartTimer *)
        assert (P2 : paired p /\ paired k) by (inversion K; subst; try discriminate; auto). destruct P2 as [Pp Pk].
        unfold go_on. eapply notif_upd with (s := s) (th := th);
          [apply notif_spawn; [exact I|exact Pp|reflexivity]| |apply same_hist_refl|left; exact Pk|exact D|].
        * rewrite nth_error_app1; [exact N|]. apply nth_error_Some. congruence.
        * rewrite Z. apply to_notify_paired. exact Pk.
      + (* IReturn *)
        apply Hgo; [apply same_hist_cons; exact Logic.I|exact Pk].
    - (* ISend FldNotif *)
      injection Ek as -> ->. cbn [channel_of] in E. destruct (sh_notif s); [|discriminate]. cbn in E.
      injection E as <-. unfold go_on.
      eapply notif_upd; [exact I|exact N|apply same_hist_refl| |exact D|].
      + right. right. right. cbn. eauto.
      + unfold to_notify. cbn. rewrite Ec. reflexivity.
    - (* IUnlock *)
      injection Ek as -> ->. cbn in E.
      destruct (rw_holder (sh_lock_s s)); injection E as <-; [exact I|..];
        (unfold go_on; eapply notif_upd; [exact I|exact N|apply same_hist_refl| |exact D|];
         [right; left; cbn; eauto|unfold to_notify; cbn; rewrite Ec; reflexivity]).
    - injection Ek as -> ->. cbn in E. discriminate.
  Qed.

  Lemma comm_notif t r (st st' : state) : notif_inv st -> comm t r st = Some st' -> notif_inv st'.
  Proof.
    intros I. unfold comm. destruct (Nat.eqb_spec t r) as [|Ne]; [discriminate|].
    destruct (nth_error (s_th st) t) as [th|] eqn:N; [|discriminate].
    destruct (nth_error (s_th st) r) as [thr|] eqn:Nr; [|discriminate].
    destruct (th_code th) as [|i k] eqn:Ec; [discriminate|]. destruct i; try discriminate.
    destruct (closed c (s_sh st)) eqn:El; [discriminate|].
    destruct (receiver c (s_sh st) (th_code thr)) as [kr|] eqn:Er; [|discriminate].
    intros E. injection E as <-. destruct st as [s ths]. cbn [s_sh s_th] in *.
    pose proof (proj1 I t th N) as (K & D & Q). cbn [s_sh s_th] in *. rewrite Ec in K.
    assert (Pk : paired k).
    { destruct K as [K|[(e & k0 & Ek & K)|[(e & k0 & Ek & K)|(v' & k0 & Ek & K)]]]; try discriminate.
      - inversion K; subst; try discriminate; assumption.
      - injection Ek as _ _ ->. exact K. }
    pose proof (proj1 I r thr Nr) as (Kr & Dr & Qr). cbn [s_sh s_th] in *.
    assert (Pr : paired (th_code thr) /\ paired kr).
    { destruct (th_code thr) as [|j kk] eqn:Ecr; [discriminate|].
      destruct Kr as [Kr|[(e & k0 & Ek & Kr)|[(e & k0 & Ek & Kr)|(v' & k0 & Ek & Kr)]]];
        try (injection Ek as -> ->; discriminate).
      split; [exact Kr|].
      destruct j; cbn [receiver] in Er; try discriminate.
      - destruct (chan_eqb c c0); [|discriminate]. injection Er as <-. (eapply paired_tail; [|exact Kr]; reflexivity).
      - destruct (chan_eqb c ChStatus); [|discriminate]. injection Er as <-. (eapply paired_tail; [|exact Kr]; reflexivity).
      - destruct (chan_eqb c (ChAck (sh_ack s))); [|discriminate]. injection Er as <-.
        inversion Kr; subst; try discriminate; assumption. }
    destruct Pr as [Pc Pr].
    assert (Zr : to_notify thr = []) by (destruct thr; apply to_notify_paired; exact Pc).
    set (th1 := mkThread (th_kind th) k (th_loc th) (th_defer th)).
    set (thr1 := mkThread (th_kind thr) kr (deliver c v (th_loc thr)) (th_defer thr)).
    assert (N1 : nth_error (upd ths t th1) r = Some thr).
    { rewrite nth_error_upd. destruct (Nat.eqb_spec r t); [congruence|]. exact Nr. }
    assert (Z1 : to_notify th1 = []) by (apply to_notify_paired; exact Pk).
    assert (I1 : notif_inv (mkState (deliver_log t c v s) (upd ths t th1))).
    { assert (Hnc : c = ChNotif \/ c <> ChNotif) by (destruct c; auto; right; discriminate).
      destruct Hnc as [->|Hc].
      - cbn [deliver_log]. destruct I as [H1 H2]. cbn [s_sh s_th] in *. split; cbn [s_sh s_th].
        + intros u thu Hu. rewrite nth_error_upd in Hu. unfold thr_ok.
          cbn [add_log sh_log]. rewrite set_by_cons, notified_by_cons, app_nil_r.
          destruct (Nat.eqb_spec u t) as [->|Nu]; cbn [andb] in Hu.
          * destruct (Nat.ltb_spec t (List.length ths)) as [Lt|Ge]; [|apply nth_error_None in Ge; congruence].
            injection Hu as <-. split; [left; exact Pk|]. split; [exact D|].
            rewrite Z1, app_nil_r, Q. unfold to_notify. rewrite Ec. reflexivity.
          * rewrite app_nil_r. apply H1. exact Hu.
        + intros u. rewrite upd_length. intros Hu. cbn [add_log sh_log].
          rewrite set_by_cons, notified_by_cons, app_nil_r. destruct (H2 u Hu) as [-> ->].
          destruct (Nat.eqb_spec u t) as [->|Nu]; [|auto]. apply nth_error_None in Hu. congruence.
      - assert (deliver_log t c v s = s) as -> by (destruct c; [reflexivity|congruence|reflexivity]).
        eapply notif_upd; [exact I|exact N|apply same_hist_refl|left; exact Pk|exact D|].
        rewrite Z1. unfold to_notify. rewrite Ec. destruct c; congruence. }
    eapply notif_upd; [exact I1|exact N1|apply same_hist_refl|left; exact Pr|exact Dr|].
    rewrite Zr. apply to_notify_paired. exact Pr.
  Qed.

  Lemma exec_notif ms (st st' : state) : notif_inv st -> exec cf ms st = Some st' -> notif_inv st'.
  Proof.
    revert st. induction ms as [|m ms IH]; cbn; intros st I E; [congruence|].
    destruct (do_move cf m st) as [st1|] eqn:E1; [|discriminate].
    eapply IH; [|exact E]. unfold do_move in E1. destruct (sh_crashed (s_sh st)); [discriminate|].
    destruct m; [eapply step_notif|eapply comm_notif]; eauto.
  Qed.

  Lemma notified_in_order : forall css (st : state), plain_notifier cf -> reachable cf css st ->
    forall t th, nth_error (s_th st) t = Some th ->
      set_by t (sh_log (s_sh st)) = notified_by t (sh_log (s_sh st)) ++ to_notify th.
  Proof.
    intros css st P (ms & E) t th N.
    assert (I0 : notif_inv (@start C (map (client_code cf) css))).
    { split; cbn [s_sh s_th start].
      - intros u thu Hu. rewrite nth_error_map in Hu.
        destruct (nth_error (map (client_code cf) css) u) as [p|] eqn:Ep; [|discriminate].
        rewrite nth_error_map in Ep. destruct (nth_error css u) as [cs|]; [|discriminate].
        injection Ep as <-. injection Hu as <-.
        pose proof (paired_client cf (plain_paired cf P) cs) as Pc.
        split; [left; exact Pc|]. split; [discriminate|]. unfold client_thread. rewrite to_notify_paired by exact Pc. reflexivity.
      - intros u _. split; reflexivity. }
    exact (proj2 (proj2 (proj1 (exec_notif ms _ _ I0 E) t th N))).
  Qed.
End Notif.
