(** The order of tests, iterations, saves and status changes of a goroutine, in every interleaving. *)
From Coq Require Import List ZArith Bool Lia.
From Verif Require Import Base.Go Base.Num Model.Status Model.Finish Model.CtrlLang Model.CtrlCode
  Spec.CtrlSpec Spec.CtrlIterSpec Proofs.GoLemmas Proofs.CtrlMain.
Import ListNotations.
Local Open Scope list_scope.

(** What is known of a runner at a statement: the loop flag, whether err and centroids are nil, the
    last event, and whether a deferred call is registered. *)
Inductive phase : Type := PNone | PTest | PRes | PPanic.
Definition phase_eqb (a b : phase) : bool :=
  match a, b with PNone, PNone | PTest, PTest | PRes, PRes | PPanic, PPanic => true | _, _ => false end.
Record know : Type := mkKnow { k_go : bool; k_err : bool; k_cent : bool; k_ph : phase; k_def : bool }.
Definition with_ph (q : know) (p : phase) : know := mkKnow (k_go q) (k_err q) (k_cent q) p (k_def q).
Definition with_go (q : know) (g : bool) : know := mkKnow g (k_err q) (k_cent q) (k_ph q) (k_def q).
Definition with_def (q : know) (d : bool) : know := mkKnow (k_go q) (k_err q) (k_cent q) (k_ph q) d.

Definition k_eqb (a b : know) : bool :=
  eqb (k_go a) (k_go b) && eqb (k_err a) (k_err b) && eqb (k_cent a) (k_cent b) &&
  phase_eqb (k_ph a) (k_ph b) && eqb (k_def a) (k_def b).
Definition k_in (a : know) (l : list know) : bool := existsb (k_eqb a) l.

Definition bools : list bool := [true; false].
Definition all_know (phs : list phase) (d : bool) : list know :=
  flat_map (fun g => flat_map (fun e => flat_map (fun c => map (fun p => mkKnow g e c p d) phs) bools) bools) bools.

Definition k_due (q : know) : bool :=
  match k_ph q with PPanic => true | PRes => k_err q || k_cent q | _ => false end.

(** At the head of the loop of the run. *)
Definition loop_know (d : bool) : list know :=
  filter (fun q => if k_go q then phase_eqb (k_ph q) PTest
                   else negb (phase_eqb (k_ph q) PRes) || k_err q || negb (k_cent q))
    (all_know [PNone; PTest; PRes] d).
(** Where a deferred call begins after a panic. *)
Definition panic_know : list know := all_know [PNone; PPanic] false.

Definition obind2 {A B} (o : option (list A)) (f : A -> option (list B)) : option (list B) :=
  match o with
  | None => None
  | Some l => fold_right (fun a r => match f a, r with Some x, Some y => Some (x ++ y) | _, _ => None end) (Some []) l
  end.
Definition union2 {A} (a b : option (list A)) : option (list A) :=
  match a, b with Some x, Some y => Some (x ++ y) | _, _ => None end.

Definition run_list (ci : instr -> know -> option (list know)) : list instr -> know -> option (list know) :=
  fix run_list (p : list instr) (q : know) : option (list know) :=
    match p with
    | [] => Some [q]
    | i :: p' => obind2 (ci i q) (run_list p')
    end.

Definition all_ok (r : option (list know)) (f : know -> bool) : bool :=
  match r with None => false | Some l => forallb f l end.

Fixpoint run_i (i : instr) (q : know) {struct i} : option (list know) :=
  match i with
  | IGet g =>
      match g with
      | GStatus | GNewZero | GModel | GDeadline _ => Some [q]
      | GTest0 => Some [with_go q (negb (k_err q))]
      | GTest1 => Some [q; with_go q false]
      | GTest2 => if k_go q && negb (k_due q) then Some [with_ph q PTest; with_ph (with_go q false) PNone] else None
      | _ => None
      end
  | IModel MSave =>
      if phase_eqb (k_ph q) PRes && negb (k_err q) && k_cent q then Some [with_ph q PNone] else None
  | ISetStatus e =>
      match k_ph q with
      | PNone | PTest => Some [with_ph q PNone]
      | PRes =>
          if k_err q then match e with XError SrcErr => Some [with_ph q PNone] | _ => None end
          else if k_cent q then None else Some [with_ph q PNone]
      | PPanic => match e with XError SrcPanic => Some [with_ph q PNone] | _ => None end
      end
  | ISend _ _ | ISending _ _ | ICloseAck => if k_due q then None else Some [q]
  | IImplIterate =>
      if phase_eqb (k_ph q) PTest && k_def q
      then Some (flat_map (fun e => map (fun c => mkKnow (k_go q) e c PRes (k_def q)) bools) bools)
      else None
  | IImplInit | IImplPush | ISpawn _ _ | IStartTimer _ => None
  | IIf c p r =>
      match c with
      | CErrNil => run_list run_i (if k_err q then r else p) q
      | CGo => run_list run_i (if k_go q then p else r) q
      | CSaved => run_list run_i (if negb (k_err q) && k_cent q then p else r) q
      | CPanic =>
          if phase_eqb (k_ph q) PPanic then run_list run_i p q
          else union2 (run_list run_i p q) (run_list run_i r q)
      | _ => union2 (run_list run_i p q) (run_list run_i r q)
      end
  | ILoop CGo p =>
      if k_in q (loop_know (k_def q)) &&
         forallb (fun q' => negb (k_go q') || all_ok (run_list run_i p q') (fun q'' => k_in q'' (loop_know (k_def q))))
           (loop_know (k_def q))
      then Some (filter (fun q' => negb (k_go q')) (loop_know (k_def q)))
      else None
  | ILoop _ _ => None
  | ITryAck p => union2 (Some [q]) (run_list run_i p q)
  | IDefer p =>
      if forallb (fun q' => all_ok (run_list run_i p q') (fun q'' => negb (k_due q''))) panic_know
      then Some [with_def q true] else None
  | IEndDefer => Some [with_def q false]
  | _ => Some [q]
  end.
Definition run (p : list instr) (q : know) : option (list know) := run_list run_i p q.
Definition know0 : know := mkKnow false false false PNone false.
Definition runner_ok (p : list instr) : bool := all_ok (run p know0) (fun q => negb (k_due q)).

Lemma run_code_ok : runner_ok run_code = true.
Proof. vm_compute. reflexivity. Qed.

(** Code of the other goroutines: it neither iterates nor saves, and starts runners only. *)
Fixpoint quiet_i (i : instr) : bool :=
  match i with
  | IImplIterate | IModel MSave | IGet GTest2 | IDefer _ | IEndDefer => false
  | ITryAck p | ILoop _ p | IStartTimer p => forallb quiet_i p
  | IIf _ p q => forallb quiet_i p && forallb quiet_i q
  | ISpawn KRunner p => runner_ok p
  | ISpawn _ p => forallb quiet_i p
  | _ => true
  end.
Definition quiet (p : list instr) : bool := forallb quiet_i p.

Lemma quiet_app p q : quiet (p ++ q) = quiet p && quiet q.
Proof. apply forallb_app. Qed.

Lemma obind2_some {A B} (l : list A) (f : A -> option (list B)) r : obind2 (Some l) f = Some r ->
  forall a, In a l -> exists x, f a = Some x /\ incl x r.
Proof.
  revert r. induction l as [|b l IH]; cbn; intros r E a Ha; [destruct Ha|].
  destruct (f b) as [x|] eqn:Eb; [|discriminate].
  fold (obind2 (Some l) f) in E. change (match obind2 (Some l) f with Some y => Some (x ++ y) | None => None end = Some r) in E.
  destruct (obind2 (Some l) f) as [y|]; [|discriminate]. injection E as <-.
  destruct Ha as [->|Ha].
  - exists x. split; [exact Eb|]. apply incl_appl, incl_refl.
  - destruct (IH y eq_refl a Ha) as (x' & E1 & E2). exists x'. split; [exact E1|]. apply incl_appr. exact E2.
Qed.

Lemma run_one i q l : run_i i q = Some l -> run [i] q = Some l.
Proof.
  intros E. unfold run. cbn [run_list]. rewrite E. clear E. induction l as [|a l IH]; [reflexivity|].
  cbn in *. rewrite IH. reflexivity.
Qed.

Lemma union2_some {A} (a b : option (list A)) r : union2 a b = Some r ->
  exists x y, a = Some x /\ b = Some y /\ r = x ++ y.
Proof. destruct a, b; cbn; try discriminate. intros [= <-]. eauto. Qed.

Lemma k_eqb_eq a b : k_eqb a b = true -> a = b.
Proof.
  destruct a as [g e c p d], b as [g' e' c' p' d']. unfold k_eqb. cbn.
  rewrite !andb_true_iff, !eqb_true_iff. intros ((((-> & ->) & ->) & H) & ->).
  destruct p, p'; cbn in H; try discriminate; reflexivity.
Qed.
Lemma k_in_In a l : k_in a l = true -> In a l.
Proof.
  unfold k_in. rewrite existsb_exists. intros (b & H & E). apply k_eqb_eq in E. subst. exact H.
Qed.

Inductive typed : list instr -> know -> Prop :=
| ty_nil q : k_due q = false -> typed [] q
| ty_run p k q l : run p q = Some l -> (forall q', In q' l -> typed k q') -> typed (p ++ k) q.

Lemma typed_inv c q : typed c q ->
  match c with
  | [] => k_due q = false
  | i :: k => exists l, run_i i q = Some l /\ forall q', In q' l -> typed k q'
  end.
Proof.
  induction 1 as [q H|p k q l Hr H IH]; [exact H|].
  destruct p as [|i p]; cbn in Hr.
  - injection Hr as <-. exact (IH q (or_introl eq_refl)).
  - cbn. destruct (run_i i q) as [l1|] eqn:E; [|discriminate].
    exists l1. split; [reflexivity|]. intros q1 H1.
    destruct (obind2_some _ _ _ Hr q1 H1) as (l2 & E2 & I2).
    apply (ty_run p k q1 l2 E2). intros q2 H2. apply H, I2, H2.
Qed.

Lemma typed_ok p q f : all_ok (run p q) f = true -> (forall q', f q' = true -> k_due q' = false) -> typed p q.
Proof.
  intros H Hf. rewrite <- (app_nil_r p). unfold all_ok in H. destruct (run p q) as [l|] eqn:E; [|discriminate].
  apply (ty_run p [] q l E). intros q' Hq. apply ty_nil, Hf. rewrite forallb_forall in H. exact (H q' Hq).
Qed.

Lemma upd_same {A} (l : list A) n a : nth_error l n = Some a -> upd l n a = l.
Proof.
  revert n. induction l as [|b l IH]; intros [|n]; cbn; try discriminate; [congruence|].
  intros H. rewrite (IH n H). reflexivity.
Qed.
Lemma upd_app {A} (l m : list A) n a : n < length l -> upd (l ++ m) n a = upd l n a ++ m.
Proof.
  revert n. induction l as [|b l IH]; intros [|n]; cbn; intros H; try lia; [reflexivity|].
  rewrite IH by lia. reflexivity.
Qed.

Section Iter.
  Context {C : Type}.
  Variable cf : cconf.
  Notation state := (state C).
  Notation thread := (thread C).
  Notation tevent := (tevent C).

  Definition is_some {X} (o : option X) : bool := match o with Some _ => true | None => false end.
  Definition no_due (le : option tevent) : Prop := forall a, le = Some a -> ~ due a.

  Record rel (q : know) (th : thread) (le : option tevent) : Prop := mkRel {
    r_go : l_go (th_loc th) = k_go q;
    r_err : is_some (l_err (th_loc th)) = k_err q;
    r_cent : is_some (l_cent (th_loc th)) = k_cent q;
    r_def : is_some (th_defer th) = k_def q;
    r_typed : forall d, th_defer th = Some d -> forall q', In q' panic_know -> typed d q';
    r_ph : match k_ph q with
           | PNone => no_due le
           | PTest => exists m, le = Some (TTest m) /\ goes_on cf m
           | PRes => exists e, le = Some (TIter (IterRes (l_cent (th_loc th)) (l_figs (th_loc th)) e)) /\
                       l_err (th_loc th) = option_map ErrImpl e
           | PPanic => exists n, le = Some (TIter (IterPanic n)) /\ l_panic (th_loc th) = Some (ErrImpl n)
           end
  }.

  Definition tinv (th : thread) (le : option tevent) : Prop :=
    (quiet (th_code th) = true /\ th_defer th = None /\ no_due le) \/
    (th_kind th = KRunner /\ exists q, typed (th_code th) q /\ rel q th le).

  Definition next_last (le : option tevent) (evs : list tevent) : option tevent :=
    match evs with [] => le | e :: _ => Some e end.
  Definition fits (le : option tevent) (evs : list tevent) : Prop :=
    forall e, In e evs -> match le with None => may_begin e | Some a => may_follow cf a e end.

  (** The goroutine [th'] that [th] has become, and those it has started. *)
  Definition stepped (t : nat) (st st' : state) (th : thread) (le : option tevent) (evs : list tevent) : Prop :=
    exists th' new, s_th st' = upd (s_th st) t th' ++ new /\ th_kind th' = th_kind th /\
      tinv th' (next_last le evs) /\ fits le evs /\ Forall (fun x => tinv x None) new /\
      (forall r, In (TIter r) evs -> th_kind th = KRunner).

  Lemma no_due_rel q th le : rel q th le -> k_due q = false -> no_due le.
  Proof.
    intros R D. pose proof (r_ph _ _ _ R) as H. unfold k_due in D.
    destruct (k_ph q).
    - exact H.
    - destruct H as (m & -> & _). intros a [= <-]. cbn. tauto.
    - destruct H as (e & -> & He). intros a [= <-]. cbn.
      apply orb_false_iff in D. destruct D as [D1 D2].
      rewrite <- (r_err _ _ _ R), He in D1. rewrite <- (r_cent _ _ _ R) in D2.
      destruct e; cbn in D1; [discriminate|]. destruct (l_cent (th_loc th)); cbn in D2; [discriminate|].
      cbn. tauto.
    - discriminate.
  Qed.

  Ltac plain th' := exists th', []; rewrite app_nil_r; split; [reflexivity|]; split; [reflexivity|];
    split; [|split; [intros e []|split; [constructor|intros r []]]].

  (** A step of a goroutine that is not a runner. *)
  Lemma step_quiet t o (st st' : state) th le : nth_error (s_th st) t = Some th ->
    quiet (th_code th) = true -> th_defer th = None -> no_due le ->
    step cf t o st = Some st' -> stepped t st st' th le (step_event t o st).
  Proof.
    intros N Q D L E. unfold step_event. rewrite N. unfold step in E. rewrite N in E.
    assert (Lt : t < length (s_th st)) by (apply nth_error_Some; congruence).
    destruct (th_code th) as [|i k] eqn:Ec; [discriminate|].
    cbn in Q. apply andb_true_iff in Q. destruct Q as [Qi Qk]. fold (quiet k) in Qk.
    assert (Same : stepped t st (mkState (crash (s_sh st)) (s_th st)) th le []).
    { exists th, []. rewrite app_nil_r. split; [cbn; symmetry; apply upd_same; exact N|]. split; [reflexivity|].
      split; [|split; [intros e []|split; [constructor|intros r []]]].
      left. rewrite Ec. cbn. rewrite Qi. auto. }
    assert (Go : forall k' l s, quiet k' = true -> stepped t st (go_on t th k' l s (s_th st)) th le []).
    { intros k' l s Hk. plain (mkThread (th_kind th) k' l (th_defer th)). left. auto. }
    assert (Pan : forall n, stepped t st (do_panic t n th st) th le []).
    { intros n. unfold do_panic. rewrite D. plain (mkThread (th_kind th) [] (th_loc th) None). left. auto. }
    assert (New : forall k' l s x, quiet k' = true -> tinv x None ->
              stepped t st (go_on t th k' l s (s_th st ++ [x])) th le []).
    { intros k' l s x Hk Hx. exists (mkThread (th_kind th) k' l (th_defer th)), [x].
      split; [cbn; apply upd_app; exact Lt|]. split; [reflexivity|].
      split; [left; auto|]. split; [intros e []|]. split; [constructor; [exact Hx|constructor]|intros r []]. }
    assert (ND : no_due None) by (intros a; discriminate).
    destruct i; cbn in Qi; try discriminate;
      repeat match type of E with
             | match ?x with _ => _ end = Some _ => destruct x eqn:?; try discriminate
             | (if ?x then _ else _) = Some _ => destruct x eqn:?; try discriminate
             end;
      try (injection E as <-); try apply Same; try apply Pan; try (apply Go; exact Qk).
    - (* ISetStatus *)
      exists (mkThread (th_kind th) k (th_loc th) (th_defer th)), []. rewrite app_nil_r.
      split; [reflexivity|]. split; [reflexivity|]. split.
      + left. split; [exact Qk|]. split; [exact D|]. cbn. intros a [= <-]. cbn. tauto.
      + split; [|split; [constructor|intros r [H|[]]; discriminate]].
        intros x [<-|[]]. destruct le as [a|]; cbn; [|exact I]. destruct a; try exact I.
        pose proof (L _ eq_refl) as Hd. cbn in Hd. split.
        * destruct (success r) eqn:Es; [|reflexivity]. destruct Hd. left. congruence.
        * intros y Hy. destruct Hd. right. congruence.
    - (* IModel *)
      destruct op; try discriminate; apply Go; exact Qk.
    - (* IGet *)
      destruct g; try discriminate; apply Go; exact Qk.
    - (* ITryAck *)
      apply Go. rewrite quiet_app, Qk. unfold quiet. rewrite Qi. reflexivity.
    - (* ISpawn *)
      apply New; [exact Qk|]. destruct k0.
      + left. auto.
      + right. split; [reflexivity|]. exists know0. split.
        * eapply typed_ok; [exact Qi|]. intros q'. apply negb_true_iff.
        * split; try reflexivity; discriminate.
      + left. auto.
      + left. auto.
    - (* IIf *)
      apply andb_true_iff in Qi. destruct Qi as [Q1 Q2].
      apply Go. rewrite quiet_app, Qk. unfold quiet. destruct (eval_cond cf c (s_sh st) (th_loc th)); rewrite ?Q1, ?Q2; reflexivity.
    - (* ILoop *)
      apply Go. destruct (eval_cond cf c (s_sh st) (th_loc th)); [|exact Qk].
      rewrite quiet_app. cbn. rewrite Qi. unfold quiet. rewrite Qi. exact Qk.
    - (* IStartTimer *)
      apply New; [exact Qk|]. left. auto.
  Qed.

  Lemma rel_same q (th th' : thread) le : rel q th le ->
    l_go (th_loc th') = l_go (th_loc th) -> l_err (th_loc th') = l_err (th_loc th) ->
    l_cent (th_loc th') = l_cent (th_loc th) -> l_figs (th_loc th') = l_figs (th_loc th) ->
    l_panic (th_loc th') = l_panic (th_loc th) -> th_defer th' = th_defer th -> rel q th' le.
  Proof.
    intros [] E1 E2 E3 E4 E5 E6. split; rewrite ?E1, ?E2, ?E3, ?E4, ?E5, ?E6; assumption.
  Qed.

  Lemma all_know_in phs g e c p d : In p phs -> In (mkKnow g e c p d) (all_know phs d).
  Proof.
    intros H. unfold all_know. apply in_flat_map. exists g. split; [destruct g; cbn; tauto|].
    apply in_flat_map. exists e. split; [destruct e; cbn; tauto|].
    apply in_flat_map. exists c. split; [destruct c; cbn; tauto|].
    apply in_map_iff. exists p. auto.
  Qed.

  Lemma finishing_goes_on m : is_finished (run_finishing cf) m = false -> goes_on cf m.
  Proof.
    unfold run_finishing, goes_on. destruct (cf_fin cf) as [g|]; cbn.
    - destruct (iter_is_finished (cf_iter cf) (cf_ipd cf) m); [discriminate|].
      intros H. split; [reflexivity|]. intros g' [= <-].
      destruct (finishing_is_finished g m); [discriminate|reflexivity].
    - intros H. split; [exact H|discriminate].
  Qed.

  (** A step of a runner. *)
  Lemma step_runner t o (st st' : state) th le q : nth_error (s_th st) t = Some th ->
    th_kind th = KRunner -> typed (th_code th) q -> rel q th le ->
    step cf t o st = Some st' -> stepped t st st' th le (step_event t o st).
  Proof.
    intros N Kd T R E. unfold step_event. rewrite N. unfold step in E. rewrite N in E.
    destruct (th_code th) as [|i k] eqn:Ec; [discriminate|].
    pose proof T as T0. apply typed_inv in T. destruct T as (l & Hl & K).
    assert (Same : stepped t st (mkState (crash (s_sh st)) (s_th st)) th le []).
    { exists th, []. rewrite app_nil_r. split; [cbn; symmetry; apply upd_same; exact N|]. split; [reflexivity|].
      split; [|split; [intros e []|split; [constructor|intros r []]]].
      right. split; [exact Kd|]. exists q. rewrite Ec. auto. }
    assert (Gen : forall evs k' l' s q', typed k' q' ->
              rel q' (mkThread (th_kind th) k' l' (th_defer th)) (next_last le evs) -> fits le evs ->
              stepped t st (go_on t th k' l' s (s_th st)) th le evs).
    { intros evs k' l' s q' Tk Rk Hf. exists (mkThread (th_kind th) k' l' (th_defer th)), [].
      rewrite app_nil_r. split; [reflexivity|]. split; [reflexivity|]. split.
      - right. split; [exact Kd|]. exists q'. auto.
      - split; [exact Hf|]. split; [constructor|]. intros _ _. exact Kd. }
    assert (Go : forall k' l' s q', typed k' q' ->
              rel q' (mkThread (th_kind th) k' l' (th_defer th)) le -> stepped t st (go_on t th k' l' s (s_th st)) th le []).
    { intros k' l' s q' Tk Rk. eapply Gen; eauto. intros e []. }
    assert (Pan : forall n, k_due q = false -> stepped t st (do_panic t n th st) th le []).
    { intros n Hd. pose proof (no_due_rel q th le R Hd) as L. unfold do_panic.
      destruct (th_defer th) as [d|] eqn:Ed.
      - exists (mkThread (th_kind th) d (set_panic (th_loc th) (Some (ErrImpl n))) None), []. rewrite app_nil_r.
        split; [reflexivity|]. split; [reflexivity|]. split; [|split; [intros e []|split; [constructor|intros r []]]].
        right. split; [exact Kd|]. exists (mkKnow (k_go q) (k_err q) (k_cent q) PNone false). split.
        + apply (r_typed _ _ _ R d Ed). apply all_know_in. cbn. auto.
        + destruct R. split; cbn; auto. discriminate.
      - exists (mkThread (th_kind th) [] (th_loc th) None), []. rewrite app_nil_r.
        split; [reflexivity|]. split; [reflexivity|]. split; [|split; [intros e []|split; [constructor|intros r []]]].
        right. split; [exact Kd|]. exists q. split; [apply ty_nil; exact Hd|].
        eapply rel_same; [exact R|..]; try reflexivity. symmetry. exact Ed. }
    assert (Keep : forall k' l' s, typed k' q ->
              l_go l' = l_go (th_loc th) -> l_err l' = l_err (th_loc th) -> l_cent l' = l_cent (th_loc th) ->
              l_figs l' = l_figs (th_loc th) -> l_panic l' = l_panic (th_loc th) ->
              stepped t st (go_on t th k' l' s (s_th st)) th le []).
    { intros k' l' s Tk E1 E2 E3 E4 E5. eapply Go; [exact Tk|]. eapply rel_same; [exact R|..]; cbn; auto. }
    destruct i; cbn -[run_list loop_know panic_know union2] in Hl; try discriminate;
      try (assert (Kq : typed k q) by (injection Hl as <-; apply K; left; reflexivity); clear Hl K);
      repeat match type of E with
             | match ?x with _ => _ end = Some _ => destruct x eqn:?; try discriminate
             | (if ?x then _ else _) = Some _ => destruct x eqn:?; try discriminate
             end;
      try (injection E as <-); try apply Same; try (apply Keep; auto; fail).
    - (* ILock *)
      apply Keep; auto. apply (ty_run [IAcquire m] k q [q]); [reflexivity|]. intros q' [<-|[]]. exact Kq.
    - (* ISetStatus *)
      assert (Hs : exists q', In q' l /\ q' = with_ph q PNone /\ fits le [TStatus (eval_st e (th_loc th))]).
      { exists (with_ph q PNone). split; [|split; [reflexivity|]].
        - destruct (k_ph q); try (injection Hl as <-; left; reflexivity).
          + destruct (k_err q).
            * destruct e as [|[]|]; try discriminate. injection Hl as <-. left. reflexivity.
            * destruct (k_cent q); [discriminate|]. injection Hl as <-. left. reflexivity.
          + destruct e as [|[]|]; try discriminate. injection Hl as <-. left. reflexivity.
        - intros x [<-|[]]. destruct le as [a|]; [|exact I]. cbn. destruct a; try exact I.
          pose proof (r_ph _ _ _ R) as Hp. destruct (k_ph q).
          + specialize (Hp _ eq_refl). cbn in Hp. split.
            * destruct (success r) eqn:Es; [|reflexivity]. destruct Hp. left. congruence.
            * intros y Hy. destruct Hp. right. congruence.
          + destruct Hp as (m & Hp & _). discriminate.
          + destruct Hp as (er & Hp & He). injection Hp as ->.
            pose proof (r_err _ _ _ R) as Hre. pose proof (r_cent _ _ _ R) as Hrc. rewrite He in Hre.
            destruct er as [er|]; cbn in Hre; rewrite <- Hre in Hl; cbn [success failure].
            * destruct e as [|[]|]; try discriminate. split; [destruct (l_cent (th_loc th)); reflexivity|].
              intros y [= <-]. cbn. rewrite He. reflexivity.
            * rewrite <- Hrc in Hl. destruct (l_cent (th_loc th)); [discriminate|].
              split; [reflexivity|discriminate].
          + destruct Hp as (n & Hp & He). injection Hp as ->. cbn. split; [reflexivity|].
            intros y [= <-]. destruct e as [|[]|]; try discriminate. cbn. rewrite He. reflexivity. }
      destruct Hs as (q' & Hq & -> & Hf). eapply Gen; [exact (K _ Hq)| |exact Hf].
      destruct R. split; cbn; auto. intros a [= <-]. cbn. tauto.
    - (* IModel *)
      destruct op; try (injection Hl as <-; apply Keep; auto; apply K; left; reflexivity).
      destruct (phase_eqb (k_ph q) PRes) eqn:Ep; [|discriminate]. destruct (k_err q) eqn:Ee; [discriminate|].
      destruct (k_cent q) eqn:Ek; [|discriminate]. injection Hl as <-.
      eapply Gen; [apply K; left; reflexivity| |].
      + destruct R. split; cbn; auto. intros a [= <-]. cbn. tauto.
      + intros x [<-|[]]. pose proof (r_ph _ _ _ R) as Hp. destruct (k_ph q); try discriminate.
        destruct Hp as (er & -> & He). cbn.
        pose proof (r_err _ _ _ R) as Hre. pose proof (r_cent _ _ _ R) as Hrc. rewrite He, Ee in Hre.
        destruct er; [discriminate|]. rewrite Ek in Hrc. destruct (l_cent (th_loc th)) as [c'|] eqn:Ect; [|discriminate].
        eexists. exists c'. split; [reflexivity|]. split; reflexivity.
    - (* IGet *)
      destruct g; try discriminate; try (injection Hl as <-; apply Keep; auto; apply K; left; reflexivity).
      + injection Hl as <-. eapply Gen; [apply K; left; reflexivity| |intros x []].
        pose proof (r_err _ _ _ R) as Hre. destruct R. split; cbn; auto.
        rewrite <- Hre. destruct (l_err (th_loc th)); reflexivity.
      + injection Hl as <-. cbn. destruct (status_eqb (st_value (sh_status (s_sh st))) Running).
        * apply Keep; auto; [apply K; left; reflexivity|cbn; apply andb_true_r].
        * eapply Gen; [apply K; right; left; reflexivity| |intros x []].
          destruct R. split; cbn; auto. apply andb_false_r.
      + destruct (k_go q) eqn:Eg; [|discriminate]. destruct (k_due q) eqn:Ed; [discriminate|]. injection Hl as <-.
        assert (Hf : fits le [TTest (the_model (s_sh st))]).
        { intros x [<-|[]]. destruct le as [a|]; [|exact I]. exact (no_due_rel q th _ R Ed a eq_refl). }
        destruct (is_finished (run_finishing cf) (the_model (s_sh st))) eqn:Ef.
        * eapply Gen; [apply K; right; left; reflexivity| |exact Hf].
          destruct R. split; cbn; auto; [rewrite Ef; apply andb_false_r|]. intros a [= <-]. cbn. tauto.
        * eapply Gen; [apply K; left; reflexivity| |exact Hf].
          destruct R. split; cbn; auto; [rewrite Ef, r_go0, Eg; reflexivity|].
          exists (the_model (s_sh st)). split; [reflexivity|]. apply finishing_goes_on. exact Ef.
    - (* ISend *)
      destruct (k_due q) eqn:Ed; [discriminate|]. apply Pan. reflexivity.
    - destruct (k_due q) eqn:Ed; [discriminate|]. injection Hl as <-.
      apply Keep; auto. apply (ty_run [ISending c (eval_st e (th_loc th))] k q [q]).
      + cbn. rewrite Ed. reflexivity.
      + intros q' [<-|[]]. apply K. left. reflexivity.
    - (* ISending *)
      destruct (k_due q) eqn:Ed; [discriminate|]. apply Pan. reflexivity.
    - (* IRecv *)
      apply Keep; auto. apply (ty_run [IReceiving c] k q [q]); [reflexivity|]. intros q' [<-|[]]. exact Kq.
    - (* ITryAck *)
      apply union2_some in Hl. destruct Hl as (x & y & [= <-] & _ & ->).
      apply Keep; auto. apply K. left. reflexivity.
    - apply union2_some in Hl. destruct Hl as (x & y & [= <-] & Hy & ->).
      apply Keep; auto. apply (ty_run p k q y Hy). intros q' Hq. apply K. right. exact Hq.
    - (* ICloseAck *)
      destruct (k_due q) eqn:Ed; [discriminate|]. apply Pan. reflexivity.
    - destruct (k_due q) eqn:Ed; [discriminate|]. injection Hl as <-. apply Keep; auto. apply K. left. reflexivity.
    - (* IIf *)
      assert (Hb : exists l', run (if eval_cond cf c (s_sh st) (th_loc th) then p else q0) q = Some l' /\ incl l' l).
      { assert (Both : union2 (run_list run_i p q) (run_list run_i q0 q) = Some l ->
                  exists l', run (if eval_cond cf c (s_sh st) (th_loc th) then p else q0) q = Some l' /\ incl l' l).
        { intros H. apply union2_some in H. destruct H as (x & y & Hx & Hy & ->).
          destruct (eval_cond cf c (s_sh st) (th_loc th)).
          - exists x. split; [exact Hx|]. apply incl_appl, incl_refl.
          - exists y. split; [exact Hy|]. apply incl_appr, incl_refl. }
        pose proof (r_err _ _ _ R) as Hre. pose proof (r_cent _ _ _ R) as Hrc. pose proof (r_go _ _ _ R) as Hrg.
        destruct c; try exact (Both Hl); cbn [eval_cond] in *.
        - exists l. split; [|apply incl_refl]. rewrite <- Hre in Hl. destruct (l_err (th_loc th)); exact Hl.
        - exists l. split; [|apply incl_refl]. rewrite <- Hre, <- Hrc in Hl.
          destruct (l_err (th_loc th)); [exact Hl|]. destruct (l_cent (th_loc th)); exact Hl.
        - destruct (phase_eqb (k_ph q) PPanic) eqn:Ep; [|exact (Both Hl)].
          exists l. split; [|apply incl_refl]. pose proof (r_ph _ _ _ R) as Hp.
          destruct (k_ph q); try discriminate. destruct Hp as (n & _ & ->). exact Hl.
        - exists l. split; [|apply incl_refl]. rewrite <- Hrg in Hl. destruct (l_go (th_loc th)); exact Hl. }
      destruct Hb as (l' & Hr & Hi). apply Keep; auto.
      apply (ty_run _ k q l' Hr). intros q' Hq. apply K, Hi, Hq.
    - (* ILoop *)
      destruct c; try discriminate. cbn [eval_cond]. rewrite (r_go _ _ _ R).
      match type of Hl with (if ?b then _ else _) = _ => destruct b eqn:Eb; [|discriminate] end.
      injection Hl as <-. apply andb_true_iff in Eb. destruct Eb as [E1 E2].
      pose proof E2 as E3. apply Keep; auto. destruct (k_go q) eqn:Eg.
      + rewrite forallb_forall in E2. pose proof (E2 q (k_in_In _ _ E1)) as H. rewrite Eg in H. cbn [negb orb] in H.
        unfold all_ok in H. destruct (run_list run_i p q) as [lp|] eqn:Ep; [|discriminate].
        apply (ty_run p (ILoop CGo p :: k) q lp Ep). intros q1 H1. rewrite forallb_forall in H.
        pose proof (H q1 H1) as H2.
        assert (Hd : k_def q1 = k_def q).
        { apply k_in_In in H2. unfold loop_know in H2. apply filter_In in H2. destruct H2 as [H2 _].
          unfold all_know in H2. apply in_flat_map in H2. destruct H2 as (? & _ & H2).
          apply in_flat_map in H2. destruct H2 as (? & _ & H2). apply in_flat_map in H2. destruct H2 as (? & _ & H2).
          apply in_map_iff in H2. destruct H2 as (? & <- & _). reflexivity. }
        eapply (ty_run [ILoop CGo p] k q1); [|exact K]. apply run_one.
        cbn -[run_list loop_know]. rewrite Hd, H2, E3. reflexivity.
      + apply K. change (In q (filter (fun q' => negb (k_go q')) (loop_know (k_def q)))). apply filter_In. split; [apply k_in_In; exact E1|]. rewrite Eg. reflexivity.
    - (* IImplIterate *)
      destruct (phase_eqb (k_ph q) PTest) eqn:Ep; [|discriminate]. destruct (k_def q) eqn:Ed; [|discriminate].
      injection Hl as <-.
      assert (Hf : fits le [TIter (IterRes c f err)]).
      { intros x [<-|[]]. pose proof (r_ph _ _ _ R) as Hp. destruct (k_ph q); try discriminate.
        destruct Hp as (m & -> & Hg). cbn. eauto. }
      eapply (Gen _ _ _ _ (mkKnow (k_go q) (is_some err) (is_some c) PRes true)); [apply K| |exact Hf].
      + destruct err, c; cbn; auto 6.
      + destruct R. split; cbn; auto; [destruct err; reflexivity|congruence|].
        exists err. auto.
    - destruct (phase_eqb (k_ph q) PTest) eqn:Ep; [|discriminate]. destruct (k_def q) eqn:Ed; [|discriminate].
      assert (Hf : fits le [TIter (IterPanic n)]).
      { intros x [<-|[]]. pose proof (r_ph _ _ _ R) as Hp. destruct (k_ph q); try discriminate.
        destruct Hp as (m & -> & Hg). cbn. eauto. }
      unfold do_panic. pose proof (r_def _ _ _ R) as Hd. rewrite Ed in Hd.
      destruct (th_defer th) as [d|] eqn:Edf; [|discriminate].
      exists (mkThread (th_kind th) d (set_panic (th_loc th) (Some (ErrImpl n))) None), []. rewrite app_nil_r.
      split; [reflexivity|]. split; [reflexivity|].
      split; [|split; [exact Hf|split; [constructor|intros _ _; exact Kd]]].
      right. split; [exact Kd|]. exists (mkKnow (k_go q) (k_err q) (k_cent q) PPanic false). split.
      + apply (r_typed _ _ _ R d Edf). apply all_know_in. cbn. auto.
      + destruct R. split; cbn; auto; [discriminate|]. exists n. auto.
    - (* IDefer *)
      match type of Hl with (if ?b then _ else _) = _ => destruct b eqn:Eb; [|discriminate] end.
      injection Hl as <-. exists (mkThread (th_kind th) k (th_loc th) (Some p)), []. rewrite app_nil_r.
      split; [reflexivity|]. split; [reflexivity|]. split; [|split; [intros e []|split; [constructor|intros r []]]].
      right. split; [exact Kd|]. exists (with_def q true). split; [apply K; left; reflexivity|].
      destruct R. split; cbn; auto. intros d [= <-] q' Hq. rewrite forallb_forall in Eb.
      eapply typed_ok; [exact (Eb q' Hq)|]. intros q''. apply negb_true_iff.
    - (* IEndDefer *)
      injection Hl as <-. exists (mkThread (th_kind th) k (th_loc th) None), []. rewrite app_nil_r.
      split; [reflexivity|]. split; [reflexivity|]. split; [|split; [intros e []|split; [constructor|intros r []]]].
      right. split; [exact Kd|]. exists (with_def q false). split; [apply K; left; reflexivity|].
      destruct R. split; cbn; auto. discriminate.
  Qed.

  (** Sending and receiving change neither the events nor what a runner knows. *)
  Lemma tinv_send th le c v k : tinv th le -> th_code th = ISending c v :: k ->
    tinv (mkThread (th_kind th) k (th_loc th) (th_defer th)) le.
  Proof.
    intros [(Q & D & L)|(Kd & q & T & R)] Ec.
    - left. rewrite Ec in Q. auto.
    - right. split; [exact Kd|]. exists q. rewrite Ec in T. apply typed_inv in T. destruct T as (l & Hl & K).
      cbn in Hl. destruct (k_due q); [discriminate|]. injection Hl as <-.
      split; [apply K; left; reflexivity|]. eapply rel_same; [exact R|..]; reflexivity.
  Qed.
  Lemma tinv_receive th le c v (s : shared C) k : tinv th le -> receiver c s (th_code th) = Some k ->
    tinv (mkThread (th_kind th) k (deliver c v (th_loc th)) (th_defer th)) le.
  Proof.
    intros H Er. destruct (th_code th) as [|i k'] eqn:Ec; [discriminate|].
    assert (Hk : k' = k /\ match i with IReceiving _ | ITryStatus | ITryAck _ => True | _ => False end).
    { destruct i; cbn in Er; try discriminate;
        match type of Er with (if ?b then _ else _) = _ => destruct b; [|discriminate] end; injection Er as ->; auto. }
    destruct Hk as (-> & Hi).
    destruct H as [(Q & D & L)|(Kd & q & T & R)].
    - left. rewrite Ec in Q. cbn in Q. apply andb_true_iff in Q. destruct Q as [_ Q]. auto.
    - right. split; [exact Kd|]. exists q. rewrite Ec in T. apply typed_inv in T. destruct T as (l & Hl & K). split.
      + apply K. destruct i; try contradiction; cbn -[run_list union2] in Hl; try (injection Hl as <-; left; reflexivity).
        apply union2_some in Hl. destruct Hl as (x & y & [= <-] & _ & ->). left. reflexivity.
      + eapply rel_same; [exact R|..]; destruct c; reflexivity.
  Qed.

  (** The last of the events. *)
  Definition last_of (evs : list tevent) : option tevent :=
    match rev evs with [] => None | e :: _ => Some e end.
  Lemma last_of_snoc evs e : last_of (evs ++ [e]) = Some e.
  Proof. unfold last_of. rewrite rev_app_distr. reflexivity. Qed.

  Definition ordered (evs : list tevent) : Prop :=
    linked (may_follow cf) evs /\ match evs with [] => True | e :: _ => may_begin e end.
  Definition ginv (st : state) (evs : nat -> list tevent) : Prop :=
    forall t, ordered (evs t) /\
      match nth_error (s_th st) t with
      | None => evs t = []
      | Some th => tinv th (last_of (evs t)) /\ forall r, In (TIter r) (evs t) -> th_kind th = KRunner
      end.

  Lemma ordered_snoc evs e : ordered evs ->
    match last_of evs with None => may_begin e | Some a => may_follow cf a e end -> ordered (evs ++ [e]).
  Proof.
    intros [H1 H2] H. destruct evs as [|a l _] using rev_ind.
    - split; [|exact H]. intros l1 x y l2 E. destruct l1 as [|? [|? ?]]; discriminate.
    - rewrite last_of_snoc in H. split.
      + rewrite <- app_assoc. apply linked_snoc; assumption.
      + destruct l; exact H2.
  Qed.

  Lemma step_event_short t o st : step_event t o st = [] \/ exists e, @step_event C t o st = [e].
  Proof.
    unfold step_event. destruct (nth_error (s_th st) t) as [th|]; [|auto].
    destruct (th_code th) as [|i k]; [auto|]. destruct i; eauto; [destruct op|destruct g]; eauto.
  Qed.

  Lemma ginv_step t o (st st' : state) evs : ginv st evs -> step cf t o st = Some st' ->
    ginv st' (fun u => evs u ++ move_event u (Solo t o) st).
  Proof.
    intros G E. assert (Hn : exists th, nth_error (s_th st) t = Some th).
    { unfold step in E. destruct (nth_error (s_th st) t) as [th|]; [eauto|discriminate]. }
    destruct Hn as (th & N). pose proof (G t) as (Ho & Ht). rewrite N in Ht. destruct Ht as (Ht & Hr).
    assert (S : stepped t st st' th (last_of (evs t)) (step_event t o st)).
    { destruct Ht as [(Q & D & L)|(Kd & q & T & R)].
      - eapply step_quiet; eauto.
      - eapply step_runner; eauto. }
    destruct S as (th' & new & Es & Ek & Hi & Hf & Hn & Hrun).
    assert (Lt : t < length (s_th st)) by (apply nth_error_Some; congruence).
    intros u. cbn [move_event]. destruct (Nat.eqb_spec u t) as [->|Ne].
    - assert (Nu : nth_error (s_th st') t = Some th').
      { rewrite Es, nth_error_app1 by (rewrite upd_length; exact Lt). rewrite nth_error_upd, Nat.eqb_refl.
        cbn [andb]. destruct (Nat.ltb_spec t (length (s_th st))); [reflexivity|lia]. }
      rewrite Nu, Ek. destruct (step_event_short t o st) as [E0|(e & E0)]; rewrite E0 in *.
      + rewrite app_nil_r. split; [exact Ho|]. split; [exact Hi|exact Hr].
      + split; [apply ordered_snoc; [exact Ho|]; exact (Hf e (or_introl eq_refl))|]. split.
        * rewrite last_of_snoc. exact Hi.
        * intros r H. apply in_app_or in H. destruct H as [H|H]; [exact (Hr r H)|exact (Hrun r H)].
    - rewrite app_nil_r. destruct (G u) as (Hou & Hu). split; [exact Hou|].
      rewrite Es. destruct (Nat.lt_ge_cases u (length (s_th st))) as [Lu|Ge].
      + rewrite nth_error_app1 by (rewrite upd_length; exact Lu). rewrite nth_error_upd.
        destruct (Nat.eqb_spec u t); [contradiction|]. exact Hu.
      + rewrite nth_error_app2 by (rewrite upd_length; exact Ge). rewrite upd_length.
        assert (Hx : evs u = []).
        { destruct (nth_error (s_th st) u) eqn:Ex; [|exact Hu].
          assert (u < length (s_th st)) by (apply nth_error_Some; congruence). lia. }
        rewrite Hx. destruct (nth_error new (u - length (s_th st))) as [x|] eqn:Ex; [|reflexivity].
        split; [|intros r []]. rewrite Forall_forall in Hn. apply Hn. eapply nth_error_In. exact Ex.
  Qed.

  Lemma ginv_comm t r (st st' : state) evs : ginv st evs -> comm t r st = Some st' ->
    ginv st' (fun u => evs u ++ move_event u (Comm t r) st).
  Proof.
    intros G E. unfold comm in E. destruct (Nat.eqb_spec t r) as [|Ne]; [discriminate|].
    destruct (nth_error (s_th st) t) as [th|] eqn:N; [|discriminate].
    destruct (nth_error (s_th st) r) as [thr|] eqn:Nr; [|discriminate].
    destruct (th_code th) as [|i k] eqn:Ec; [discriminate|]. destruct i; try discriminate.
    destruct (closed c (s_sh st)); [discriminate|].
    destruct (receiver c (s_sh st) (th_code thr)) as [kr|] eqn:Er; [|discriminate]. injection E as <-.
    intros u. cbn [move_event s_th]. rewrite app_nil_r. destruct (G u) as (Ho & Hu). split; [exact Ho|].
    rewrite !nth_error_upd, upd_length.
    destruct (Nat.eqb_spec u r) as [->|Nur].
    - rewrite Nr in Hu. assert (Lr : r < length (s_th st)) by (apply nth_error_Some; congruence).
      destruct (Nat.ltb_spec r (length (s_th st))); [|lia]. cbn [andb]. destruct Hu as (Hu & Hk).
      split; [|exact Hk]. eapply tinv_receive; eauto.
    - cbn [andb]. destruct (Nat.eqb_spec u t) as [->|Nut]; [|exact Hu].
      rewrite N in Hu. assert (Lr : t < length (s_th st)) by (apply nth_error_Some; congruence).
      destruct (Nat.ltb_spec t (length (s_th st))); [|lia]. cbn [andb]. destruct Hu as (Hu & Hk).
      split; [|exact Hk]. eapply tinv_send; eauto.
  Qed.

  Lemma ginv_exec ms (st st' : state) evs : ginv st evs -> exec cf ms st = Some st' ->
    ginv st' (fun u => evs u ++ events cf u ms st).
  Proof.
    revert st evs. induction ms as [|m ms IH]; cbn [exec events]; intros st evs G E.
    - injection E as <-. intros u. rewrite app_nil_r. apply G.
    - destruct (do_move cf m st) as [st1|] eqn:E1; [|discriminate].
      assert (G1 : ginv st1 (fun u => evs u ++ move_event u m st)).
      { unfold do_move in E1. destruct (sh_crashed (s_sh st)); [discriminate|].
        destruct m; [eapply ginv_step|eapply ginv_comm]; eauto. }
      intros u. rewrite app_assoc. exact (IH st1 _ G1 E u).
  Qed.

  Lemma quiet_user (p : option (list instr)) : plain_notifier cf -> cf_notifier cf = p ->
    match p with Some c => quiet c | None => true end = true.
  Proof.
    unfold plain_notifier. intros P E. rewrite E in P. clear E. destruct p as [c|]; [|reflexivity].
    destruct P as (cs & Hc & ->). clear - Hc. induction Hc as [|x cs Hx Hc IH]; [reflexivity|].
    cbn [flat_map]. rewrite quiet_app, IH, andb_true_r. destruct x; cbn in Hx; try contradiction; vm_compute; reflexivity.
  Qed.

  Lemma quiet_init : plain_notifier cf -> quiet (init_code cf) = true.
  Proof.
    intros P. pose proof (quiet_user _ P eq_refl) as Hu. unfold init_code, quiet.
    cbn -[init_common]. unfold notification_loop. destruct (cf_notifier cf) as [c|]; [|vm_compute; reflexivity].
    cbn -[init_common]. unfold quiet in Hu. rewrite Hu. vm_compute. reflexivity.
  Qed.

  Lemma quiet_play : plain_notifier cf -> quiet (play_call cf) = true.
  Proof.
    intros P. pose proof (quiet_init P) as Hi.
    assert (Hp : quiet (play_init cf) = true).
    { unfold play_init. rewrite quiet_app, Hi. vm_compute. reflexivity. }
    unfold play_call, quiet. cbn -[play_init play_ready]. unfold quiet in Hp. rewrite Hp. vm_compute. reflexivity.
  Qed.

  Lemma quiet_call c : plain_notifier cf -> quiet (call_code cf c) = true.
  Proof.
    intros P. pose proof (quiet_play P) as Hp. destruct c; cbn [call_code]; try (vm_compute; reflexivity).
    - unfold init_call. rewrite !quiet_app, (quiet_init P). reflexivity.
    - exact Hp.
    - unfold push_call, quiet. cbn -[play_call]. unfold quiet in Hp. rewrite Hp. reflexivity.
    - unfold batch_call. rewrite !quiet_app, Hp. vm_compute. reflexivity.
  Qed.

  Lemma quiet_client cs : plain_notifier cf -> quiet (client_code cf cs) = true.
  Proof.
    intros P. induction cs as [|c cs IH]; [reflexivity|].
    unfold client_code in *. cbn [flat_map]. rewrite !quiet_app, IH, (quiet_call c P). reflexivity.
  Qed.

  Lemma iteration_order : forall css ms (st : state) t, plain_notifier cf ->
    exec cf ms (start (map (client_code cf) css)) = Some st ->
    linked (may_follow cf) (events cf t ms (start (map (client_code cf) css))) /\
    match events cf t ms (start (map (client_code cf) css)) with [] => True | e :: _ => may_begin e end /\
    (forall r, In (TIter r) (events cf t ms (start (map (client_code cf) css))) -> kind_of st t = Some KRunner) /\
    (ended st t -> forall l a, events cf t ms (start (map (client_code cf) css)) = l ++ [a] -> ~ due a).
  Proof.
    intros css ms st t P E. set (st0 := start (map (client_code cf) css)) in *.
    assert (G0 : ginv st0 (fun _ => [])).
    { intros u. split.
      - split; [|exact I]. intros l1 x y l2 H. destruct l1; discriminate.
      - unfold st0, start. cbn [s_th]. rewrite map_map. destruct (nth_error _ u) as [th|] eqn:Eu; [|reflexivity].
        apply nth_error_In in Eu. apply in_map_iff in Eu. destruct Eu as (cs & <- & _).
        split; [|intros r []]. left. cbn. split; [apply quiet_client; exact P|]. split; [reflexivity|].
        intros a. discriminate. }
    pose proof (ginv_exec ms st0 st _ G0 E t) as (Ho & Ht). cbn [app] in Ho, Ht. destruct Ho as (H1 & H2).
    split; [exact H1|]. split; [exact H2|]. split.
    - intros r Hr. unfold kind_of. destruct (nth_error (s_th st) t) as [th|].
      + cbn. f_equal. apply Ht in Hr. exact Hr.
      + rewrite Ht in Hr. destruct Hr.
    - intros (th & N & Ec) l a El. rewrite N in Ht. destruct Ht as (Ht & _).
      rewrite El, last_of_snoc in Ht. destruct Ht as [(_ & _ & L)|(_ & q & T & R)]; [exact (L a eq_refl)|].
      rewrite Ec in T. apply typed_inv in T. exact (no_due_rel q th _ R T a eq_refl).
  Qed.
End Iter.

(** What the order says, claim by claim. *)
Section Claims.
  Context {C : Type}.
  Variable cf : cconf.
  Notation evs css ms t := (events cf t ms (@start C (map (client_code cf) css))).

  Lemma event_split css ms (st : state C) t l1 e l2 : plain_notifier cf ->
    exec cf ms (start (map (client_code cf) css)) = Some st -> evs css ms t = l1 ++ e :: l2 ->
    match e with TTest _ | TStatus _ => True | _ => exists l0 a, l1 = l0 ++ [a] /\ may_follow cf a e end.
  Proof.
    intros P E H. destruct (iteration_order cf css ms st t P E) as (H1 & H2 & _). rewrite H in H1, H2.
    destruct l1 as [|a l0 _] using rev_ind.
    - destruct e; cbn in H2; tauto.
    - assert (Hf : may_follow cf a e) by (eapply (H1 l0 a e l2); rewrite <- app_assoc; reflexivity).
      destruct e; eauto.
  Qed.

  Lemma iterations_tested : forall css ms (st : state C) t l1 r l2, plain_notifier cf ->
    exec cf ms (start (map (client_code cf) css)) = Some st -> evs css ms t = l1 ++ TIter r :: l2 ->
    kind_of st t = Some KRunner /\ exists l0 m, l1 = l0 ++ [TTest m] /\ goes_on cf m.
  Proof.
    intros css ms st t l1 r l2 P E H. split.
    - apply (iteration_order cf css ms st t P E) with r. rewrite H. apply in_elt.
    - destruct (event_split css ms st t l1 _ l2 P E H) as (l0 & a & -> & m & -> & Hg). eauto.
  Qed.

  Lemma iterations_saved_once : forall css ms (st : state C) t l1 l2, plain_notifier cf ->
    exec cf ms (start (map (client_code cf) css)) = Some st ->
    (forall c f, evs css ms t = l1 ++ TSave c f :: l2 ->
       exists l0 c', l1 = l0 ++ [TIter (IterRes (Some c') f None)] /\ c = Some c') /\
    (forall c f, evs css ms t = l1 ++ TIter (IterRes (Some c) f None) :: l2 ->
       match l2 with [] => ~ ended st t | e :: _ => e = TSave (Some c) f end).
  Proof.
    intros css ms st t l1 l2 P E. split.
    - intros c f H. destruct (event_split css ms st t l1 _ l2 P E H) as (l0 & a & -> & r & c' & -> & Hs & ->).
      exists l0, c'. destruct r as [[x|] g [e|]|]; cbn in Hs; try discriminate. injection Hs as -> ->. auto.
    - intros c f H. destruct (iteration_order cf css ms st t P E) as (H1 & _ & _ & H4). destruct l2 as [|e l2].
      + intros He. apply (H4 He l1 _ H). cbn. left. discriminate.
      + pose proof (H1 l1 _ e l2 H) as Hf. destruct e; cbn in Hf.
        * destruct Hf. left. discriminate.
        * destruct Hf as (m & Hf & _). discriminate.
        * destruct Hf as (r & c' & [= <-] & Hs & ->). cbn in Hs. injection Hs as <- <-. reflexivity.
        * destruct Hf. discriminate.
  Qed.

  Lemma failures_finish : forall css ms (st : state C) t l1 r e l2, plain_notifier cf ->
    exec cf ms (start (map (client_code cf) css)) = Some st ->
    evs css ms t = l1 ++ TIter r :: l2 -> failure r = Some e ->
    sh_crashed (s_sh st) = false /\
    match l2 with [] => ~ ended st t | x :: _ => x = TStatus (mkStatus Finished (Some e)) end.
  Proof.
    intros css ms st t l1 r e l2 P E H Hr. split.
    { apply (lock_hygiene cf css st P). exists ms. exact E. }
    destruct (iteration_order cf css ms st t P E) as (H1 & _ & _ & H4). destruct l2 as [|x l2].
    - intros He. apply (H4 He l1 _ H). cbn. right. congruence.
    - assert (Hs : success r = None) by (destruct r as [[y|] g [z|]|]; cbn in *; congruence).
      pose proof (H1 l1 _ x l2 H) as Hf. destruct x; cbn in Hf.
      + destruct Hf. right. congruence.
      + destruct Hf as (m & Hf & _). discriminate.
      + destruct Hf as (r' & c' & [= <-] & Hs' & _). congruence.
      + destruct Hf as [_ Hf]. rewrite (Hf e Hr). reflexivity.
  Qed.
End Claims.
