(** What an exploration proves: invariants of every execution, and what a client can still be led to. *)
From Coq Require Import List ZArith Bool Lia FMapPositive.
From Verif Require Import Base.Go Base.Num Model.Status Model.Finish Model.CtrlLang Model.CtrlCode Spec.CtrlSpec Spec.ExploreSpec Proofs.GoLemmas
  Proofs.ConfProofs Proofs.Explore Proofs.ExploreRun Proofs.ExploreEq Proofs.ExploreSound.
Import ListNotations.
Local Open Scope list_scope.

(** Whether every move leads to a known state; and the moves that do something, by index of the states. *)
Definition results (z : setting) (a : astate) : list (label * option (list astate)) := map (fun x => (x, amove z x a)) (labels a).
Definition inside (t : table) (rs : list (label * option (list astate))) : bool :=
  forallb (fun p => match snd p with Some r => forallb (fun c => known c t) r | None => false end) rs.
Definition edges (t : table) (rs : list (label * option (list astate))) : list (label * list positive) :=
  flat_map (fun p => match snd p with Some (b :: r) => [(fst p, map (index_of t) (b :: r))] | _ => [] end) rs.
Definition graph : Type := list (positive * list (label * list positive)).
Fixpoint survey (z : setting) (t : table) (l : list astate) : bool * graph :=
  match l with
  | [] => (true, [])
  | a :: l' => let rs := results z a in if inside t rs then let (b, g) := survey z t l' in (b, (index_of t a, edges t rs) :: g) else (false, [])
  end.

(** Ranks: a move is chosen at each state so that all its outcomes have smaller ranks. Nothing is proved of this
    search; its result is checked. *)
Definition ranking : Type := PositiveMap.t (label * N).
Definition is_ranked (r : ranking) (i : positive) : bool := match PositiveMap.find i r with Some _ => true | None => false end.
Fixpoint choose (r : ranking) (l : list (label * list positive)) : option label :=
  match l with [] => None | (x, js) :: l' => if forallb (is_ranked r) js then Some x else choose r l' end.
Fixpoint pass (l left : graph) (r : ranking) (n : N) (progress : bool) : graph * ranking * N * bool :=
  match l with
  | [] => (left, r, n, progress)
  | (i, es) :: l' =>
      if is_ranked r i then pass l' left r n progress else
      match choose r es with
      | Some x => pass l' left (PositiveMap.add i (x, n) r) (N.succ n) true
      | None => pass l' ((i, es) :: left) r n progress
      end
  end.
Fixpoint passes (fuel : nat) (l : graph) (r : ranking) (n : N) : ranking :=
  match fuel with
  | O => r
  | S f => match pass l [] r n false with (l, r, n, progress) => if progress then passes f l r n else r end
  end.
Definition targets (target : astate -> bool) (t : table) (l : list astate) : ranking :=
  fold_left (fun r a => if target a then PositiveMap.add (index_of t a) (LSolo 0, 0%N) r else r) l (PositiveMap.empty _).

Definition rank_of (t : table) (r : ranking) (a : astate) : option (label * N) := PositiveMap.find (index_of t a) r.
Definition lower (t : table) (r : ranking) (target : astate -> bool) (n : N) (a : astate) : bool :=
  target a || match rank_of t r a with Some (_, m) => N.ltb m n | None => false end.
Definition ranked (z : setting) (t : table) (r : ranking) (target : astate -> bool) (a : astate) : bool :=
  target a ||
  match rank_of t r a with
  | Some (x, n) => match amove z x a with Some (b :: l) => forallb (lower t r target n) (b :: l) | _ => false end
  | None => false
  end.

(** The states of clients that begin. *)
Definition alock0 : alock := mkAlock AFree None [].
Definition begin (p : nat) (e : positive) : athread := mkAthread KClient p e AAt (mkAloc None None None None None None None None None) None.
Definition begins (z : setting) (e : positive) (p : nat) : list athread := begin p e :: map (enter z (begin p e)) (z_calls z p).
Fixpoint all_begin (z : setting) (e : positive) (ps : list nat) : list (list athread) :=
  match ps with [] => [[]] | p :: ps' => flat_map (fun x => map (cons x) (all_begin z e ps')) (begins z e p) end.
Definition first_states (z : setting) (e : positive) (ps : list nat) : list astate :=
  map (fun ths => mkAstate (Created, ANone) alock0 alock0 true false 0 [] (map Some ths)) (all_begin z e ps).

(** Every state has [good], and every client [i] of [cs] can be led to a state of [target i] from every state out
    of [exempt i]. *)
Definition led (z : setting) (t : table) (g : graph) (l : list astate) (target exempt : astate -> bool) : bool :=
  let r := passes 1000 g (targets target t l) 1 in forallb (fun a => exempt a && match rank_of t r a with None => true | Some _ => false end || ranked z t r target a) l.
Definition verify (z : setting) (e : positive) (fuel : Z) (ps cs : list nat) (good : astate -> bool) (target exempt : nat -> astate -> bool) : bool :=
  let firsts := first_states z e ps in
  let l := reach z (Z.to_nat fuel) firsts in
  let t := tabulate l 1 (PositiveMap.empty _) in
  let (b, g) := survey z t l in
  program_ok (z_prog z) && over z e && b && forallb (fun a => known a t) firsts && forallb good l
  && forallb (fun i => led z t g l (target i) (exempt i)) cs.
(** The same when the answers are from now on those of [z']. *)
Definition verify_with (z z' : setting) (e : positive) (fuel : Z) (ps cs : list nat) (good : astate -> bool) (target exempt : nat -> astate -> bool) : bool :=
  let firsts := first_states z e ps in
  let l := reach z (Z.to_nat fuel) firsts in
  let t := tabulate l 1 (PositiveMap.empty _) in
  let (b, g) := survey z' t l in
  program_ok (z_prog z) && over z e && fst (survey z t l) && forallb (fun a => known a t) firsts && forallb good l
  && (b && forallb (fun i => led z' t g l (target i) (exempt i)) cs).

Section Use.
  Context {C : Type}.
  Variable cf : cconf.
  Variable z : setting.
  Variable allowed : oracle C -> Prop.
  Hypothesis Ht : cf_timeout cf = false.
  Hypothesis Hfin : forall m, In (is_finished (run_finishing cf) m) (z_fin z).
  Hypothesis Hnever : z_never z = match cf_fin cf with None => true | Some _ => false end && (cf_iter cf =? 0)%Z && (cf_ipd cf =? 0)%Z.
  Hypothesis Hdpi : (0 <? cf_dpi cf)%Z = true -> z_dpi z = true.
  Variable K : nat -> list dcall -> Prop.
  Hypothesis HK : forall p c cs, K p (c :: cs) ->
    exists pc q, In (pc, q) (z_calls z p) /\ ExploreEq.code_at (z_prog z) pc = Some (map erase (call_code cf c ++ [IReturn (returns_error c)])) /\ K q cs.
  Hypothesis Hexp : forall o, allowed o -> expected z o.
  Variable o0 : oracle C.
  Hypothesis Ho0 : allowed o0.
  Notation Rel := (Rel cf z K).
  Notation rel := (rel cf z K).
  Notation code_at := (code_at (z_prog z)).

  Section Program.
  Hypothesis Hg : program_ok (z_prog z) = true.

  Lemma labels_solo a i ath : live_at (a_th a) i ath -> In (LSolo i) (labels a).
  Proof.
    intros H. unfold labels. apply in_or_app. left. apply in_map. apply in_seq. split; [lia|]. cbn. apply nth_error_Some. unfold live_at in H. congruence.
  Qed.
  Lemma labels_comm a i j x y : live_at (a_th a) i x -> live_at (a_th a) j y -> In (LComm i j) (labels a).
  Proof.
    intros H H'. unfold labels. apply in_or_app. right. apply in_flat_map. exists i. split; [|apply in_map]; apply in_seq; (split; [lia|]; cbn; apply nth_error_Some; unfold live_at in *; congruence).
  Qed.
  Lemma slot_of id am a s ths t (th : thread C) : rel id am a (mkState s ths) -> nth_error ths t = Some th -> th_code th <> [] -> exists i ath, live_at (a_th a) i ath /\ id i = t.
  Proof.
    intros HR Hth Hc. destruct (h_other _ _ _ _ _ _ _ (rel_th _ _ _ _ _ _ _ HR) _ _ Hth) as [(E & _)|H]; [contradiction|exact H].
  Qed.

  (** Every move is one of the account. *)
  Lemma move_in a st m st' : Rel a st -> allowed_move allowed m -> do_move cf m st = Some st' ->
    exists x, In x (labels a) /\ forall r, amove z x a = Some r -> exists a', In a' r /\ Rel a' st'.
  Proof.
    intros (id & am & HR) Hm H. destruct st as [s ths]. unfold do_move in H. cbn [s_sh] in H. pose proof (r_crash _ _ _ _ (rel_sh _ _ _ _ _ _ _ HR)) as Hcr. cbn [s_sh] in Hcr. rewrite Hcr in H. destruct m as [t o|t u].
    - assert (X : exists i ath, live_at (a_th a) i ath /\ id i = t).
      { unfold step in H. cbn [s_th] in H. destruct (nth_error ths t) as [th|] eqn:E; [|discriminate].
        apply (slot_of _ _ _ _ _ _ _ HR E). intros Ec. rewrite Ec in H. discriminate. }
      destruct X as (i & ath & Hl & <-). exists (LSolo i). split; [exact (labels_solo _ _ _ Hl)|]. intros r Hr. cbn in Hr.
      pose proof (solo_ok cf z Hg Ht Hfin Hnever Hdpi K HK _ _ _ _ _ _ _ o _ HR Hl (Hexp _ Hm) Hr) as X. rewrite H in X. exact X.
    - assert (X : (exists i ath, live_at (a_th a) i ath /\ id i = t) /\ (exists j ath, live_at (a_th a) j ath /\ id j = u)).
      { unfold comm in H. cbn [s_th s_sh] in H. destruct (Nat.eqb t u); [discriminate|]. destruct (nth_error ths t) as [th|] eqn:E; [|discriminate]. destruct (nth_error ths u) as [th'|] eqn:E'; [|discriminate].
        split; [apply (slot_of _ _ _ _ _ _ _ HR E); intros Ec; rewrite Ec in H; discriminate|].
        apply (slot_of _ _ _ _ _ _ _ HR E'). intros Ec. rewrite Ec in H. destruct (th_code th) as [|[] ?]; try discriminate. destruct (closed c s); discriminate. }
      destruct X as ((i & ath & Hi & <-) & (j & ath' & Hj & <-)). exists (LComm i j). split; [exact (labels_comm _ _ _ _ _ Hi Hj)|]. intros r Hr. cbn in Hr.
      pose proof (comm_ok cf z Hg Ht K HK _ _ _ _ _ _ _ _ _ _ HR Hi Hj Hr) as X. rewrite H in X. exact X.
  Qed.

  Lemma tabulate_in l n t k a i : PositiveMap.find k (tabulate l n t) = Some (a, i) -> In a l \/ PositiveMap.find k t = Some (a, i).
  Proof.
    revert n t. induction l as [|b l IH]; intros n t H; [right; exact H|]. cbn in H. destruct (IH _ _ H) as [X|X]; [left; right; exact X|].
    destruct (Pos.eq_dec k (key b)) as [->|N].
    - rewrite PositiveMap.gss in X. injection X as <- _. left. left. reflexivity.
    - rewrite PositiveMap.gso in X by exact N. right. exact X.
  Qed.
  Lemma known_in l a : known a (tabulate l 1 (PositiveMap.empty _)) = true -> In a l.
  Proof.
    unfold known. destruct (PositiveMap.find (key a) (tabulate l 1 (PositiveMap.empty _))) as [[b i]|] eqn:E; [|discriminate]. intros H. apply state_eqb_eq in H. subst b.
    destruct (tabulate_in _ _ _ _ _ _ E) as [X|X]; [exact X|]. rewrite PositiveMap.gempty in X. discriminate.
  Qed.
  Lemma survey_spec t l : fst (survey z t l) = true -> forall a, In a l -> inside t (results z a) = true.
  Proof.
    induction l as [|b l IH]; cbn; [intros _ a []|]. destruct (inside t (results z b)) eqn:E; [|discriminate]. destruct (survey z t l) as [c g]. cbn. intros H a [<-|Ha]; [exact E|exact (IH H _ Ha)].
  Qed.
  Lemma inside_spec t a : inside t (results z a) = true -> forall x, In x (labels a) -> exists r, amove z x a = Some r /\ forall c, In c r -> known c t = true.
  Proof.
    unfold inside, results. rewrite forallb_forall. intros H x Hx. assert (Hin : In (x, amove z x a) (map (fun x => (x, amove z x a)) (labels a))) by (apply in_map_iff; exists x; split; [reflexivity|exact Hx]).
    specialize (H _ Hin). cbn in H. destruct (amove z x a) as [r|]; [|discriminate]. exists r. split; [reflexivity|]. apply forallb_forall. exact H.
  Qed.

  Definition closed_list (l : list astate) : Prop := forall a x, In a l -> In x (labels a) -> exists r, amove z x a = Some r /\ incl r l.
  Lemma exec_in l a st ms st' : closed_list l -> In a l -> Rel a st -> Forall (allowed_move allowed) ms -> exec cf ms st = Some st' -> exists a', In a' l /\ Rel a' st'.
  Proof.
    intros Hc. revert a st. induction ms as [|m ms IH]; intros a st Ha HR Hms H; cbn in H.
    - injection H as <-. exists a. split; assumption.
    - inversion Hms as [|? ? Hm Hms']; subst. destruct (do_move cf m st) as [st1|] eqn:E; [|discriminate].
      destruct (move_in _ _ _ _ HR Hm E) as (x & Hx & Hr). destruct (Hc _ _ Ha Hx) as (r & Er & Hi). destruct (Hr _ Er) as (a1 & Ha1 & HR1).
      exact (IH _ _ (Hi _ Ha1) HR1 Hms' H).
  Qed.

  (** What the chosen moves lead to. *)
  Lemma amove_leads P a st x b r : Rel a st -> amove z x a = Some (b :: r) -> (forall c st', In c (b :: r) -> Rel c st' -> leads cf allowed P st') -> leads cf allowed P st.
  Proof.
    intros (id & am & HR) Hx Hr. destruct st as [s ths]. pose proof (r_crash _ _ _ _ (rel_sh _ _ _ _ _ _ _ HR)) as Hcr. cbn [s_sh] in Hcr. destruct x as [i|i j]; cbn in Hx.
    - assert (X : exists ath, live_at (a_th a) i ath). { unfold asolo in Hx. unfold live_at. destruct (nth_error (a_th a) i) as [[ath|]|]; try discriminate. exists ath. reflexivity. }
      destruct X as (ath & Hl). apply (leads_solo _ _ _ (id i)).
      + intros o Ho. unfold do_move. cbn [s_sh]. rewrite Hcr. pose proof (solo_ok cf z Hg Ht Hfin Hnever Hdpi K HK _ _ _ _ _ _ _ o _ HR Hl (Hexp _ Ho) Hx) as X.
        destruct (step cf (id i) o (mkState s ths)) as [st'|]; [exists st'; reflexivity|discriminate].
      + intros o st' Ho H. unfold do_move in H. cbn [s_sh] in H. rewrite Hcr in H. pose proof (solo_ok cf z Hg Ht Hfin Hnever Hdpi K HK _ _ _ _ _ _ _ o _ HR Hl (Hexp _ Ho) Hx) as X.
        rewrite H in X. destruct X as (c & Hc & HRc). exact (Hr _ _ Hc HRc).
    - assert (X : (exists x, live_at (a_th a) i x) /\ exists y, live_at (a_th a) j y).
      { unfold acomm in Hx. unfold live_at. destruct (Nat.eqb i j); [discriminate|]. destruct (nth_error (a_th a) i) as [[ath|]|]; try discriminate. destruct (nth_error (a_th a) j) as [[ath'|]|]; try discriminate.
        split; eexists; reflexivity. }
      destruct X as ((athi & Hi) & (athj & Hj)). pose proof (comm_ok cf z Hg Ht K HK _ _ _ _ _ _ _ _ _ _ HR Hi Hj Hx) as X.
      destruct (comm (id i) (id j) (mkState s ths)) as [st'|] eqn:E; [|discriminate]. destruct X as (c & Hc & HRc).
      apply (leads_comm _ _ _ (id i) (id j) _ st'); [|exact (Hr _ _ Hc HRc)]. unfold do_move. cbn [s_sh]. rewrite Hcr. exact E.
  Qed.
  Lemma ranked_leads l t r target (P : state C -> Prop) : (forall c, known c t = true -> In c l) -> (forall a x, In a l -> In x (labels a) -> exists r, amove z x a = Some r /\ forall c, In c r -> known c t = true) ->
    (forall a st, target a = true -> Rel a st -> P st) ->
    (forall a, In a l -> target a = true \/ ranked z t r target a = true \/ match rank_of t r a with Some _ => False | None => True end) ->
    forall n a st, In a l -> match rank_of t r a with Some (_, m) => (m < n)%N | None => False end \/ target a = true -> Rel a st -> leads cf allowed P st.
  Proof.
    intros Hk Hcl HP Hall n. induction n as [n IH] using (well_founded_induction N.lt_wf_0). intros a st Ha Hr HR.
    destruct (target a) eqn:Et; [apply leads_now; exact (HP _ _ Et HR)|]. destruct Hr as [Hr|Hr]; [|discriminate].
    destruct (rank_of t r a) as [[x m]|] eqn:Em; [|contradiction]. destruct (Hall _ Ha) as [X|[X|X]]; [congruence| |rewrite Em in X; contradiction].
    unfold ranked in X. rewrite Et, Em in X. cbn [orb] in X. destruct (amove z x a) as [[|b rs]|] eqn:Ex; try discriminate.
    apply (amove_leads _ _ _ _ _ _ HR Ex). intros c st' Hc HRc. rewrite forallb_forall in X. specialize (X _ Hc). unfold lower in X.
    assert (Hin : In c l).
    { assert (Hx : In x (labels a)).
      { destruct x as [i|i j]; cbn in Ex.
        - unfold asolo in Ex. destruct (nth_error (a_th a) i) as [[ath|]|] eqn:E; try discriminate. apply (labels_solo _ _ _ E).
        - unfold acomm in Ex. destruct (Nat.eqb i j); [discriminate|]. destruct (nth_error (a_th a) i) as [[ath|]|] eqn:E; try discriminate. destruct (nth_error (a_th a) j) as [[ath'|]|] eqn:E'; try discriminate.
          apply (labels_comm _ _ _ _ _ E E'). }
      destruct (Hcl _ _ Ha Hx) as (rs' & E & Hkn). apply Hk, Hkn. congruence. }
    apply (IH m Hr c st' Hin); [|exact HRc]. apply orb_prop in X as [X|X]; [right; exact X|left]. destruct (rank_of t r c) as [[y k]|]; [apply N.ltb_lt; exact X|discriminate].
  Qed.
  End Program.

  (** The beginnings. *)
  Lemma begin_ok e p cs : code_at e = Some [] -> K p cs -> exists x, In x (begins z e p) /\ thr cf z K (fun n => n) x (client_thread (C := C) (client_code cf cs)) /\ t_kind x = KClient /\ t_mode x = AAt.
  Proof.
    intros He Ha. assert (L : lrel (mkAloc None None None None None None None None None) (locals0 : locals C)) by (constructor; exact Logic.I).
    destruct cs as [|c cs]; [|destruct (HK _ _ _ Ha) as (pc & q & Hin & Hcode & Hacc)].
    - exists (begin p e). split; [left; reflexivity|]. split; [|split; reflexivity]. constructor; cbn; try assumption; try reflexivity.
      exists [], []. split; [exact He|]. split; [exists []; split; [reflexivity|exact Ha]|]. split; reflexivity.
    - exists (enter z (begin p e) (pc, q)). split; [right; apply in_map; exact Hin|]. split; [|split; reflexivity]. constructor; cbn [t_kind t_loc t_defer t_pc t_phase t_mode enter begin fst snd]; try reflexivity.
      + apply lrel_keep. exact L.
      + exists (call_code cf c ++ [IReturn (returns_error c)]), (client_code cf cs). split; [exact Hcode|]. split; [exists cs; split; [reflexivity|exact Hacc]|].
        split; [reflexivity|]. intros H. apply app_eq_nil in H as (_ & H). discriminate.
  Qed.
  Lemma all_begin_ok e ps css : code_at e = Some [] -> Forall2 K ps css -> exists xs, In xs (all_begin z e ps) /\
    Forall2 (fun x cs => thr cf z K (fun n => n) x (client_thread (C := C) (client_code cf cs)) /\ t_kind x = KClient /\ t_mode x = AAt) xs css.
  Proof.
    intros He. induction 1 as [|p cs ps css H _ IH]; [exists []; split; [left; reflexivity|constructor]|].
    destruct IH as (xs & Hxs & HF). destruct (begin_ok _ _ _ He H) as (x & Hx & Hthr). exists (x :: xs). split.
    - cbn [all_begin]. apply in_flat_map. exists x. split; [exact Hx|apply in_map; exact Hxs].
    - constructor; assumption.
  Qed.
  Lemma start_ok e ps css : code_at e = Some [] -> Forall2 K ps css -> exists a, In a (first_states z e ps) /\ Rel a (start (C := C) (map (client_code cf) css)).
  Proof.
    intros He H. destruct (all_begin_ok _ _ _ He H) as (xs & Hxs & HF). eexists. split; [unfold first_states; apply in_map; exact Hxs|].
    assert (Hac : acks (map Some xs) = []).
    { clear - HF. induction HF as [|x cs xs css (_ & _ & Hm) _ IH]; [reflexivity|]. cbn. rewrite Hm. exact IH. }
    assert (HN : forall i ath, live_at (map Some xs) i ath -> exists cs, nth_error css i = Some cs /\ thr cf z K (fun n => n) ath (client_thread (C := C) (client_code cf cs))).
    { intros i ath Hl. unfold live_at in Hl. rewrite nth_error_map in Hl. destruct (nth_error xs i) as [x|] eqn:E; [|discriminate]. injection Hl as ->.
      clear - HF E. revert i E. induction HF as [|x cs xs css (Ht & _) _ IH]; intros [|i] E; try discriminate; cbn in E.
      - injection E as ->. exists cs. split; [reflexivity|exact Ht].
      - exact (IH _ E). }
    exists (fun n => n), (fun n => n). constructor; cbn [s_sh s_th start].
    - constructor; cbn; try reflexivity; try lia; repeat split.
    - unfold refs. cbn [a_th a_ack]. rewrite Hac. constructor; cbn; try tauto; [intros n [<-|[]]; lia].
    - intros i Hi. discriminate.
    - constructor; cbn [a_th].
      + reflexivity.
      + intros i ath Hl. destruct (HN _ _ Hl) as (cs & Hn & Hthr). eexists. split; [|exact Hthr]. rewrite map_map, nth_error_map, Hn. reflexivity.
      + intros t th Hth. right. rewrite map_map, nth_error_map in Hth. destruct (nth_error css t) as [cs|] eqn:E; [|discriminate].
        assert (X : exists x, nth_error xs t = Some x).
        { clear - HF E. revert t E. induction HF as [|x cs' xs css _ _ IH]; intros [|t] E; try discriminate; cbn in E; [exists x; reflexivity|exact (IH _ E)]. }
        destruct X as (x & Hx). exists t, x. split; [|reflexivity]. unfold live_at. rewrite nth_error_map, Hx. reflexivity.
      + intros i j x y _ _ E. exact E.
  Qed.

  Notation tab l := (tabulate l 1 (PositiveMap.empty _)).
  Lemma survey_closed l : fst (survey z (tab l) l) = true ->
    forall a x, In a l -> In x (labels a) -> exists r, amove z x a = Some r /\ forall c, In c r -> known c (tab l) = true.
  Proof. intros Hb a x Ha Hx. apply inside_spec; [|exact Hx]. apply (survey_spec _ l); [exact Hb|exact Ha]. Qed.
  Lemma reached_in e ps l : program_ok (z_prog z) = true -> over z e = true -> fst (survey z (tab l) l) = true -> forallb (fun a => known a (tab l)) (first_states z e ps) = true ->
    forall css st, Forall2 K ps css -> reached cf allowed css st -> exists a, In a l /\ Rel a st.
  Proof.
    intros Hg He Hb Hfirst css st Hcss (ms & Hms & Hex).
    assert (Hcode : code_at e = Some []) by (unfold over in He; unfold ExploreEq.code_at; destruct (PositiveMap.find e (g_codes (z_prog z))) as [[|]|]; try discriminate; reflexivity).
    destruct (start_ok _ _ _ Hcode Hcss) as (a & Ha & HR). rewrite forallb_forall in Hfirst. pose proof (known_in _ _ (Hfirst _ Ha)) as Hal.
    refine (exec_in Hg l a _ ms _ _ Hal HR Hms Hex). intros a' x Ha' Hx. destruct (survey_closed _ Hb _ _ Ha' Hx) as (r & Er & Hr). exists r. split; [exact Er|]. intros c Hc. apply known_in, Hr, Hc.
  Qed.
  Lemma led_sound g l target exempt : program_ok (z_prog z) = true -> fst (survey z (tab l) l) = true -> led z (tab l) g l target exempt = true ->
    forall a st (P : state C -> Prop), (forall a st, target a = true -> Rel a st -> P st) -> In a l -> exempt a = false -> Rel a st -> leads cf allowed P st.
  Proof.
    intros Hg Hb Hled a st P HP Ha Hex HR. unfold led in Hled. remember (passes 1000 g (targets target (tab l) l) 1) as r eqn:Er. clear Er.
    rewrite forallb_forall in Hled.
    assert (Hrk : forall a, In a l -> exempt a = true /\ rank_of (tab l) r a = None \/ ranked z (tab l) r target a = true).
    { intros a' Ha'. specialize (Hled _ Ha'). apply orb_prop in Hled as [X|X]; [left|right; exact X]. apply andb_prop in X as (X & Y). split; [exact X|]. destruct (rank_of (tab l) r a'); [discriminate|reflexivity]. }
    assert (X : ranked z (tab l) r target a = true) by (destruct (Hrk _ Ha) as [(X & _)|X]; [congruence|exact X]).
    apply (ranked_leads Hg l _ r target P (fun c => known_in l c) (survey_closed _ Hb) HP) with (n := match rank_of (tab l) r a with Some (_, m) => N.succ m | None => 0%N end) (a := a); [|exact Ha| |exact HR].
    + intros c Hc. destruct (Hrk _ Hc) as [(_ & Y)|Y]; [rewrite Y; right; right; exact Logic.I|right; left; exact Y].
    + unfold ranked in X. apply orb_prop in X as [X|X]; [right; exact X|left]. destruct (rank_of (tab l) r a) as [[x m]|]; [apply N.lt_succ_diag_r|discriminate].
  Qed.

  (** The result of a check. *)
  Lemma verify_sound e fuel ps cs good target exempt : verify z e fuel ps cs good target exempt = true ->
    program_ok (z_prog z) = true /\ exists l, (forall a, In a l -> good a = true) /\
    (forall css st, Forall2 K ps css -> reached cf allowed css st -> exists a, In a l /\ Rel a st) /\
    (forall i a st (P : state C -> Prop), In i cs -> (forall a st, target i a = true -> Rel a st -> P st) -> In a l -> exempt i a = false -> Rel a st -> leads cf allowed P st).
  Proof.
    unfold verify. remember (reach z (Z.to_nat fuel) (first_states z e ps)) as l eqn:El. clear El. destruct (survey z (tab l) l) as [b g] eqn:Es.
    intros H. repeat (apply andb_prop in H as (H & ?)). rename H into Hg, H0 into Hled, H1 into Hgood, H2 into Hfirst, H3 into Hb, H4 into He. split; [exact Hg|]. exists l.
    replace b with (fst (survey z (tab l) l)) in Hb by (rewrite Es; reflexivity).
    split; [apply forallb_forall; exact Hgood|]. split; [exact (reached_in _ _ _ Hg He Hb Hfirst)|].
    intros i a st P Hi. rewrite forallb_forall in Hled. exact (led_sound _ _ _ _ Hg Hb (Hled _ Hi) a st P).
  Qed.
End Use.

Lemma rel_prog {C : Type} (cf : cconf) z z' K a (st : state C) : z_prog z = z_prog z' -> Rel cf z K a st -> Rel cf z' K a st.
Proof.
  intros E (id & am & [H1 H2 H3 [A1 A2 A3 A4]]). exists id, am. constructor; [exact H1|exact H2|exact H3|]. constructor; [exact A1| |exact A3|exact A4].
  intros i ath Hl. destruct (A2 _ _ Hl) as (th & Hth & [B1 B2 B3 B4]). exists th. split; [exact Hth|]. constructor; [exact B1|exact B2| |].
  - unfold defer_ok in *. rewrite <- E. exact B3.
  - rewrite <- E. exact B4.
Qed.
Section With.
  Context {C : Type}.
  Variable cf : cconf.
  Variables z z' : setting.
  Variables allowed allowed' : oracle C -> Prop.
  Hypothesis Ht : cf_timeout cf = false.
  Hypothesis Hfin : forall m, In (is_finished (run_finishing cf) m) (z_fin z).
  Hypothesis Hnever : z_never z = match cf_fin cf with None => true | Some _ => false end && (cf_iter cf =? 0)%Z && (cf_ipd cf =? 0)%Z.
  Hypothesis Hdpi : (0 <? cf_dpi cf)%Z = true -> z_dpi z = true.
  Variable K : nat -> list dcall -> Prop.
  Hypothesis HK : forall p c cs, K p (c :: cs) ->
    exists pc q, In (pc, q) (z_calls z p) /\ ExploreEq.code_at (z_prog z) pc = Some (map erase (call_code cf c ++ [IReturn (returns_error c)])) /\ K q cs.
  Hypothesis Hexp : forall o, allowed o -> expected z o.
  Hypothesis Hfin' : z_fin z' = z_fin z.
  Hypothesis Hnever' : z_never z' = z_never z.
  Hypothesis Hdpi' : z_dpi z' = z_dpi z.
  Hypothesis Hcalls' : z_calls z' = z_calls z.
  Hypothesis Hprog' : z_prog z' = z_prog z.
  Hypothesis Hexp' : forall o, allowed' o -> expected z' o.
  Lemma verify_with_sound e fuel ps cs good target exempt : verify_with z z' e fuel ps cs good target exempt = true ->
    program_ok (z_prog z) = true /\ exists l, (forall a, In a l -> good a = true) /\
    (forall css (st : state C), Forall2 K ps css -> reached cf allowed css st -> exists a, In a l /\ Rel cf z K a st) /\
    (forall i a st (P : state C -> Prop), In i cs -> (forall a st, target i a = true -> Rel cf z K a st -> P st) -> In a l -> exempt i a = false -> Rel cf z K a st -> leads cf allowed' P st).
  Proof.
    unfold verify_with. remember (reach z (Z.to_nat fuel) (first_states z e ps)) as l eqn:El. clear El. destruct (survey z' (tabulate l 1 (PositiveMap.empty _)) l) as [b g] eqn:Es.
    intros H. apply andb_prop in H as (H & X). apply andb_prop in X as (Hb' & Hled). apply andb_prop in H as (H & Hgood). apply andb_prop in H as (H & Hfirst). apply andb_prop in H as (H & Hb). apply andb_prop in H as (Hg & He).
    split; [exact Hg|]. exists l.
    replace b with (fst (survey z' (tabulate l 1 (PositiveMap.empty _)) l)) in Hb' by (rewrite Es; reflexivity).
    split; [apply forallb_forall; exact Hgood|]. split; [exact (reached_in cf z allowed Ht Hfin Hnever Hdpi K HK Hexp _ _ _ Hg He Hb Hfirst)|].
    intros i a st P Hi HP Ha Hex HR. rewrite forallb_forall in Hled. rewrite <- Hprog' in Hg.
    refine (led_sound cf z' allowed' Ht _ _ _ K _ Hexp' _ _ _ _ Hg Hb' (Hled _ Hi) a st P _ Ha Hex (rel_prog cf z z' K a st (eq_sym Hprog') HR)).
    - rewrite Hfin'. exact Hfin.
    - rewrite Hnever'. exact Hnever.
    - rewrite Hdpi'. exact Hdpi.
    - rewrite Hcalls', Hprog'. exact HK.
    - intros a' st' H1 H2. exact (HP _ _ H1 (rel_prog cf z' z K _ _ Hprog' H2)).
  Qed.
End With.
