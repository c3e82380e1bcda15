(** What a state of the account says of the states of the executions it stands for. *)
From Coq Require Import List ZArith Bool Lia FMapPositive.
From Verif Require Import Base.Go Base.Num Model.Status Model.Finish Model.CtrlLang Model.CtrlCode Spec.CtrlSpec Spec.ExploreSpec Proofs.GoLemmas
  Proofs.ConfProofs Proofs.Explore Proofs.ExploreRun Proofs.ExploreEq Proofs.ExploreSound Proofs.ExploreUse.
Import ListNotations.
Local Open Scope list_scope.

Definition slot (a : astate) (i : nat) : option athread := match nth_error (a_th a) i with Some o => o | None => None end.
(** The clients [cs] are in their slots. *)
Definition clients_in (cs : list nat) (a : astate) : bool :=
  forallb (fun i => match slot a i with Some th => kind_eqb (t_kind th) KClient | None => false end) cs.
(** At most one run goroutine. *)
Definition is_runner (o : option athread) : bool := match o with Some th => kind_eqb (t_kind th) KRunner | None => false end.
Fixpoint at_most_one (l : list (option athread)) : bool :=
  match l with [] => true | o :: l' => if is_runner o then negb (existsb is_runner l') else at_most_one l' end.
(** A run goroutine is there. *)
Definition live_runner (z : setting) (o : option athread) : bool := match o with Some th => kind_eqb (t_kind th) KRunner && negb (over z (t_pc th)) | None => false end.
(** The statement a goroutine is at. *)
Definition at_instr (z : setting) (o : option athread) : option instr :=
  match o with
  | Some th => match t_mode th with AAt => if over z (t_pc th) then None else Some (n_instr (node_at z (t_pc th))) | _ => None end
  | None => None
  end.
Definition at_return (z : setting) (i : nat) (a : astate) : bool :=
  match slot a i with
  | Some th => kind_eqb (t_kind th) KClient && match at_instr z (Some th) with Some (IReturn _) => true | _ => false end
  | None => false
  end.
Definition at_end (z : setting) (i : nat) (a : astate) : bool := match slot a i with Some th => over z (t_pc th) | None => false end.
(** No two goroutines are at conflicting accesses of a field of [fs]. *)
Definition field_eqb (f g : field) : bool :=
  match f, g with
  | FStatusField, FStatusField | FCentroids, FCentroids | FFigures, FFigures | FNewData, FNewData | FAck, FAck | FTimeout, FTimeout => true
  | _, _ => false
  end.
Definition touches (z : setting) (o : option athread) : list (field * bool) := match at_instr z o with Some i => accesses i | None => [] end.
Definition conflict (fs : list field) (x y : list (field * bool)) : bool :=
  existsb (fun p => existsb (field_eqb (fst p)) fs && existsb (fun q => field_eqb (fst p) (fst q) && (snd p || snd q)) y) x.
Fixpoint no_conflict (fs : list field) (l : list (list (field * bool))) : bool :=
  match l with [] => true | x :: l' => forallb (fun y => negb (conflict fs x y)) l' && no_conflict fs l' end.
Definition race_free (z : setting) (fs : list field) (a : astate) : bool := no_conflict fs (map (touches z) (a_th a)).

Lemma kind_eqb_eq a b : kind_eqb a b = true -> a = b.
Proof. destruct a, b; cbn; congruence. Qed.
Lemma accesses_erase i : accesses (erase i) = accesses i.
Proof. destruct i; try reflexivity; cbn. - destruct g; try reflexivity. cbn. destruct (plain_wait f d); reflexivity. - destruct c; try reflexivity. cbn. destruct (plain_wait f d); reflexivity. Qed.
Lemma at_most_one_spec l : at_most_one l = true -> forall i j x y, nth_error l i = Some (Some x) -> nth_error l j = Some (Some y) -> t_kind x = KRunner -> t_kind y = KRunner -> i = j.
Proof.
  assert (X : forall l j y, nth_error l j = Some (Some y) -> t_kind y = KRunner -> existsb is_runner l = true).
  { intros l' j y H E. apply existsb_exists. exists (Some y). split; [exact (nth_error_In _ _ H)|]. cbn. rewrite E. reflexivity. }
  induction l as [|o l IH]; cbn; intros H [|i] [|j] x y Hi Hj Kx Ky; cbn in Hi, Hj; try discriminate; [reflexivity| | |].
  - injection Hi as ->. cbn in H. rewrite Kx in H. cbn in H. rewrite (X _ _ _ Hj Ky) in H. discriminate.
  - injection Hj as ->. cbn in H. rewrite Ky in H. cbn in H. rewrite (X _ _ _ Hi Kx) in H. discriminate.
  - f_equal. destruct (is_runner o); [rewrite (X _ _ _ Hi Kx) in H; discriminate|]. exact (IH H _ _ _ _ Hi Hj Kx Ky).
Qed.
Lemma no_conflict_spec fs l : no_conflict fs l = true -> forall i j x y, i < j -> nth_error l i = Some x -> nth_error l j = Some y -> conflict fs x y = false.
Proof.
  induction l as [|o l IH]; cbn; intros H [|i] [|j] x y L Hi Hj; try discriminate; try lia; apply andb_prop in H as (H1 & H2); cbn in Hi, Hj.
  - injection Hi as ->. rewrite forallb_forall in H1. specialize (H1 _ (nth_error_In _ _ Hj)). destruct (conflict fs x y); [discriminate|reflexivity].
  - apply (IH H2 i j); [lia|assumption|assumption].
Qed.
Lemma field_eqb_refl f : field_eqb f f = true.
Proof. destruct f; reflexivity. Qed.
Lemma conflict_intro fs x y f v w : In f fs -> In (f, v) x -> In (f, w) y -> v || w = true -> conflict fs x y = true.
Proof.
  intros Hf Hx Hy Hw. unfold conflict. apply existsb_exists. exists (f, v). split; [exact Hx|]. apply andb_true_intro. split.
  - apply existsb_exists. exists f. split; [exact Hf|apply field_eqb_refl].
  - apply existsb_exists. exists (f, w). split; [exact Hy|]. cbn. rewrite field_eqb_refl, Hw. reflexivity.
Qed.

Section Read.
  Context {C : Type}.
  Variable cf : cconf.
  Variable z : setting.
  Variable K : nat -> list dcall -> Prop.
  Hypothesis Hg : program_ok (z_prog z) = true.
  Notation Rel := (Rel (C := C) cf z K).
  Notation rel := (rel (C := C) cf z K).
  Notation thr := (thr (C := C) cf z K).
  Notation code_at := (code_at (z_prog z)).

  Lemma rel_client id am a st i ath : rel id am a st -> slot a i = Some ath -> t_kind ath = KClient -> exists th, nth_error (s_th st) i = Some th /\ thr am ath th.
  Proof.
    intros HR Hs Hk. assert (Hl : live_at (a_th a) i ath) by (unfold slot in Hs; unfold live_at; destruct (nth_error (a_th a) i); congruence).
    destruct (rel_th _ _ _ _ _ _ _ HR) as [Hc Hlive _ _]. destruct (Hlive _ _ Hl) as (th & Hn & Ht). rewrite (Hc _ _ Hl Hk) in Hn. exists th. split; assumption.
  Qed.
  (** A goroutine about to execute a statement with accesses, or to return, is at it. *)
  Lemma thr_at am ath th i k : thr am ath th -> th_code th = i :: k -> match i with IAcquire _ | ISending _ _ | IReceiving _ => False | _ => True end -> at_instr z (Some ath) = Some (erase i).
  Proof.
    intros [_ _ _ (k0 & tail & Hpc & _ & Hin)] Hc Hi. unfold at_instr. destruct (t_mode ath); cbn [in_place] in Hin.
    - destruct Hin as (Ec & Et). rewrite (over_spec _ _ _ Hpc). destruct k0 as [|i0 k0]; [rewrite Ec, (Et eq_refl) in Hc; discriminate|].
      rewrite Ec in Hc. cbn in Hc. injection Hc as -> _. cbn [map] in Hpc. destruct (node_spec _ Hg _ _ _ Hpc) as (n & Hn & En & _). unfold node_at. rewrite Hn, En. reflexivity.
    - destruct Hin as (? & ? & _ & E). rewrite E in Hc. injection Hc as <- _. contradiction.
    - destruct Hin as (? & ? & ? & _ & _ & E). rewrite E in Hc. injection Hc as <- _. contradiction.
    - destruct Hin as (? & ? & _ & E). rewrite E in Hc. injection Hc as <- _. contradiction.
  Qed.
  Lemma at_thr am ath th i : thr am ath th -> at_instr z (Some ath) = Some i -> exists i0 k tail, th_code th = i0 :: k ++ tail /\ erase i0 = i /\ tail_ok cf K (t_kind ath) (t_phase ath) tail.
  Proof.
    intros [_ _ _ (k0 & tail & Hpc & Ht & Hin)] Hat. unfold at_instr in Hat. destruct (t_mode ath); try discriminate. cbn in Hin. destruct Hin as (Ec & _). rewrite (over_spec _ _ _ Hpc) in Hat.
    destruct k0 as [|i0 k0]; [discriminate|]. cbn [map] in Hpc. destruct (node_spec _ Hg _ _ _ Hpc) as (n & Hn & En & _). unfold node_at in Hat. rewrite Hn in Hat. injection Hat as <-.
    exists i0, k0, tail. split; [exact Ec|]. split; [congruence|exact Ht].
  Qed.
  Lemma erase_return i b : erase i = IReturn b -> i = IReturn b.
  Proof. destruct i; cbn; congruence. Qed.

  Lemma at_return_ok i a st : at_return z i a = true -> Rel a st -> returning i st.
  Proof.
    unfold at_return. intros H (id & am & HR). destruct (slot a i) as [ath|] eqn:Es; [|discriminate]. apply andb_prop in H as (Hk & H). apply kind_eqb_eq in Hk.
    destruct (rel_client _ _ _ _ _ _ HR Es Hk) as (th & Hn & Ht). destruct (at_instr z (Some ath)) as [x|] eqn:E; [|discriminate]. destruct x; try discriminate.
    destruct (at_thr _ _ _ _ Ht E) as (i0 & k & tail & Ec & Ei & _). apply erase_return in Ei. subst i0. exists e, th, (k ++ tail). split; assumption.
  Qed.
  Lemma at_end_ok cs i a st : clients_in cs a = true -> In i cs -> at_end z i a = true -> Rel a st -> ended st i.
  Proof.
    unfold clients_in, at_end. rewrite forallb_forall. intros Hcs Hi H (id & am & HR). specialize (Hcs _ Hi). destruct (slot a i) as [ath|] eqn:Es; [|discriminate]. apply kind_eqb_eq in Hcs.
    destruct (rel_client _ _ _ _ _ _ HR Es Hcs) as (th & Hn & [_ _ _ (k0 & tail & Hpc & _ & Hin)]). rewrite (over_spec _ _ _ Hpc) in H. destruct k0; [|discriminate].
    exists th. split; [exact Hn|]. destruct (t_mode ath); cbn in Hin; [destruct Hin as (-> & E); exact (E eq_refl)|destruct Hin as (? & ? & ? & _); discriminate|destruct Hin as (? & ? & ? & ? & _); discriminate|destruct Hin as (? & ? & ? & _); discriminate].
  Qed.
  Lemma not_ended cs i a st : clients_in cs a = true -> In i cs -> Rel a st -> ~ ended st i -> at_end z i a = false.
  Proof. intros H Hi HR Hn. destruct (at_end z i a) eqn:E; [|reflexivity]. exfalso. apply Hn. exact (at_end_ok _ _ _ _ H Hi E HR). Qed.

  Lemma one_runner_ok a st : at_most_one (a_th a) = true -> Rel a st -> forall t u, kind_of st t = Some KRunner -> kind_of st u = Some KRunner -> ~ ended st t -> ~ ended st u -> t = u.
  Proof.
    intros H (id & am & HR) t u Ht Hu Et Eu. destruct (rel_th _ _ _ _ _ _ _ HR) as [Hc Hlive Ho _].
    assert (X : forall t, kind_of st t = Some KRunner -> ~ ended st t -> exists i ath, nth_error (a_th a) i = Some (Some ath) /\ id i = t /\ t_kind ath = KRunner).
    { intros v Hv Ev. unfold kind_of in Hv. destruct (nth_error (s_th st) v) as [th|] eqn:E; [|discriminate]. injection Hv as Hv.
      destruct (Ho _ _ E) as [(Ec & _)|(i & ath & Hl & Hi)]; [exfalso; apply Ev; exists th; split; assumption|]. exists i, ath. split; [exact Hl|]. split; [exact Hi|].
      destruct (Hlive _ _ Hl) as (th' & Hn & [Hk _ _ _]). rewrite Hi, E in Hn. injection Hn as <-. congruence. }
    destruct (X _ Ht Et) as (i & x & Hi & <- & Kx). destruct (X _ Hu Eu) as (j & y & Hj & <- & Ky). f_equal. exact (at_most_one_spec _ H _ _ _ _ Hi Hj Kx Ky).
  Qed.

  Lemma live_runner_ok a st : existsb (live_runner z) (a_th a) = true -> Rel a st -> exists t, kind_of st t = Some KRunner /\ ~ ended st t.
  Proof.
    intros H (id & am & HR). apply existsb_exists in H as (o & Hin & H). destruct o as [ath|]; [|discriminate H]. apply In_nth_error in Hin as (i & Hi). cbn in H. apply andb_prop in H as (Hk & Hov). apply kind_eqb_eq in Hk.
    destruct (h_live _ _ _ _ _ _ _ (rel_th _ _ _ _ _ _ _ HR) _ _ Hi) as (th & Hn & [Ek _ _ (k0 & tail & Hpc & _ & Hin)]). exists (id i). split; [unfold kind_of; rewrite Hn; cbn; rewrite Ek, Hk; reflexivity|].
    intros (th' & Hn' & Ec). rewrite Hn in Hn'. injection Hn' as <-. rewrite (over_spec _ _ _ Hpc) in Hov. destruct k0 as [|i0 k0]; [discriminate Hov|].
    destruct (t_mode ath); cbn in Hin; [destruct Hin as (E & _)|destruct Hin as (? & ? & _ & E)|destruct Hin as (? & ? & ? & _ & _ & E)|destruct Hin as (? & ? & _ & E)]; rewrite E in Ec; discriminate Ec.
  Qed.

  Lemma race_free_ok fs f a st : race_free z fs a = true -> In f fs -> Rel a st -> ~ data_race st f.
  Proof.
    intros H Hf (id & am & HR) (t & u & i & j & w & Hne & (th & k & Hn & Hc) & (th' & k' & Hn' & Hc') & Hi & Hj).
    destruct (rel_th _ _ _ _ _ _ _ HR) as [_ Hlive Ho _].
    assert (X : forall t th i k w, nth_error (s_th st) t = Some th -> th_code th = i :: k -> In (f, w) (accesses i) -> exists n ath, nth_error (map (touches z) (a_th a)) n = Some (touches z (Some ath)) /\ id n = t /\ In (f, w) (touches z (Some ath))).
    { intros v x y k1 w1 Hv Hx Hy. destruct (Ho _ _ Hv) as [(E & _)|(n & ath & Hl & En)]; [congruence|]. exists n, ath. split; [|split; [exact En|]].
      - rewrite nth_error_map. unfold live_at in Hl. rewrite Hl. reflexivity.
      - destruct (Hlive _ _ Hl) as (x' & Hx' & Ht). rewrite En, Hv in Hx'. injection Hx' as <-. unfold touches. rewrite (thr_at _ _ _ _ _ Ht Hx), accesses_erase; [exact Hy|]. destruct y; try exact Logic.I; exact Hy. }
    destruct (X _ _ _ _ _ Hn Hc Hi) as (n & x & Hx & <- & Ix). destruct (X _ _ _ _ _ Hn' Hc' Hj) as (m & y & Hy & <- & Iy).
    assert (Nn : n <> m) by congruence. unfold race_free in H. destruct (Nat.lt_ge_cases n m) as [L|L].
    - pose proof (no_conflict_spec _ _ H _ _ _ _ L Hx Hy) as E. rewrite (conflict_intro fs _ _ f true w Hf Ix Iy eq_refl) in E. discriminate.
    - assert (L' : m < n) by lia. pose proof (no_conflict_spec _ _ H _ _ _ _ L' Hy Hx) as E. rewrite (conflict_intro fs _ _ f w true Hf Iy Ix (orb_true_r _)) in E. discriminate.
  Qed.
End Read.
