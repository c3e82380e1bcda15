(** Streaming under the controller. *)
From Coq Require Import List ZArith Lia Bool.
From Verif Require Import Base.Go Base.Num Model.Clustering Model.Streaming Model.Status Model.Finish
  Model.CtrlLang Model.CtrlCode Model.CtrlSeq Model.System
  Spec.CtrlSpec Spec.CtrlSeqSpec Spec.StreamingSpec Spec.SystemSpec
  Proofs.GoLemmas Proofs.NumLaws Proofs.NearestProofs Proofs.StreamingProofs Proofs.CtrlSeqProofs Proofs.CtrlSeqMain Proofs.SystemProofs.
Import ListNotations.
Local Open Scope Z_scope.

Definition processed {E} (rs : list (sres E)) : Z :=
  Z.of_nat (length (filter (fun r => match r with RIterate (Some _) => true | _ => false end) rs)).

Section Use.
Context {E F : Type} (N : Num F) (good : F -> Prop) (HN : NumOrd N good) (Sp : Space E F).
Context (bs oa : Z) (ratio : F) (to64 : F -> b64) (cf : cconf) (P : E -> Prop) (elemts : list E).
Notation im := (streaming_implem N Sp bs oa ratio to64).

Lemma sexec_length s ops rs s' : sexec N Sp bs oa ratio s ops rs s' -> length ops = length rs.
Proof. induction 1; cbn; congruence. Qed.
Lemma sexec_snoc s ops rs s1 o r s2 : sexec N Sp bs oa ratio s ops rs s1 -> sstep N Sp bs oa ratio s1 o = Ok (s2, r) ->
  sexec N Sp bs oa ratio s (ops ++ [o]) (rs ++ [r]) s2.
Proof. intros H1 H2. apply (sexec_app N Sp bs oa ratio _ _ _ s1); [exact H1|]. econstructor; [exact H2|constructor]. Qed.
Lemma accepted_app (ops : list (sop E F)) : forall rs o r, length ops = length rs -> accepted (ops ++ [o]) (rs ++ [r]) = accepted ops rs ++ accepted [o] [r].
Proof.
  induction ops as [|o' ops IH]; intros [|r' rs] o r H; try discriminate; [reflexivity|]. cbn [app accepted]. injection H as H.
  destruct o' as [x| |t]; [|apply IH; exact H..]. destruct r' as [[|]| |]; rewrite ?IH by exact H; reflexivity.
Qed.
Lemma processed_app (rs : list (sres E)) r : processed (rs ++ [r]) = processed rs + processed [r].
Proof. unfold processed. rewrite filter_app, app_length. lia. Qed.
Lemma init_first_snoc (rs : list (sres E)) r : init_first rs -> (forall c, r = RIterate (Some c) -> exists c', In (RInit (Some c')) rs) -> init_first (rs ++ [r]).
Proof.
  intros H Hr pre c post Heq. destruct post as [|z0 post0] eqn:Ep; [|destruct (exists_last (l := z0 :: post0)) as (post' & z & Ez); [discriminate|rewrite Ez in Heq]].
  - apply app_inj_tail in Heq. destruct Heq as [<- ->]. apply (Hr c eq_refl).
  - rewrite app_comm_cons, app_assoc in Heq. apply app_inj_tail in Heq. destruct Heq as [-> ->]. apply (H pre c post' eq_refl).
Qed.

Definition TD (log : list (event (list E))) (c : option (list E)) (s : streaming E F) : Prop :=
  exists ops rs, sexec N Sp bs oa ratio (new_streaming N elemts) ops rs s /\ init_first rs /\
    Z.of_nat (length (accepted ops rs)) = total_pushed log /\ Forall P (accepted ops rs) /\ processed rs = total_saved log /\
    (forall c', c = Some c' -> c' <> [] /\ end_of c' (s_clust s)) /\
    (c <> None -> exists c', In (RInit (Some c')) rs).
Definition TA (log : list (event (list E))) (c : option (list E)) (s : streaming E F) : Prop := TD log c s /\ c <> None.

Lemma in_init_app (rs : list (sres E)) r : (exists c', In (RInit (Some c')) rs) -> exists c', In (RInit (Some c')) (rs ++ [r]).
Proof. intros [c' H]. exists c'. apply in_or_app. left. exact H. Qed.

Lemma iterate_runs log c s t : TA log c s ->
  exists s' c' , streaming_iterate N Sp oa ratio s t = Ok (s', c').
Proof.
  intros [(ops & rs & H1 & H2 & _ & _ & _ & _ & H3) Hc]. destruct (accounting_step _ _ N good HN Sp bs oa ratio elemts ops rs s t H1) as [A1 A2].
  destruct (s_queue s) as [|x q'] eqn:Hq.
  - unfold streaming_iterate. rewrite Hq. eauto.
  - assert (Hne : s_clust s <> []) by (apply (clust_ne N Sp bs oa ratio _ _ _ _ H1); left; apply H3; exact Hc).
    destruct (A2 x q' eq_refl Hne) as (s' & Hs & _). cbn [sstep] in Hs. destruct (streaming_iterate N Sp oa ratio s t) as [[a b]|]; [eauto|discriminate].
Qed.

Lemma streaming_preserved : preserved im P TA TD.
Proof.
  split.
  - intros e log c i He. assert (X : TD log c i -> TD (e :: log) c i).
    { intros (ops & rs & H). exists ops, rs. destruct e; try contradiction; exact H. }
    split; [intros [H1 H2]; split; [apply X; exact H1|exact H2]|exact X].
  - intros log c i [H _]. exact H.
  - intros t log c s s' r H Hit. destruct (iterate_runs log c s t H) as (s1 & c1 & Hi). cbn [im_iterate streaming_implem] in Hit. rewrite Hi in Hit.
    injection Hit as <- <-. destruct H as [(ops & rs & H1 & H2 & H3 & H4 & H5 & H6 & H7) Hc].
    assert (Hs : sstep N Sp bs oa ratio s (SIterate t) = Ok (s1, RIterate c1)) by (cbn [sstep]; rewrite Hi; reflexivity).
    pose proof (sexec_snoc _ _ _ _ _ _ _ H1 Hs) as Hx. pose proof (sexec_length _ _ _ _ H1) as Hl.
    pose proof (sstep_cases N Sp bs oa ratio _ _ _ _ Hs) as Hcase. cbn in Hcase.
    destruct c1 as [c1|].
    + destruct (s_queue s) as [|x q'] eqn:Hq; [destruct Hcase; discriminate|]. destruct Hcase as (_ & Hr & _). injection Hr as ->.
      split; [|discriminate]. exists (ops ++ [SIterate t]), (rs ++ [RIterate (Some (s_clust s1))]). split; [exact Hx|].
      split; [apply init_first_snoc; [exact H2|]; intros c' _; apply H7; exact Hc|].
      rewrite (accepted_app ops rs _ _ Hl), processed_app. cbn [accepted]. rewrite app_nil_r. split; [exact H3|]. split; [exact H4|].
      split; [rewrite H5; unfold processed, total_saved; cbn [filter length]; lia|]. split.
      * intros c' [= <-]. split; [|exists []; reflexivity]. apply (clust_ne N Sp bs oa ratio _ _ _ _ Hx). left. apply in_init_app. apply H7. exact Hc.
      * intros _. apply in_init_app, H7. exact Hc.
    + destruct (s_queue s) as [|x q'] eqn:Hq; [|destruct Hcase as (_ & X & _); discriminate]. destruct Hcase as [-> _].
      split; [|exact Hc]. exists (ops ++ [SIterate t]), (rs ++ [RIterate None]). split; [exact Hx|].
      split; [apply init_first_snoc; [exact H2|]; intros c' X; discriminate|].
      rewrite (accepted_app ops rs _ _ Hl), processed_app. cbn [accepted]. rewrite app_nil_r. split; [exact H3|]. split; [exact H4|].
      split; [rewrite H5; unfold processed; cbn [filter length]; lia|]. split; [exact H6|]. intros X. apply in_init_app, H7, X.
  - intros t log c s s' c' e (ops & rs & H1 & H2 & H3 & H4 & H5 & H6 & H7) Hi. cbn [im_init streaming_implem] in Hi.
    destruct (streaming_init N s) as [s1 c1] eqn:Hin. injection Hi as <- Hi.
    assert (Hs : sstep N Sp bs oa ratio s SInit = Ok (s1, RInit c1)) by (cbn [sstep]; rewrite Hin; reflexivity).
    pose proof (sexec_snoc _ _ _ _ _ _ _ H1 Hs) as Hx. pose proof (sexec_length _ _ _ _ H1) as Hl.
    pose proof (sstep_cases N Sp bs oa ratio _ _ _ _ Hs) as Hcase. cbn in Hcase.
    assert (Y1 : init_first (rs ++ [RInit c1])) by (apply init_first_snoc; [exact H2|]; intros c'' X; discriminate).
    assert (Y2 : processed (rs ++ [RInit c1]) = total_saved log) by (rewrite processed_app, H5; unfold processed; cbn [filter length]; lia).
    destruct c1 as [c1|]; injection Hi as <- <-.
    + destruct (s_queue s) as [|x q'] eqn:Hq; [destruct Hcase; discriminate|]. destruct Hcase as (_ & Hr & [Ha _] & _). injection Hr as ->.
      split; [|discriminate]. exists (ops ++ [SInit]), (rs ++ [RInit (Some [x])]). split; [exact Hx|]. split; [exact Y1|].
      rewrite (accepted_app ops rs _ _ Hl). cbn [accepted]. rewrite app_nil_r. split; [exact H3|]. split; [exact H4|]. split; [exact Y2|]. split.
      * intros c' [= <-]. split; [discriminate|]. exists (s_clust s). exact Ha.
      * intros _. exists [x]. apply in_or_app. right. left. reflexivity.
    + exists (ops ++ [SInit]), (rs ++ [RInit None]). split; [exact Hx|]. split; [exact Y1|].
      rewrite (accepted_app ops rs _ _ Hl). cbn [accepted]. rewrite app_nil_r. split; [exact H3|]. split; [exact H4|]. split; [exact Y2|].
      split; [discriminate|]. intros X. contradiction X. reflexivity.
  - intros x log c s s' err Px.
    assert (X : TD log c s -> (let (s', full) := streaming_push bs s x in Some (s', if full then Some 2%nat else None)) = Some (s', err) ->
      TD (match err with None => EvPushed :: log | Some _ => log end) c s').
    { intros (ops & rs & H1 & H2 & H3 & H4 & H5 & H6 & H7) Hp. destruct (streaming_push bs s x) as [s1 full] eqn:Hpu. injection Hp as <- <-.
      assert (Hs : sstep N Sp bs oa ratio s (SPush x) = Ok (s1, RPush full)) by (cbn [sstep]; rewrite Hpu; reflexivity).
      pose proof (sexec_snoc _ _ _ _ _ _ _ H1 Hs) as Hx. pose proof (sexec_length _ _ _ _ H1) as Hl.
      pose proof (sstep_cases N Sp bs oa ratio _ _ _ _ Hs) as Hcase. cbn in Hcase. destruct Hcase as (_ & Hcl & _).
      exists (ops ++ [SPush x]), (rs ++ [RPush full]). split; [exact Hx|].
      split; [apply init_first_snoc; [exact H2|]; intros c' Y; discriminate|].
      rewrite (accepted_app ops rs _ _ Hl), processed_app. cbn [accepted].
      assert (Y : processed rs + processed [RPush (E := E) full] = total_saved log) by (rewrite H5; unfold processed; cbn [filter length]; lia).
      rewrite Hcl. destruct full.
      - rewrite app_nil_r. split; [exact H3|]. split; [exact H4|]. split; [exact Y|]. split; [exact H6|]. intros Z0. apply in_init_app, H7, Z0.
      - rewrite app_length. cbn [length]. split; [unfold total_pushed in *; cbn [filter length]; lia|].
        split; [apply Forall_app; split; [exact H4|constructor; [exact Px|constructor]]|]. split; [exact Y|]. split; [exact H6|]. intros Z0. apply in_init_app, H7, Z0. }
    cbn [im_push streaming_implem]. split; [|exact X]. intros [H1 H2] Hp. split; [apply X; assumption|exact H2].
Qed.

Lemma streaming_use xs q s : Z.of_nat (length elemts) <= bs -> pushes_only P xs ->
  sys_acts cf im xs (seq0, new_streaming N elemts) = Some (q, s) ->
  exists ops rs, sexec N Sp bs oa ratio (new_streaming N elemts) ops rs s /\ init_first rs /\
    Z.of_nat (length (accepted ops rs)) = total_pushed (q_log q) /\ Forall P (accepted ops rs) /\
    zsum (s_cards s) + Z.of_nat (length (s_queue s)) = Z.of_nat (length elemts) + total_pushed (q_log q) /\
    Z.of_nat (length (s_queue s)) <= bs /\
    (forall c, m_centroids (q_model q) = Some c -> c <> [] /\ end_of c (s_clust s)) /\
    (st_alive (q_status q) = true -> m_centroids (q_model q) <> None /\
       forall t, exists s' c' f, im_iterate im t s (m_centroids (q_model q)) = (s', IterRes c' f None)).
Proof.
  intros Hbs Hx Hs.
  assert (H0 : TD [] None (new_streaming N elemts)).
  { exists [], []. split; [constructor|]. split; [intros [|? ?] ? ? X; discriminate|]. split; [reflexivity|]. split; [constructor|]. split; [reflexivity|].
    split; [discriminate|]. intros X. contradiction X. reflexivity. }
  assert (Hok : Forall (action_ok P) xs).
  { apply Forall_forall. intros [c now|p] Hin; [|exact I]. destruct c; try exact I. exact (Hx _ _ _ Hin). }
  pose proof (sys_invariant cf im P TA TD streaming_preserved xs _ (q, s) H0 Hok Hs) as H. unfold holds_in in H. cbn [fst snd] in H.
  assert (HD : TD (q_log q) (m_centroids (q_model q)) s) by (destruct (st_alive (q_status q)); [apply H|exact H]).
  destruct HD as (ops & rs & H1 & H2 & H3 & H4 & H5 & H6 & H7). exists ops, rs. split; [exact H1|]. split; [exact H2|]. split; [exact H3|]. split; [exact H4|].
  destruct (queue_main _ _ N Sp bs oa ratio elemts ops rs s Hbs H1) as (Q1 & Q2 & Q3 & _).
  destruct (accounting_main _ _ N Sp bs oa ratio elemts ops rs s H1) as (_ & _ & A3).
  split; [rewrite A3, Q2, skipn_length; rewrite app_length in *; lia|]. split; [exact Q3|]. split; [exact H6|].
  intros A. rewrite A in H. split; [apply H|]. intros t. destruct (iterate_runs _ _ _ t H) as (s1 & c1 & Hi). cbn [im_iterate streaming_implem]. rewrite Hi. eauto.
Qed.
(** Published centers are the last of the implementation. *)
Lemma published_main xs q s c : Z.of_nat (length elemts) <= bs -> pushes_only P xs ->
  sys_acts cf im xs (seq0, new_streaming N elemts) = Some (q, s) -> m_centroids (q_model q) = Some c -> c <> [] /\ end_of c (s_clust s).
Proof. intros H1 H2 H3. destruct (streaming_use xs q s H1 H2 H3) as (ops & rs & _ & _ & _ & _ & _ & _ & H & _). apply H. Qed.
End Use.
