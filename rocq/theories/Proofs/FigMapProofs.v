(** Maps of figures. *)
From Coq Require Import List ZArith Bool String Lia.
From Verif Require Import Base.Go Base.Num Model.Status Model.Finish Model.CtrlLang Model.FigMap Spec.FigMapSpec
  Proofs.GoLemmas Proofs.CtrlSound.
Import ListNotations.
Local Open Scope Z_scope.

Definition sound (st : fig_state) : Prop := (fg_cur st < List.length (fg_maps st))%nat.

Lemma map_write st p k v q : map_at (write st p k v) q =
  if (Nat.eqb q p && Nat.ltb p (List.length (fg_maps st)))%bool then set_figure (map_at st p) k v else map_at st q.
Proof.
  assert (N : forall (l : list figures) x, nth q (upd l p x) [] =
    if (Nat.eqb q p && Nat.ltb p (List.length l))%bool then x else nth q l []).
  { intros l x. rewrite <- !nth_default_eq. unfold nth_default. rewrite nth_error_upd.
    destruct (Nat.eqb q p && Nat.ltb p (List.length l))%bool; reflexivity. }
  apply N.
Qed.
Lemma len_write st p k v : List.length (fg_maps (write st p k v)) = List.length (fg_maps st).
Proof. unfold write, set_maps. cbn [fg_maps]. apply upd_length. Qed.

Lemma map_write_cur st k v : sound st -> map_at (write st (fg_cur st) k v) (fg_cur st) = set_figure (map_at st (fg_cur st)) k v.
Proof. intros H. rewrite map_write, Nat.eqb_refl. apply Nat.ltb_lt in H. rewrite H. reflexivity. Qed.
Lemma map_write_same st p k v : (p < List.length (fg_maps st))%nat ->
  map_at (write st p k v) p = set_figure (map_at st p) k v.
Proof. intros H. rewrite map_write, Nat.eqb_refl. apply Nat.ltb_lt in H. rewrite H. reflexivity. Qed.
Lemma map_write_other st p k v q : q <> p -> map_at (write st p k v) q = map_at st q.
Proof. intros H. apply Nat.eqb_neq in H. rewrite map_write, H. reflexivity. Qed.

Lemma store_counters_spec st : sound st ->
  map_at (store_counters st) (fg_cur st) =
    set_figure (set_figure (set_figure (map_at st (fg_cur st)) "iterations" (b64_of_Z (fg_iter st)))
      "pushedData" (b64_of_Z (fg_pushed st))) "lastDataTime" (b64_of_Z (fg_last st)) /\
  (forall q, q <> fg_cur st -> map_at (store_counters st) q = map_at st q) /\
  List.length (fg_maps (store_counters st)) = List.length (fg_maps st) /\
  fg_cur (store_counters st) = fg_cur st /\ counters (store_counters st) = counters st.
Proof.
  intros H. unfold store_counters.
  set (s1 := write st (fg_cur st) "iterations" _).
  assert (H1 : sound s1) by (unfold sound, s1; rewrite len_write; exact H).
  change (fg_cur s1) with (fg_cur st). set (s2 := write s1 (fg_cur st) "pushedData" _).
  assert (H2 : sound s2) by (unfold sound, s2; rewrite len_write; exact H1).
  change (fg_cur s2) with (fg_cur st).
  split; [|split; [|split; [|split; reflexivity]]].
  - rewrite map_write_same by exact H2. unfold s2 at 1. rewrite map_write_same by exact H1.
    unfold s1 at 1. rewrite map_write_same by exact H. reflexivity.
  - intros q Hq. rewrite map_write_other by exact Hq. unfold s2. rewrite map_write_other by exact Hq.
    unfold s1. rewrite map_write_other by exact Hq. reflexivity.
  - rewrite len_write. unfold s2. rewrite len_write. unfold s1. apply len_write.
Qed.

Lemma map_new st rf : map_at (new_map st rf) (fg_cur (new_map st rf)) = rf.
Proof. unfold map_at, new_map. cbn [fg_maps fg_cur]. rewrite app_nth2, Nat.sub_diag by lia. reflexivity. Qed.
Lemma map_new_old st rf q : (q < List.length (fg_maps st))%nat -> map_at (new_map st rf) q = map_at st q.
Proof. intros H. unfold map_at, new_map. cbn [fg_maps]. apply app_nth1. exact H. Qed.
Lemma sound_new st rf : sound (new_map st rf).
Proof. unfold sound, new_map. cbn [fg_maps fg_cur]. rewrite app_length. cbn. lia. Qed.

(** What one operation does to the maps. *)
Lemma step_spec st op : sound st ->
  sound (fig_step st op) /\ (List.length (fg_maps st) <= List.length (fg_maps (fig_step st op)))%nat /\
  (fg_cur (fig_step st op) = fg_cur st \/ (List.length (fg_maps st) <= fg_cur (fig_step st op))%nat) /\
  forall p, (p < List.length (fg_maps st))%nat -> leaves p op ->
    (p <> fg_cur st -> map_at (fig_step st op) p = map_at st p) /\
    forall k, ~ In k controller_keys -> figure (map_at (fig_step st op) p) k = figure (map_at st p) k.
Proof.
  intros H.
  assert (K : forall rf k v k', In k controller_keys -> ~ In k' controller_keys ->
    figure (set_figure rf k v) k' = figure rf k').
  { intros rf k v k' Hk Hk'. rewrite figure_set. destruct (String.eqb_spec k k') as [->|]; [contradiction|reflexivity]. }
  assert (KI : In "iterations"%string controller_keys) by (cbn; auto).
  assert (KP : In "pushedData"%string controller_keys) by (cbn; auto).
  assert (KL : In "lastDataTime"%string controller_keys) by (cbn; auto).
  assert (KD : In "duration"%string controller_keys) by (cbn; auto).
  destruct op as [now|rf d|d| |q k v]; cbn [fig_step].
  - set (s1 := mkFig _ _ _ _ _ _). assert (H1 : sound s1) by exact H.
    destruct (store_counters_spec s1 H1) as (A & B & L & E & _).
    unfold sound. rewrite L, E. split; [exact H|]. split; [cbn; lia|]. split; [left; reflexivity|].
    intros p Hp _. split; [exact (B p)|].
    intros k Hk. destruct (Nat.eq_dec p (fg_cur s1)) as [->|Ne]; [|rewrite B by exact Ne; reflexivity].
    rewrite A, !K by assumption. reflexivity.
  - set (s1 := mkFig _ _ _ _ _ _). set (s2 := new_map s1 _). set (s3 := write s2 _ _ _).
    assert (H2 : sound s2) by apply sound_new.
    assert (H3 : sound s3) by (unfold sound, s3; rewrite len_write; exact H2).
    destruct (store_counters_spec s3 H3) as (A & B & L & E & _).
    assert (L3 : List.length (fg_maps s3) = S (List.length (fg_maps st))).
    { unfold s3. rewrite len_write. unfold s2, new_map. cbn [fg_maps]. rewrite app_length. cbn. lia. }
    assert (E3 : fg_cur s3 = List.length (fg_maps st)) by reflexivity.
    unfold sound. rewrite L, E, L3, E3. split; [lia|]. split; [lia|]. split; [right; lia|].
    assert (F : forall p, (p < List.length (fg_maps st))%nat -> map_at (store_counters s3) p = map_at st p).
    { intros p Hp. rewrite B by (rewrite E3; lia). unfold s3. rewrite map_write_other by (change (fg_cur s2) with (List.length (fg_maps st)); lia).
      unfold s2. exact (map_new_old s1 _ p Hp). }
    intros p Hp _. rewrite F by exact Hp. auto.
  - set (s1 := mkFig _ _ _ _ _ _). unfold sound. rewrite len_write. split; [exact H|]. split; [cbn; lia|]. split; [left; reflexivity|].
    intros p Hp _. split; [intros Hn; rewrite map_write_other by exact Hn; reflexivity|].
    intros k Hk. destruct (Nat.eq_dec p (fg_cur s1)) as [->|Ne]; [|rewrite map_write_other by exact Ne; reflexivity].
    rewrite (map_write_cur s1) by exact H. rewrite K by assumption. reflexivity.
  - set (s1 := mkFig _ _ _ _ _ _). set (s2 := new_map s1 _).
    assert (H2 : sound s2) by apply sound_new.
    destruct (store_counters_spec s2 H2) as (A & B & L & E & _).
    assert (L2 : List.length (fg_maps s2) = S (List.length (fg_maps st))).
    { unfold s2, new_map. cbn [fg_maps]. rewrite app_length. cbn. lia. }
    assert (E2 : fg_cur s2 = List.length (fg_maps st)) by reflexivity.
    unfold sound. rewrite L, E, L2, E2. split; [lia|]. split; [lia|]. split; [right; lia|].
    intros p Hp _. rewrite B by (rewrite E2; lia). unfold s2. rewrite (map_new_old s1 _ p Hp). auto.
  - unfold sound. rewrite len_write. split; [exact H|]. split; [lia|]. split; [left; reflexivity|].
    intros p Hp Hl. cbn in Hl. rewrite map_write_other by congruence. auto.
Qed.

Lemma run_spec ops : forall st, sound st ->
  sound (fig_run st ops) /\
  forall p, (p < List.length (fg_maps st))%nat -> Forall (leaves p) ops ->
    (p <> fg_cur st -> map_at (fig_run st ops) p = map_at st p /\ fg_cur (fig_run st ops) <> p) /\
    forall k, ~ In k controller_keys -> figure (map_at (fig_run st ops) p) k = figure (map_at st p) k.
Proof.
  induction ops as [|op ops IH]; intros st H.
  - split; [exact H|]. intros p Hp _. split; [intros Hn; split; [reflexivity|exact (fun E => Hn (eq_sym E))]|reflexivity].
  - destruct (step_spec st op H) as (H1 & L1 & C1 & S1). destruct (IH _ H1) as (H2 & S2).
    split; [exact H2|]. intros p Hp Hl. inversion Hl as [|? ? Hl1 Hl2]; subst.
    destruct (S1 p Hp Hl1) as (A1 & B1). destruct (S2 p (Nat.lt_le_trans _ _ _ Hp L1) Hl2) as (A2 & B2).
    change (fig_run st (op :: ops)) with (fig_run (fig_step st op) ops).
    split.
    + intros Hn. destruct A2 as (A2 & A3); [destruct C1 as [->|C1]; [exact Hn|lia]|].
      rewrite A2. split; [exact (A1 Hn)|exact A3].
    + intros k Hk. rewrite B2, B1 by exact Hk. reflexivity.
Qed.

Lemma sound0 : sound fig0.
Proof. unfold sound, fig0. cbn. lia. Qed.

(** A map replaced by an iteration or by Init is never written again by the algorithm; the other
    figures of a map are never written. *)
Lemma old_main : forall ops1 ops2 p,
  let st := fig_run fig0 ops1 in
  (p < List.length (fg_maps st))%nat -> Forall (leaves p) ops2 ->
  (p <> runtime_figures st -> map_at (fig_run st ops2) p = map_at st p /\ runtime_figures (fig_run st ops2) <> p) /\
  forall k, ~ In k controller_keys -> figure (map_at (fig_run st ops2) p) k = figure (map_at st p) k.
Proof.
  intros ops1 ops2 p st Hp Hl. destruct (run_spec ops2 st (proj1 (run_spec ops1 fig0 sound0))) as (_ & S).
  exact (S p Hp Hl).
Qed.

(** The counters do not depend on what the client writes. *)
Lemma counters_step st st' op : counters st = counters st' -> counters (fig_step st op) = counters (fig_step st' op).
Proof.
  destruct st as [l1 p1 a1 b1 c1 d1], st' as [l2 p2 a2 b2 c2 d2]. unfold counters. cbn. intros [= -> -> -> ->].
  destruct op; reflexivity.
Qed.
Lemma counters_run ops : forall st st', counters st = counters st' ->
  counters (fig_run st ops) = counters (fig_run st' (filter (fun op => negb (is_client op)) ops)).
Proof.
  induction ops as [|op ops IH]; intros st st' H; [exact H|]. cbn [filter].
  change (fig_run st (op :: ops)) with (fig_run (fig_step st op) ops).
  destruct op; cbn [is_client negb];
    try (match goal with |- _ = counters (fig_run st' (?o :: ?l)) =>
           change (fig_run st' (o :: l)) with (fig_run (fig_step st' o) l) end;
         apply IH; apply counters_step; exact H).
  apply IH. exact H.
Qed.

Lemma repair_main : forall ops op,
  match op with OpPush _ | OpSave _ _ | OpReset => True | _ => False end ->
  let st := fig_run fig0 (ops ++ [op]) in
  figure (map_at st (runtime_figures st)) "iterations" = b64_of_Z (fg_iter st) /\
  figure (map_at st (runtime_figures st)) "pushedData" = b64_of_Z (fg_pushed st) /\
  figure (map_at st (runtime_figures st)) "lastDataTime" = b64_of_Z (fg_last st) /\
  counters st = counters (fig_run fig0 (filter (fun o => negb (is_client o)) ops ++ [op])).
Proof.
  intros ops op Hop st.
  assert (E : st = fig_step (fig_run fig0 ops) op) by (unfold st, fig_run; rewrite fold_left_app; reflexivity).
  assert (H0 : sound (fig_run fig0 ops)) by (apply run_spec; apply sound0).
  assert (S : exists s, sound s /\ st = store_counters s).
  { rewrite E. destruct op; try contradiction; cbn [fig_step]; eexists; (split; [|reflexivity]).
    - exact H0.
    - unfold sound. rewrite len_write. apply sound_new.
    - apply sound_new. }
  destruct S as (s & Hs & Es). destruct (store_counters_spec s Hs) as (A & _ & _ & B & D).
  assert (Ec : fg_cur st = fg_cur s) by (rewrite Es; exact B).
  assert (Ed : counters st = counters s) by (rewrite Es; exact D).
  unfold counters in Ed. injection Ed as E1 E2 E3 E4.
  unfold runtime_figures. rewrite Ec, E1, E2, E4, Es, A, !figure_set. cbn [String.eqb Ascii.eqb Bool.eqb].
  split; [reflexivity|]. split; [reflexivity|]. split; [reflexivity|].
  rewrite <- Es. unfold st. rewrite (counters_run (ops ++ [op]) fig0 fig0 eq_refl), filter_app.
  destruct op; try contradiction; reflexivity.
Qed.

(** Without writes of the client the figures are those of Model/CtrlLang.v. *)
Lemma agrees_step {C} st (m : model_st C) op : sound st -> agrees st m -> is_client op = false ->
  agrees (fig_step st op) (model_step m op).
Proof.
  intros H [A B]. unfold counters in B. injection B as B1 B2 B3 B4. intros Hc.
  destruct op as [now|rf d|d| |q k v]; try discriminate; cbn [fig_step model_step]; unfold agrees.
  - set (s1 := mkFig _ _ _ _ _ _). destruct (store_counters_spec s1 H) as (X & _ & _ & E & D).
    rewrite E, X, D. split; [|unfold counters, s1; cbn; congruence].
    unfold model_figures, update_figures, model_pushed, s1. cbn [m_figs m_iter m_pushed m_last fg_cur fg_iter fg_pushed fg_last].
    change (map_at _ (fg_cur st)) with (map_at st (fg_cur st)). rewrite A, B1, B2. reflexivity.
  - set (s1 := mkFig _ _ _ _ _ _). set (s2 := new_map s1 _). set (s3 := write s2 _ _ _).
    assert (H2 : sound s2) by apply sound_new.
    assert (H3 : sound s3) by (unfold sound, s3; rewrite len_write; exact H2).
    destruct (store_counters_spec s3 H3) as (X & _ & _ & E & D). rewrite E, X, D.
    split; [|unfold counters, s3, s2, s1; cbn; congruence].
    assert (M3 : map_at s3 (fg_cur s3) = set_figure (match rf with None => [] | Some rf => rf end) "duration" (b64_of_Z (fg_duration st + d))).
    { unfold s3 at 1. change (fg_cur s3) with (fg_cur s2). rewrite (map_write_cur s2) by exact H2. unfold s2 at 1 2. rewrite map_new. reflexivity. }
    rewrite M3. unfold model_save, model_figures, update_figures. cbn [m_figs m_iter m_pushed m_last].
    change (fg_iter s3) with (fg_iter st + 1). change (fg_pushed s3) with (fg_pushed st). change (fg_last s3) with (fg_last st).
    rewrite B1, B2, B3, B4. reflexivity.
  - set (s1 := mkFig _ _ _ _ _ _). change (fg_cur (write s1 _ _ _)) with (fg_cur s1).
    rewrite (map_write_cur s1) by exact H. split; [|unfold counters, s1; cbn; congruence].
    unfold model_duration. cbn [m_figs]. change (map_at s1 (fg_cur s1)) with (map_at st (fg_cur st)).
    change (fg_duration s1) with (fg_duration st + d). rewrite A, B3. reflexivity.
  - set (s1 := mkFig _ _ _ _ _ _). set (s2 := new_map s1 _).
    assert (H2 : sound s2) by apply sound_new.
    destruct (store_counters_spec s2 H2) as (X & _ & _ & E & D). rewrite E, X, D.
    split; [|unfold counters, s2, s1; cbn; congruence]. unfold s2 at 1 2. rewrite map_new. reflexivity.
Qed.

Lemma agrees_main : forall C ops (m : model_st C), m = mkModel None [] 0 0 0 0 0 ->
  Forall (fun op => is_client op = false) ops ->
  agrees (fig_run fig0 ops) (fold_left model_step ops m).
Proof.
  intros C ops m ->.
  assert (G : forall st (m : model_st C), sound st -> agrees st m -> Forall (fun op => is_client op = false) ops ->
    agrees (fig_run st ops) (fold_left model_step ops m)).
  { induction ops as [|op ops IH]; intros st m H A F; [exact A|]. inversion F; subst. cbn [fold_left fig_run].
    change (fig_run st (op :: ops)) with (fig_run (fig_step st op) ops).
    apply IH; [apply step_spec; exact H|apply agrees_step; assumption|assumption]. }
  apply G; [exact sound0|]. split; reflexivity.
Qed.

(** A map obtained after the first push changes with the second. *)
Lemma live_main : exists ops1 ops2,
  let st := fig_run fig0 ops1 in let p := runtime_figures st in
  Forall (fun op => is_client op = false) (ops1 ++ ops2) /\
  int_of_b64 (figure (map_at st p) "pushedData") = 1 /\
  int_of_b64 (figure (map_at (fig_run st ops2) p) "pushedData") = 2.
Proof.
  exists [OpPush 10], [OpPush 11]. cbv zeta. split; [repeat constructor|]. split; vm_compute; reflexivity.
Qed.

(** A client that writes to the map makes a run of five iterations end before the first. *)
Lemma write_main : exists ops1,
  let st := fig_run fig0 ops1 in let p := runtime_figures st in
  let st1 := fig_step st (OpClient p "iterations" (b64_of_Z 5)) in
  let ocm := fun s => mkFinModel (new_status Running) (map_at s (runtime_figures s)) in
  fg_iter st1 = 0 /\
  is_finished (Some (FIter 5 0)) (ocm st) = false /\ is_finished (Some (FIter 5 0)) (ocm st1) = true.
Proof. exists [OpPush 10]. cbv zeta. split; [reflexivity|]. split; vm_compute; reflexivity. Qed.
