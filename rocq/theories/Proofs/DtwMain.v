(** Dynamic time warping: statements C46-C53. *)
From Coq Require Import List ZArith Lia Bool Reals Lra.
From Verif Require Import Base.Go Base.Num Spec.RealSpec Proofs.EuclidProofs Proofs.EuclidFloat Model.Clustering Model.Dtw Spec.DtwSpec Spec.NearestSpec Model.Euclid
  Proofs.GoLemmas Proofs.NumLaws Proofs.DtwProofs Proofs.DtwNum Proofs.DtwInterp.
Import ListNotations.
Local Open Scope Z_scope.

Lemma slen_pos {A} (l : list A) : l <> [] -> 1 <= slen l.
Proof. destruct l; [congruence|]. unfold slen. cbn [length]. lia. Qed.
Lemma eff_window_pos window l : 0 < window -> eff_window window l = window.
Proof. intros H. unfold eff_window. destruct (Z.eqb_spec window 0); [lia|reflexivity]. Qed.

(** Everything about NewDTWWindow, for a window w. *)
Lemma new_dtw_ok {P F} (N : Num F) inf (pdist : P -> P -> F) s1 s2 window : s1 <> [] -> s2 <> [] -> 0 <= window ->
  let w := eff_window window (slen s2) in Z.abs (slen s1 - slen s2) <= w ->
  exists d, new_dtw_window N inf pdist s1 s2 window = Ok d /\
    wpath anywhere (last_cell s1 s2) (rev (d_path d)) /\
    forall nn, CostNum N inf nn -> (forall p q, In p s1 -> In q s2 -> nn (pdist p q)) -> forall p0,
      nn (d_dist d) /\
      wpath (within w) (last_cell s1 s2) (rev (d_path d)) /\
      sum_along N (at_cell pdist p0 s1 s2) (rev (d_path d)) = d_dist d /\
      (forall p, wpath (within w) (last_cell s1 s2) p -> nleb N (d_dist d) (sum_along N (at_cell pdist p0 s1 s2) p) = true).
Proof.
  intros E1 E2 Hw0 w Hd. apply slen_pos in E1 as L1. apply slen_pos in E2 as L2.
  assert (Hw : 1 <= w) by (unfold w, eff_window; destruct (Z.eqb_spec window 0); lia).
  destruct s1 as [|x0 s1']; [congruence|]. set (s1 := x0 :: s1') in *.
  destruct (matrix_total N inf pdist x0 s1 s2 w) as (V & p & H1 & HI & H2 & H3 & H4); try lia.
  exists (mkDtw p (G inf s2 w V (slen s1 - 1) (slen s2 - 1))). split.
  - unfold new_dtw_window. fold w. rewrite H1. cbn [obind]. rewrite H2. cbn [obind]. rewrite H4. reflexivity.
  - cbn [d_path d_dist]. split; [apply path_anywhere in H3; [exact H3|lia|lia]|].
    intros nn CN Hnn p0.
    (* the invariant does not depend on the default point *)
    assert (HI' : Inv N inf pdist p0 s1 s2 w V (slen s1) 0).
    { destruct HI as [Ha Hb]. split; [exact Ha|]. intros i j Hv Hbf. rewrite (Hb i j Hv Hbf).
      destruct Hv as (Hi & Hj & _). unfold recval, dcell, at_cell. cbn [fst snd].
      rewrite (nth_indep s1 x0 p0) by (unfold slen in Hi; lia).
      rewrite (nth_indep s2 x0 p0) by (unfold slen in Hj; lia). reflexivity. }
    assert (Hv : valid s1 s2 w (slen s1 - 1) (slen s2 - 1)).
    { split; [lia|]. split; [lia|]. unfold in_window. apply andb_true_iff. rewrite !Z.leb_le. lia. }
    split; [|split; [|split]].
    + eapply (G_good N inf pdist p0 s1 s2 w) with (nn := nn); eauto; lia.
    + eapply (path_ok N inf pdist p0 s1 s2 w) with (nn := nn) in H3; eauto; try lia. exact (proj1 H3).
    + eapply (path_ok N inf pdist p0 s1 s2 w) with (nn := nn) in H3; eauto; try lia. exact (proj2 H3).
    + intros q Hq. change (slen s1 - 1) with (fst (last_cell s1 s2)). change (slen s2 - 1) with (snd (last_cell s1 s2)).
      eapply (G_least N inf pdist p0 s1 s2 w) with (nn := nn); eauto; unfold last_cell, slen in *; cbn [fst snd]; lia.
Qed.

(** C46 *)
Lemma matrix_in_bounds : forall (P F : Type) (N : Num F) (inf : F) (pdist : P -> P -> F) (s1 s2 : list P) (window : Z),
  s1 <> [] -> s2 <> [] -> 0 < window -> Z.abs (slen s1 - slen s2) <= window ->
  (exists d, new_dtw_window N inf pdist s1 s2 window = Ok d) /\
  (let stride := eff_stride window (slen s2) in
   let cell i j := 0 <= i < slen s1 /\ 0 <= j < slen s2 /\ within window (i, j) in
   (forall i j, cell i j -> 0 <= ravel window stride i j < slen s1 * stride) /\
   (forall i j i' j', cell i j -> cell i' j' -> ravel window stride i j = ravel window stride i' j' -> (i, j) = (i', j'))).
Proof.
  intros P F N inf pdist s1 s2 window E1 E2 Hw Hd. split.
  - destruct (new_dtw_ok N inf pdist s1 s2 window E1 E2) as (d & H & _); [lia|rewrite eff_window_pos; lia|]. eauto.
  - apply slen_pos in E1, E2. cbv zeta.
    assert (Hc : forall i j, 0 <= i < slen s1 /\ 0 <= j < slen s2 /\ within window (i, j) -> valid s1 s2 window i j).
    { intros i j (H1 & H2 & H3). split; [exact H1|]. split; [exact H2|]. unfold within in H3. cbn in H3.
      unfold in_window. apply andb_true_iff. rewrite !Z.leb_le. lia. }
    split.
    + intros i j H. apply ravel_range; try lia. apply Hc; exact H.
    + intros i j i' j' H H' E. destruct (ravel_inj s1 s2 window) with (i := i) (j := j) (i' := i') (j' := j');
        [apply Hc; exact H|apply Hc; exact H'|exact E|congruence].
Qed.

(** C47 *)
Lemma least_of {P F} (N : Num F) inf nn (pdist : P -> P -> F) s1 s2 window : CostNum N inf nn -> (forall p q, In p s1 -> In q s2 -> nn (pdist p q)) ->
  s1 <> [] -> s2 <> [] -> 0 <= window -> let w := eff_window window (slen s2) in Z.abs (slen s1 - slen s2) <= w ->
  exists d, new_dtw_window N inf pdist s1 s2 window = Ok d /\ nn (d_dist d) /\
    least_warping N pdist s1 s2 (within w) (d_dist d).
Proof.
  intros CN Hnn E1 E2 Hw w Hd. destruct (new_dtw_ok N inf pdist s1 s2 window E1 E2 Hw Hd) as (d & H1 & _ & H2).
  exists d. split; [exact H1|]. destruct s1 as [|x0 s1']; [congruence|].
  split; [exact (proj1 (H2 nn CN Hnn x0))|].
  intros p0. destruct (H2 nn CN Hnn p0) as (_ & A & B & C). split; [|exact C]. exists (rev (d_path d)). split; assumption.
Qed.

Lemma dist_is_least : forall (P : Type) (pdist : P -> P -> b64) (s1 s2 : list P) (window : Z),
  (forall p q, In p s1 -> In q s2 -> nneg64 (pdist p q)) ->
  s1 <> [] -> s2 <> [] -> 0 < window -> Z.abs (slen s1 - slen s2) <= window ->
  exists d, new_dtw_window B64Num b64_inf pdist s1 s2 window = Ok d /\
    least_warping B64Num pdist s1 s2 (within window) (d_dist d).
Proof.
  intros P pdist s1 s2 window Hnn E1 E2 Hw Hd.
  destruct (least_of B64Num b64_inf nneg64 pdist s1 s2 window B64CostNum Hnn E1 E2) as (d & H1 & _ & H2);
    [lia|rewrite eff_window_pos; lia|]. rewrite eff_window_pos in H2 by lia. eauto.
Qed.

Lemma sum_along_some (d : Z * Z -> R) p : sum_along ENum (fun c => Some (d c)) p = Some (sum_along RNum d p).
Proof.
  destruct p as [|c p]; [reflexivity|]. cbn [sum_along]. generalize (d c). induction p as [|c' p IH]; intros a; [reflexivity|].
  cbn [fold_left]. rewrite <- IH. reflexivity.
Qed.

Lemma least_exact {P} (rdist : P -> P -> R) s1 s2 al v : s1 <> [] ->
  least_warping ENum (fun p q => Some (rdist p q)) s1 s2 al v -> exists r, v = Some r /\ least_warping RNum rdist s1 s2 al r.
Proof.
  intros E H. destruct s1 as [|x0 s1']; [congruence|]. destruct (H x0) as [(p & Hp & Hs) _].
  unfold at_cell in Hs. rewrite (sum_along_some (fun c => rdist _ _)) in Hs.
  eexists. split; [symmetry; exact Hs|]. intros p0. destruct (H p0) as [(q & Hq & Hsq) Hl].
  rewrite <- Hs in Hsq, Hl. unfold at_cell in Hsq, Hl. rewrite (sum_along_some (fun c => rdist _ _)) in Hsq. split.
  - exists q. split; [exact Hq|]. injection Hsq as Hsq. exact Hsq.
  - intros q' Hq'. specialize (Hl q' Hq'). rewrite (sum_along_some (fun c => rdist _ _)) in Hl. exact Hl.
Qed.

Lemma dist_is_least_exact : forall (P : Type) (rdist : P -> P -> R) (s1 s2 : list P) (window : Z),
  (forall p q, In p s1 -> In q s2 -> 0 <= rdist p q)%R ->
  s1 <> [] -> s2 <> [] -> 0 < window -> Z.abs (slen s1 - slen s2) <= window ->
  exists d r, new_dtw_window ENum None (fun p q => Some (rdist p q)) s1 s2 window = Ok d /\
    d_dist d = Some r /\ least_warping RNum rdist s1 s2 (within window) r.
Proof.
  intros P rdist s1 s2 window Hnn E1 E2 Hw Hd.
  destruct (least_of ENum None enneg (fun p q => Some (rdist p q)) s1 s2 window ECostNum Hnn E1 E2) as (d & H1 & _ & H2);
    [lia|rewrite eff_window_pos; lia|]. rewrite eff_window_pos in H2 by lia.
  destruct (least_exact _ _ _ _ _ E1 H2) as (r & H3 & H4). eauto.
Qed.

(** C48 *)
Lemma path_is_warping : forall (P : Type) (pdist : P -> P -> b64) (s1 s2 : list P) (window : Z),
  (forall p q, In p s1 -> In q s2 -> nneg64 (pdist p q)) ->
  s1 <> [] -> s2 <> [] -> 0 < window -> Z.abs (slen s1 - slen s2) <= window ->
  exists d, new_dtw_window B64Num b64_inf pdist s1 s2 window = Ok d /\
    wpath (within window) (last_cell s1 s2) (rev (d_path d)) /\
    forall p0, sum_along B64Num (at_cell pdist p0 s1 s2) (rev (d_path d)) = d_dist d.
Proof.
  intros P pdist s1 s2 window Hnn E1 E2 Hw Hd.
  destruct (new_dtw_ok B64Num b64_inf pdist s1 s2 window E1 E2) as (d & H1 & _ & H2); [lia|rewrite eff_window_pos; lia|].
  rewrite eff_window_pos in H2 by lia. exists d. split; [exact H1|]. destruct s1 as [|x0 s1']; [congruence|].
  split; [exact (proj1 (proj2 (H2 nneg64 B64CostNum Hnn x0)))|].
  intros p0. exact (proj1 (proj2 (proj2 (H2 nneg64 B64CostNum Hnn p0)))).
Qed.

(** Whatever the distances (NaN included) the path is a path from end to start, possibly out of the window. *)
Lemma path_any_distance : forall (P F : Type) (N : Num F) (inf : F) (pdist : P -> P -> F) (s1 s2 : list P) (window : Z),
  s1 <> [] -> s2 <> [] -> 0 < window -> Z.abs (slen s1 - slen s2) <= window ->
  exists d, new_dtw_window N inf pdist s1 s2 window = Ok d /\
    wpath anywhere (last_cell s1 s2) (rev (d_path d)).
Proof.
  intros P F N inf pdist s1 s2 window E1 E2 Hw Hd.
  destruct (new_dtw_ok N inf pdist s1 s2 window E1 E2) as (d & H1 & H2 & _); [lia|rewrite eff_window_pos; lia|]. eauto.
Qed.

(** C49 *)
Lemma sum_map {F} (N : Num F) (d d' : Z * Z -> F) (f : Z * Z -> Z * Z) p : p <> [] -> (forall c, In c p -> d (f c) = d' c) ->
  sum_along N d (map f p) = sum_along N d' p.
Proof.
  intros Hne H. destruct p as [|c p]; [congruence|]. cbn [map sum_along]. rewrite (H c) by (left; reflexivity).
  assert (H' : forall e, In e p -> d (f e) = d' e) by (intros e He; apply H; right; exact He).
  generalize (d' c). clear Hne H.
  induction p as [|e p IH]; intros a; [reflexivity|]. cbn [map fold_left]. rewrite H' by (left; reflexivity).
  apply IH. intros e' He. apply H'. right; exact He.
Qed.
Lemma wpath_swap w c p : wpath (within w) c p -> wpath (within w) (snd c, fst c) (map (fun e => (snd e, fst e)) p).
Proof.
  induction 1 as [Ha|c p c' Hp IH Hs Ha].
  - constructor. exact Ha.
  - rewrite map_app. cbn [map]. econstructor; [exact IH| |].
    + unfold wstep in *. cbn. lia.
    + unfold within in *. cbn. lia.
Qed.

Lemma least_unique {P F} (N : Num F) inf nn (pdist : P -> P -> F) s1 s2 al v v' : CostNum N inf nn -> nn v -> nn v' -> s1 <> [] ->
  least_warping N pdist s1 s2 al v -> least_warping N pdist s1 s2 al v' -> v = v'.
Proof.
  intros CN Hv Hv' E H H'. destruct s1 as [|x0 s1']; [congruence|].
  destruct (H x0) as [(p & Hp & <-) Hl]. destruct (H' x0) as [(p' & Hp' & <-) Hl'].
  apply (cn_antisym _ _ _ CN); auto.
Qed.
Lemma least_swap {P F} (N : Num F) (pdist : P -> P -> F) s1 s2 w v : (forall p q, In p s1 -> In q s2 -> pdist p q = pdist q p) -> s1 <> [] -> s2 <> [] ->
  least_warping N pdist s1 s2 (within w) v -> least_warping N pdist s2 s1 (within w) v.
Proof.
  intros Hsym E1 E2 H p0. destruct (H p0) as [(p & Hp & Hs) Hl].
  assert (Hc : forall c, 0 <= fst c < slen s1 -> 0 <= snd c < slen s2 ->
             at_cell pdist p0 s2 s1 (snd c, fst c) = at_cell pdist p0 s1 s2 c).
  { intros c H1 H2. unfold at_cell. cbn [fst snd]. unfold slen in *. symmetry. apply Hsym; apply nth_In; lia. }
  assert (L1 := slen_pos _ E1). assert (L2 := slen_pos _ E2).
  split.
  - exists (map (fun e => (snd e, fst e)) p). split; [exact (wpath_swap _ _ _ Hp)|].
    rewrite <- Hs. apply sum_map; [eapply wpath_ne; exact Hp|]. intros c Hin.
    pose proof (wpath_range _ _ _ Hp) as Hr. rewrite Forall_forall in Hr. specialize (Hr c Hin).
    apply Hc; unfold last_cell, slen in *; cbn in Hr; lia.
  - intros q Hq. specialize (Hl _ (wpath_swap _ _ _ Hq)).
    rewrite sum_map with (d' := at_cell pdist p0 s2 s1) in Hl; [exact Hl|eapply wpath_ne; exact Hq|]. intros c Hin.
    pose proof (wpath_range _ _ _ Hq) as Hr. rewrite Forall_forall in Hr. specialize (Hr c Hin).
    rewrite <- (Hc (snd c, fst c)) by (unfold last_cell, slen in *; cbn in Hr; cbn [fst snd]; lia).
    cbn [fst snd]. now rewrite <- surjective_pairing.
Qed.

Lemma wpath_anywhere_within w n1 n2 c p : n1 <= w + 1 -> n2 <= w + 1 -> wpath anywhere c p -> fst c < n1 -> snd c < n2 ->
  wpath (within w) c p.
Proof.
  intros Hn1 Hn2. induction 1 as [Ha|c p c' Hp IH Hs Ha]; intros H1 H2.
  - constructor. unfold within. cbn in *. lia.
  - pose proof (wpath_nonneg _ _ _ Hp). unfold wstep in Hs. econstructor; [apply IH; lia|exact Hs|]. unfold within. lia.
Qed.
Lemma wpath_any al c p : wpath al c p -> wpath anywhere c p.
Proof. induction 1; [constructor; exact I|econstructor; eauto; exact I]. Qed.
Lemma least_anywhere {P F} (N : Num F) (pdist : P -> P -> F) s1 s2 w v : slen s1 <= w + 1 -> slen s2 <= w + 1 ->
  least_warping N pdist s1 s2 (within w) v <-> least_warping N pdist s1 s2 anywhere v.
Proof.
  intros H1 H2. split; intros H p0; destruct (H p0) as [(p & Hp & Hs) Hl]; split.
  - exists p. split; [eapply wpath_any; exact Hp|exact Hs].
  - intros q Hq. apply Hl. apply (wpath_anywhere_within w (slen s1) (slen s2)); auto; unfold last_cell, slen; cbn; lia.
  - exists p. split; [|exact Hs]. apply (wpath_anywhere_within w (slen s1) (slen s2)); auto; unfold last_cell, slen; cbn; lia.
  - intros q Hq. apply Hl. eapply wpath_any; exact Hq.
Qed.

Lemma dist_window : forall (P : Type) (pdist : P -> P -> b64) (pcombine : P -> Z -> P -> Z -> P) (a b t1 t2 : list P) (window : Z),
  a <> [] -> b <> [] -> 0 < window -> shrink_longest pcombine a b window = Ok (t1, t2) ->
  (forall p q, In p t1 -> In q t2 -> nneg64 (pdist p q) /\ pdist p q = pdist q p) ->
  exists v, dtw_dist B64Num b64_inf pdist pcombine window a b = Ok v /\
            dtw_dist B64Num b64_inf pdist pcombine window b a = Ok v /\ nneg64 v.
Proof.
  intros P pdist pcombine a b t1 t2 window Ea Eb Hw Hsh0 Hp.
  assert (La := slen_pos a Ea). assert (Lb := slen_pos b Eb).
  destruct (shrink_longest_ok pcombine a b window La Lb) as (t1' & t2' & Hsh & Lt1 & Lt2 & _ & Hd & _). specialize (Hd Hw).
  rewrite Hsh in Hsh0. injection Hsh0 as -> ->.
  assert (Et1 : t1 <> []) by (intros ->; cbn in Lt1; lia). assert (Et2 : t2 <> []) by (intros ->; cbn in Lt2; lia).
  assert (Hsym : forall p q, In p t1 -> In q t2 -> pdist p q = pdist q p) by (intros; apply Hp; assumption).
  assert (Hnn : forall p q, In p t1 -> In q t2 -> nneg64 (pdist p q)) by (intros; apply Hp; assumption).
  assert (Hnn' : forall p q, In p t2 -> In q t1 -> nneg64 (pdist p q)) by (intros; rewrite <- Hsym by assumption; auto).
  unfold dtw_dist. rewrite (shrink_longest_swap pcombine a b window La Lb), Hsh. cbn [obind fst snd].
  destruct (least_of B64Num b64_inf nneg64 pdist t1 t2 window B64CostNum Hnn Et1 Et2) as (d & H1 & N1 & M1);
    [lia|rewrite eff_window_pos; lia|].
  destruct (least_of B64Num b64_inf nneg64 pdist t2 t1 window B64CostNum Hnn' Et2 Et1) as (d' & H2 & N2 & M2);
    [lia|rewrite eff_window_pos; lia|].
  rewrite eff_window_pos in M1, M2 by lia. rewrite H1, H2. cbn [obind].
  assert (d_dist d = d_dist d').
  { eapply least_unique; [exact B64CostNum|exact N1|exact N2|exact Et1|exact M1|].
    apply least_swap; [|assumption|assumption|assumption]. intros. symmetry. auto. }
  exists (d_dist d). split; [reflexivity|]. split; [congruence|exact N1].
Qed.

Lemma dist_window_total : forall (P F : Type) (N : Num F) (inf : F) (pdist : P -> P -> F) (pcombine : P -> Z -> P -> Z -> P)
    (a b : list P) (window : Z),
  a <> [] -> b <> [] -> 0 < window -> exists v, dtw_dist N inf pdist pcombine window a b = Ok v.
Proof.
  intros P F N inf pdist pcombine a b window Ea Eb Hw.
  destruct (shrink_longest_ok pcombine a b window (slen_pos a Ea) (slen_pos b Eb)) as (t1 & t2 & Hsh & Lt1 & Lt2 & _ & Hd & _).
  assert (Et1 : t1 <> []) by (intros ->; cbn in Lt1; lia). assert (Et2 : t2 <> []) by (intros ->; cbn in Lt2; lia).
  destruct (new_dtw_ok N inf pdist t1 t2 window Et1 Et2) as (d & H1 & _); [lia|rewrite eff_window_pos by lia; auto|].
  unfold dtw_dist. rewrite Hsh. cbn [obind fst snd]. rewrite H1. eexists; reflexivity.
Qed.

Lemma dist_nowindow_close : forall (P : Type) (pdist : P -> P -> b64) (pcombine : P -> Z -> P -> Z -> P) (a b : list P),
  (forall p q, In p a -> In q b -> nneg64 (pdist p q) /\ pdist p q = pdist q p) ->
  a <> [] -> b <> [] -> Z.abs (slen a - slen b) <= 1 ->
  exists v, dtw_dist B64Num b64_inf pdist pcombine 0 a b = Ok v /\
            dtw_dist B64Num b64_inf pdist pcombine 0 b a = Ok v /\ nneg64 v.
Proof.
  intros P pdist pcombine a b Hp Ea Eb Hd.
  assert (La := slen_pos a Ea). assert (Lb := slen_pos b Eb).
  assert (Hsym : forall p q, In p a -> In q b -> pdist p q = pdist q p) by (intros; apply Hp; assumption).
  assert (Hnn : forall p q, In p a -> In q b -> nneg64 (pdist p q)) by (intros; apply Hp; assumption).
  assert (Hnn' : forall p q, In p b -> In q a -> nneg64 (pdist p q)) by (intros; rewrite <- Hsym by assumption; auto).
  unfold dtw_dist, shrink_longest. cbn [Z.ltb Z.compare andb obind fst snd].
  destruct (least_of B64Num b64_inf nneg64 pdist a b 0 B64CostNum Hnn Ea Eb) as (d & H1 & N1 & M1);
    [lia|unfold eff_window; cbn; lia|].
  destruct (least_of B64Num b64_inf nneg64 pdist b a 0 B64CostNum Hnn' Eb Ea) as (d' & H2 & N2 & M2);
    [lia|unfold eff_window; cbn; lia|].
  unfold eff_window in M1, M2. cbn [Z.eqb] in M1, M2. rewrite H1, H2. cbn [obind].
  apply least_anywhere in M1; [|lia|lia]. apply least_anywhere in M2; [|lia|lia].
  assert (d_dist d = d_dist d').
  { eapply least_unique; [exact B64CostNum|exact N1|exact N2|exact Ea|exact M1|].
    apply (least_anywhere _ _ _ _ (slen a + slen b)); [lia|lia|].
    apply least_swap; [intros; symmetry; auto|assumption|assumption|]. apply least_anywhere; [lia|lia|exact M2]. }
  exists (d_dist d). split; [reflexivity|]. split; [congruence|exact N1].
Qed.

Lemma diag_path w n : 0 <= w -> wpath (within w) (Z.of_nat n, Z.of_nat n) (map (fun k => (Z.of_nat k, Z.of_nat k)) (List.seq 0 (S n))).
Proof.
  intros Hw. induction n as [|n IH].
  - constructor. unfold within. cbn. lia.
  - rewrite seq_S, map_app. cbn [map]. econstructor; [exact IH| |].
    + unfold wstep. cbn [fst snd]. lia.
    + unfold within. cbn [fst snd]. lia.
Qed.

Lemma dist_self : forall (P : Type) (pdist : P -> P -> b64) (pcombine : P -> Z -> P -> Z -> P) (a : list P) (window : Z),
  (forall p q, In p a -> In q a -> nneg64 (pdist p q)) -> (forall p, In p a -> pdist p p = b64_of_Z 0) -> a <> [] -> 0 <= window ->
  dtw_dist B64Num b64_inf pdist pcombine window a a = Ok (b64_of_Z 0).
Proof.
  intros P pdist pcombine a window Hnn H0 Ea Hw. assert (La := slen_pos a Ea).
  assert (Hsh : shrink_longest pcombine a a window = Ok (a, a)).
  { unfold shrink_longest. destruct (Z.ltb_spec (slen a + window) (slen a)); [lia|]. now rewrite andb_false_r. }
  unfold dtw_dist. rewrite Hsh. cbn [obind fst snd].
  assert (Hew : 0 <= eff_window window (slen a)) by (unfold eff_window; destruct (Z.eqb_spec window 0); lia).
  destruct (least_of B64Num b64_inf nneg64 pdist a a window B64CostNum Hnn Ea Ea Hw) as (d & H1 & N1 & M1); [lia|].
  rewrite H1. cbn [obind]. f_equal. destruct a as [|x0 a']; [congruence|]. set (a := x0 :: a') in *.
  destruct (M1 x0) as [_ Hl].
  assert (Hlc : (Z.of_nat (length a - 1), Z.of_nat (length a - 1)) = last_cell a a).
  { unfold last_cell. unfold slen in La. f_equal; lia. }
  rewrite <- Hlc in Hl. specialize (Hl _ (diag_path _ (length a - 1) Hew)).
  assert (Hsum : forall l x, Forall (fun k => (k < length a)%nat) l ->
            fold_left (fun acc c => nadd B64Num acc (at_cell pdist x0 a a c)) (map (fun k => (Z.of_nat k, Z.of_nat k)) l) x
            = fold_left (fun acc (_ : nat) => nadd B64Num acc (b64_of_Z 0)) l x).
  { induction l as [|k l IH]; intros x Hk; [reflexivity|]. inversion Hk; subst. cbn [map fold_left]. rewrite IH by assumption.
    unfold at_cell. cbn [fst snd]. rewrite H0; [reflexivity|]. apply nth_In. lia. }
  cbn [List.seq map sum_along] in Hl. rewrite Hsum in Hl.
  2: { apply Forall_forall. intros k Hk. apply in_seq in Hk. lia. }
  unfold at_cell at 1 in Hl. cbn [fst snd] in Hl. rewrite H0 in Hl by (left; reflexivity).
  assert (Hz : forall l : list nat, fold_left (fun acc _ => nadd B64Num acc (b64_of_Z 0)) l (b64_of_Z 0) = b64_of_Z 0).
  { induction l as [|k l IH]; [reflexivity|]. cbn [fold_left]. change (b64_of_Z 0) with (nof B64Num 0) in *. rewrite (cn_add0 _ _ _ B64CostNum). exact IH. }
  rewrite Hz in Hl. apply (cn_antisym _ _ _ B64CostNum); [exact N1|apply (cn_zero _ _ _ B64CostNum)|exact Hl|].
  apply (cn_leb0 _ _ _ B64CostNum). exact N1.
Qed.

Lemma ofold_panic {A S} (f : S -> A -> outcome S) l x : In x l -> (forall s, f s x = Panic) -> forall s, ofold f l s = Panic.
Proof.
  induction l as [|y l IH]; intros Hin Hf s; [destruct Hin|]. cbn [ofold]. destruct Hin as [->|Hin].
  - now rewrite Hf.
  - destruct (f s y); [|reflexivity]. cbn [obind]. apply IH; assumption.
Qed.
Lemma zrange_in lo hi x : In x (zrange lo hi) <-> lo <= x <= hi.
Proof.
  unfold zrange. rewrite in_map_iff. split.
  - intros (n & <- & Hn). apply in_seq in Hn. lia.
  - intros H. exists (Z.to_nat (x - lo)). split; [lia|]. apply in_seq. lia.
Qed.

Lemma dist_nowindow_panics : forall (P F : Type) (N : Num F) (inf : F) (pdist : P -> P -> F) (pcombine : P -> Z -> P -> Z -> P) (a b : list P),
  2 * slen b < slen a -> dtw_dist N inf pdist pcombine 0 a b = Panic.
Proof.
  intros P F N inf pdist pcombine a b H. assert (0 <= slen b) by (unfold slen; lia).
  unfold dtw_dist, shrink_longest. cbn [Z.ltb Z.compare andb obind fst snd].
  unfold new_dtw_window, eff_window. cbn [Z.eqb].
  assert (Hc : compute_cum_cost N inf pdist a b (slen b) (eff_stride (slen b) (slen b)) = Panic); [|rewrite Hc; reflexivity].
  unfold compute_cum_cost. apply ofold_panic with (x := 2 * slen b); [apply zrange_in; lia|]. intros V.
  apply ofold_panic with (x := slen b).
  - apply zrange_in. unfold row_left, row_right, in_window.
    destruct (Z.leb_spec (2 * slen b - 0) (slen b)), (Z.leb_spec (0 - 2 * slen b) (slen b)),
      (Z.leb_spec (2 * slen b - (slen b - 1)) (slen b)), (Z.leb_spec (slen b - 1 - 2 * slen b) (slen b)); cbn [andb]; lia.
  - intros V'. unfold cell. rewrite (proj2 (sget_panic b (slen b))) by lia. destruct (sget a (2 * slen b)); reflexivity.
Qed.

Lemma dist_nowindow_total : forall (P F : Type) (N : Num F) (inf : F) (pdist : P -> P -> F) (pcombine : P -> Z -> P -> Z -> P) (a b : list P),
  a <> [] -> b <> [] -> slen a <= 2 * slen b -> exists v, dtw_dist N inf pdist pcombine 0 a b = Ok v.
Proof.
  intros P F N inf pdist pcombine a b Ea Eb H. assert (La := slen_pos a Ea). assert (Lb := slen_pos b Eb).
  unfold dtw_dist, shrink_longest. cbn [Z.ltb Z.compare andb obind fst snd].
  destruct (new_dtw_ok N inf pdist a b 0 Ea Eb) as (d & H1 & _); [lia|unfold eff_window; cbn; lia|].
  rewrite H1. eexists; reflexivity.
Qed.

(** C50 *)
Lemma dist_nowindow_least : forall (P : Type) (pdist : P -> P -> b64) (pcombine : P -> Z -> P -> Z -> P) (a b : list P),
  (forall p q, In p a -> In q b -> nneg64 (pdist p q)) -> a <> [] -> b <> [] -> slen a <= slen b + 1 ->
  exists v, dtw_dist B64Num b64_inf pdist pcombine 0 a b = Ok v /\ least_warping B64Num pdist a b anywhere v.
Proof.
  intros P pdist pcombine a b Hnn Ea Eb H. assert (La := slen_pos a Ea). assert (Lb := slen_pos b Eb).
  unfold dtw_dist, shrink_longest. cbn [Z.ltb Z.compare andb obind fst snd].
  destruct (least_of B64Num b64_inf nneg64 pdist a b 0 B64CostNum Hnn Ea Eb) as (d & H1 & N1 & M1);
    [lia|unfold eff_window; cbn; lia|].
  unfold eff_window in M1. cbn [Z.eqb] in M1. rewrite H1. cbn [obind]. exists (d_dist d). split; [reflexivity|].
  apply least_anywhere in M1; [exact M1|lia|lia].
Qed.

(** The constraint that is really applied without a window. *)
Lemma dist_nowindow_constrained : forall (P : Type) (pdist : P -> P -> b64) (pcombine : P -> Z -> P -> Z -> P) (a b : list P),
  (forall p q, In p a -> In q b -> nneg64 (pdist p q)) -> a <> [] -> b <> [] -> slen a <= 2 * slen b ->
  exists v, dtw_dist B64Num b64_inf pdist pcombine 0 a b = Ok v /\ least_warping B64Num pdist a b (within (slen b)) v.
Proof.
  intros P pdist pcombine a b Hnn Ea Eb H. assert (La := slen_pos a Ea). assert (Lb := slen_pos b Eb).
  unfold dtw_dist, shrink_longest. cbn [Z.ltb Z.compare andb obind fst snd].
  destruct (least_of B64Num b64_inf nneg64 pdist a b 0 B64CostNum Hnn Ea Eb) as (d & H1 & N1 & M1);
    [lia|unfold eff_window; cbn; lia|].
  unfold eff_window in M1. cbn [Z.eqb] in M1. rewrite H1. cbn [obind]. eauto.
Qed.

(** C51 *)
Lemma resize_main : forall (P : Type) (pcombine : P -> Z -> P -> Z -> P) (s : list P) (size : Z),
  2 <= slen s -> 1 <= size ->
  exists r, resize pcombine s size = Ok (map Some r) /\ slen r = size /\
    nth_error r 0 = nth_error s 0 /\
    (2 <= size -> nth_error r (length r - 1) = nth_error s (length s - 1)) /\
    (forall i p, nth_error r i = Some p ->
       (exists j, Z.of_nat j * (size - 1) = Z.of_nat i * (slen s - 1) /\ nth_error s j = Some p) \/
       (exists j a b, nth_error s j = Some a /\ nth_error s (S j) = Some b /\
          Z.of_nat j * (size - 1) < Z.of_nat i * (slen s - 1) < Z.of_nat (S j) * (size - 1) /\
          p = pcombine a (Z.of_nat (S j) * (size - 1) - Z.of_nat i * (slen s - 1))
                       b (Z.of_nat i * (slen s - 1) - Z.of_nat j * (size - 1)))) /\
    (size = slen s -> r = s).
Proof. intros P pcombine s size. apply resize_ok. Qed.

Lemma resize_single_panics : forall (P : Type) (pcombine : P -> Z -> P -> Z -> P) (p : P) (size : Z),
  resize pcombine [p] size = Panic.
Proof. reflexivity. Qed.

(** C52 *)
Lemma shrink_main : forall (P : Type) (pcombine : P -> Z -> P -> Z -> P) (s1 s2 : list P) (window : Z),
  s1 <> [] -> s2 <> [] ->
  exists t1 t2, shrink_longest pcombine s1 s2 window = Ok (t1, t2) /\
    (0 < window -> Z.abs (slen t1 - slen t2) <= window) /\
    (slen s1 <= slen s2 -> t1 = s1) /\ (slen s2 <= slen s1 -> t2 = s2) /\
    (Z.abs (slen s1 - slen s2) <= window -> t1 = s1 /\ t2 = s2) /\
    (window = 0 -> t1 = s1 /\ t2 = s2).
Proof.
  intros P pcombine s1 s2 window E1 E2.
  destruct (shrink_longest_ok pcombine s1 s2 window (slen_pos _ E1) (slen_pos _ E2))
    as (t1 & t2 & H & _ & _ & A & B & C & D & _ & _ & E).
  exists t1, t2. repeat (split; [assumption|]). intros ->. apply A. lia.
Qed.

(** C53 *)
Lemma average_main : forall (P F : Type) (N : Num F) (inf : F) (pdist : P -> P -> F) (pcombine : P -> Z -> P -> Z -> P)
    (s1 s2 : list P) (window w1 w2 : Z) (p0 : P),
  s1 <> [] -> s2 <> [] -> 0 < window -> Z.abs (slen s1 - slen s2) <= window -> 0 < w1 -> 0 < w2 ->
  exists d r, new_dtw_window N inf pdist s1 s2 window = Ok d /\ dtw_dba pcombine s1 s2 d w1 w2 = Ok (map Some r) /\
    slen r = ((slen s1 - 1) * w1 + (slen s2 - 1) * w2) / (w1 + w2) + 1 /\
    Z.min (slen s1) (slen s2) <= slen r <= Z.max (slen s1) (slen s2) /\
    nth_error r 0 = Some (pcombine (nth 0 s1 p0) w1 (nth 0 s2 p0) w2) /\
    (forall i p, nth_error r i = Some p ->
       interpolated pcombine
         (map (fun e => pcombine (nth (Z.to_nat (fst e)) s1 p0) w1 (nth (Z.to_nat (snd e)) s2 p0) w2) (rev (d_path d)))
         (map (fun e => fst e * w1 + snd e * w2) (rev (d_path d))) (Z.of_nat i * (w1 + w2)) p).
Proof.
  intros P F N inf pdist pcombine s1 s2 window w1 w2 p0 E1 E2 Hw Hd W1 W2.
  destruct (new_dtw_ok N inf pdist s1 s2 window E1 E2) as (d & H1 & H2 & _); [lia|rewrite eff_window_pos; lia|].
  apply slen_pos in E1, E2.
  destruct (dba_ok pcombine s1 s2 d w1 w2 p0 H2 E1 E2 W1 W2) as (r & R1 & R2 & R3 & R4).
  exists d, r. split; [exact H1|]. split; [exact R1|]. split; [exact R2|].
  split; [rewrite R2; apply dba_length; assumption|]. split; [exact R3|exact R4].
Qed.

(** C53 for dtw.Space.Combine: the average of any two series, after resizing the longest one. *)
Lemma combine_main : forall (P F : Type) (N : Num F) (inf : F) (pdist : P -> P -> F) (pcombine : P -> Z -> P -> Z -> P)
    (s1 s2 : list P) (window w1 w2 : Z),
  s1 <> [] -> s2 <> [] -> 0 < window -> 0 < w1 -> 0 < w2 ->
  exists r, dtw_combine N inf pdist pcombine window s1 w1 s2 w2 = Ok r /\
    Z.min (slen s1) (slen s2) <= slen r <= Z.max (slen s1) (slen s2) /\
    (forall a b, nth_error s1 0 = Some a -> nth_error s2 0 = Some b -> nth_error r 0 = Some (pcombine a w1 b w2)).
Proof.
  intros P F N inf pdist pcombine s1 s2 window w1 w2 E1 E2 Hw W1 W2.
  assert (L1 := slen_pos _ E1). assert (L2 := slen_pos _ E2).
  destruct (shrink_longest_ok pcombine s1 s2 window L1 L2)
    as (t1 & t2 & H & Lt1 & Lt2 & _ & B & C & D & X1 & X2 & E).
  assert (Et1 : t1 <> []) by (intros ->; cbn in Lt1; lia). assert (Et2 : t2 <> []) by (intros ->; cbn in Lt2; lia).
  assert (Hf : nth_error t1 0 = nth_error s1 0 /\ nth_error t2 0 = nth_error s2 0).
  { unfold shrink_longest in H. destruct (Z.ltb_spec 0 window); [|lia]. cbn [andb] in H.
    destruct (Z.ltb_spec (slen s2 + window) (slen s1)).
    - destruct (resize_ok pcombine s1 (slen s2 + window)) as (r & H1' & _ & H3 & _); [lia|lia|].
      rewrite H1' in H. cbn [obind] in H. rewrite points_map in H. cbn [obind] in H. injection H as <- <-. auto.
    - destruct (Z.ltb_spec (slen s1 + window) (slen s2)).
      + destruct (resize_ok pcombine s2 (slen s1 + window)) as (r & H1' & _ & H3 & _); [lia|lia|].
        rewrite H1' in H. cbn [obind] in H. rewrite points_map in H. cbn [obind] in H. injection H as <- <-. auto.
      + injection H as <- <-. auto. }
  destruct t1 as [|x0 t1']; [congruence|]. set (t1 := x0 :: t1') in *.
  destruct (average_main P F N inf pdist pcombine t1 t2 window w1 w2 x0 Et1 Et2 Hw (B Hw) W1 W2)
    as (d & r & R1 & R2 & R3 & R4 & R5 & _).
  exists r. unfold dtw_combine. rewrite H. cbn [obind fst snd]. rewrite R1. cbn [obind]. rewrite R2. cbn [obind].
  split; [apply points_map|]. split.
  - assert (Hle : Z.min (slen s1) (slen s2) <= slen t1 <= Z.max (slen s1) (slen s2) /\
                  Z.min (slen s1) (slen s2) <= slen t2 <= Z.max (slen s1) (slen s2)).
    { destruct (Z.le_gt_cases (slen s1) (slen s2)) as [Hc|Hc].
      - rewrite (C Hc). destruct (Z.lt_ge_cases (slen s1 + window) (slen s2)) as [Hc'|Hc'].
        + rewrite (X2 Hw Hc'). lia.
        + destruct E as [_ ->]; lia.
      - rewrite D by lia. destruct (Z.lt_ge_cases (slen s2 + window) (slen s1)) as [Hc'|Hc'].
        + rewrite (X1 Hw Hc'). lia.
        + destruct E as [-> _]; lia. }
    lia.
  - intros a b Ha Hb. destruct Hf as [F1 F2]. rewrite <- F1 in Ha. rewrite <- F2 in Hb.
    rewrite R5. f_equal. f_equal.
    + injection Ha as <-. reflexivity.
    + destruct t2; [discriminate|]. injection Hb as <-. reflexivity.
Qed.

(** ** Counterexamples, with the Euclidean distance of float64 points *)

Lemma show_ok (o : outcome b64) x : show_o o = Some x -> exists v, o = Ok v /\ show64 v = x.
Proof. destruct o as [v|]; cbn; intros H; [|discriminate]. exists v. split; congruence. Qed.

Lemma witness_ab : show_o (dtw_dist B64Num b64_inf edist64 keep 0 (series64 [0; 0; 0; 0; 0; 10]) (series64 [0; 10; 10]))
  = Some (show64 (b64_of_Z 10)).
Proof. vm_compute. reflexivity. Qed.
Lemma witness_ba : show_o (dtw_dist B64Num b64_inf edist64 keep 0 (series64 [0; 10; 10]) (series64 [0; 0; 0; 0; 0; 10]))
  = Some (show64 (b64_of_Z 0)).
Proof. vm_compute. reflexivity. Qed.

Lemma dist_symmetry_counterexample :
  exists a b v v', a <> [] /\ b <> [] /\
    dtw_dist B64Num b64_inf edist64 keep 0 a b = Ok v /\ dtw_dist B64Num b64_inf edist64 keep 0 b a = Ok v' /\
    show64 v = show64 (b64_of_Z 10) /\ show64 v' = show64 (b64_of_Z 0).
Proof.
  destruct (show_ok _ _ witness_ab) as (v & H1 & H2). destruct (show_ok _ _ witness_ba) as (v' & H1' & H2').
  do 2 eexists. exists v, v'. split; [|split; [|split; [exact H1|split; [exact H1'|split; assumption]]]]; discriminate.
Qed.
Lemma dist_total_counterexample :
  exists a b, a <> [] /\ b <> [] /\ dtw_dist B64Num b64_inf edist64 keep 0 a b = Panic.
Proof. exists (series64 [1; 2; 3]), (series64 [2]). split; [discriminate|]. split; [discriminate|]. apply dist_nowindow_panics. reflexivity. Qed.

Lemma dist_nowindow_counterexample :
  exists a b v p, a <> [] /\ b <> [] /\ dtw_dist B64Num b64_inf edist64 keep 0 a b = Ok v /\
    wpath anywhere (last_cell a b) p /\
    b64_ltb (sum_along B64Num (at_cell edist64 [] a b) p) v = true.
Proof.
  destruct (show_ok _ _ witness_ab) as (v & H1 & H2).
  exists (series64 [0; 0; 0; 0; 0; 10]), (series64 [0; 10; 10]), v, [(0, 0); (1, 0); (2, 0); (3, 0); (4, 0); (5, 1); (5, 2)].
  split; [discriminate|]. split; [discriminate|]. split; [exact H1|]. split.
  - apply (wp_step _ (5, 1) [(0, 0); (1, 0); (2, 0); (3, 0); (4, 0); (5, 1)] (5, 2)); [|unfold wstep; cbn; lia|exact I].
    apply (wp_step _ (4, 0) [(0, 0); (1, 0); (2, 0); (3, 0); (4, 0)] (5, 1)); [|unfold wstep; cbn; lia|exact I].
    apply (wp_step _ (3, 0) [(0, 0); (1, 0); (2, 0); (3, 0)] (4, 0)); [|unfold wstep; cbn; lia|exact I].
    apply (wp_step _ (2, 0) [(0, 0); (1, 0); (2, 0)] (3, 0)); [|unfold wstep; cbn; lia|exact I].
    apply (wp_step _ (1, 0) [(0, 0); (1, 0)] (2, 0)); [|unfold wstep; cbn; lia|exact I].
    apply (wp_step _ (0, 0) [(0, 0)] (1, 0)); [|unfold wstep; cbn; lia|exact I].
    constructor. exact I.
  - unfold b64_ltb, BinarySingleNaN.Bltb. change (BinarySingleNaN.B2SF v) with (show64 v). rewrite H2. vm_compute. reflexivity.
Qed.

(** ** C69: averages stay in every set closed under weighted means *)
Lemma interpolated_closed {P} (pcombine : P -> Z -> P -> Z -> P) (Q : P -> Prop) s idx x p :
  (forall a wa b wb, Q a -> Q b -> 0 < wa -> 0 < wb -> Q (pcombine a wa b wb)) ->
  Forall Q s -> interpolated pcombine s idx x p -> Q p.
Proof.
  intros HQ Hs [(j & _ & Hj)|(j & a & b & ia & ib & _ & _ & Ha & Hb & Hlt & ->)]; rewrite Forall_forall in Hs.
  - apply Hs. eapply nth_error_In; exact Hj.
  - apply HQ; [apply Hs; eapply nth_error_In; exact Ha|apply Hs; eapply nth_error_In; exact Hb|lia|lia].
Qed.

Lemma resize_closed {P} (pcombine : P -> Z -> P -> Z -> P) (Q : P -> Prop) s size r :
  (forall a wa b wb, Q a -> Q b -> 0 < wa -> 0 < wb -> Q (pcombine a wa b wb)) ->
  2 <= slen s -> 1 <= size -> Forall Q s -> resize pcombine s size = Ok (map Some r) -> Forall Q r.
Proof.
  intros HQ Hs Hsz Hall Hr. destruct (resize_ok pcombine s size Hs Hsz) as (r' & R1 & _ & _ & _ & R5 & _).
  rewrite Hr in R1. assert (r' = r).
  { injection R1 as R1. apply (f_equal points) in R1. rewrite !points_map in R1. congruence. }
  subst r'. rewrite Forall_forall in Hall. apply Forall_forall. intros p Hp. apply In_nth_error in Hp. destruct Hp as [i Hi].
  destruct (R5 i p Hi) as [(j & _ & Hj)|(j & a & b & Ha & Hb & Hlt & ->)].
  - apply Hall. eapply nth_error_In; exact Hj.
  - apply HQ; [apply Hall; eapply nth_error_In; exact Ha|apply Hall; eapply nth_error_In; exact Hb|lia|lia].
Qed.

Lemma combine_closed : forall (P F : Type) (N : Num F) (inf : F) (pdist : P -> P -> F) (pcombine : P -> Z -> P -> Z -> P)
    (Q : P -> Prop) (s1 s2 : list P) (window w1 w2 : Z),
  (forall a wa b wb, Q a -> Q b -> 0 < wa -> 0 < wb -> Q (pcombine a wa b wb)) ->
  s1 <> [] -> s2 <> [] -> 0 < window -> 0 < w1 -> 0 < w2 -> Forall Q s1 -> Forall Q s2 ->
  exists r, dtw_combine N inf pdist pcombine window s1 w1 s2 w2 = Ok r /\ r <> [] /\ Forall Q r.
Proof.
  intros P F N inf pdist pcombine Q s1 s2 window w1 w2 HQ E1 E2 Hw W1 W2 Q1 Q2.
  assert (L1 := slen_pos _ E1). assert (L2 := slen_pos _ E2).
  destruct (shrink_longest_ok pcombine s1 s2 window L1 L2)
    as (t1 & t2 & H & Lt1 & Lt2 & _ & B & C & D & X1 & X2 & E).
  assert (Et1 : t1 <> []) by (intros ->; cbn in Lt1; lia). assert (Et2 : t2 <> []) by (intros ->; cbn in Lt2; lia).
  assert (Hf : Forall Q t1 /\ Forall Q t2).
  { unfold shrink_longest in H. destruct (Z.ltb_spec 0 window); [|lia]. cbn [andb] in H.
    destruct (Z.ltb_spec (slen s2 + window) (slen s1)).
    - destruct (resize_ok pcombine s1 (slen s2 + window)) as (r & H1' & _); [lia|lia|].
      assert (Forall Q r) by (apply (resize_closed pcombine Q s1 (slen s2 + window)); auto; lia).
      rewrite H1' in H. cbn [obind] in H. rewrite points_map in H. cbn [obind] in H. injection H as <- <-. auto.
    - destruct (Z.ltb_spec (slen s1 + window) (slen s2)).
      + destruct (resize_ok pcombine s2 (slen s1 + window)) as (r & H1' & _); [lia|lia|].
        assert (Forall Q r) by (apply (resize_closed pcombine Q s2 (slen s1 + window)); auto; lia).
        rewrite H1' in H. cbn [obind] in H. rewrite points_map in H. cbn [obind] in H. injection H as <- <-. auto.
      + injection H as <- <-. auto. }
  destruct Hf as [F1 F2].
  destruct t1 as [|x0 t1']; [congruence|]. set (t1 := x0 :: t1') in *.
  destruct (new_dtw_ok N inf pdist t1 t2 window Et1 Et2) as (d & R1 & R2 & _); [lia|rewrite eff_window_pos by lia; auto|].
  destruct (dba_ok pcombine t1 t2 d w1 w2 x0 R2 Lt1 Lt2 W1 W2) as (r & S1 & S2 & S3 & S4).
  exists r. unfold dtw_combine. rewrite H. cbn [obind fst snd]. rewrite R1. cbn [obind]. rewrite S1. cbn [obind].
  split; [apply points_map|]. split; [destruct r; [discriminate S3|discriminate]|].
  apply Forall_forall. intros p Hp. apply In_nth_error in Hp. destruct Hp as [i Hi].
  eapply interpolated_closed; [exact HQ| |apply (S4 i p Hi)].
  apply Forall_forall. intros q Hq. apply in_map_iff in Hq. destruct Hq as (e & <- & He).
  pose proof (wpath_range _ _ _ R2) as Hr. rewrite Forall_forall in Hr. specialize (Hr e He).
  unfold last_cell in Hr. cbn [fst snd] in Hr. unfold slen in *. rewrite Forall_forall in F1, F2.
  apply HQ; [apply F1, nth_In; lia|apply F2, nth_In; lia|exact W1|exact W2].
Qed.

(** The Euclidean case: the average stays in every box that contains both series. *)

Lemma in_box_closed lo hi a wa b wb : in_box lo hi a -> in_box lo hi b -> 0 < wa -> 0 < wb -> in_box lo hi (rcombine a wa b wb).
Proof.
  intros (A1 & A2 & A3) (B1 & B2 & B3) Wa Wb.
  assert (Hl : length a = length b) by congruence.
  assert (Hc : length (rcombine a wa b wb) = length a) by (apply euclid_combine_length; exact Hl).
  split; [congruence|]. split; [congruence|]. intros j Hj. rewrite Hc in Hj.
  pose proof (euclid_combine_coord a wa b wb j Hl Hj) as E. unfold coord in E.
  unfold rcombine. rewrite E. specialize (A3 j Hj). specialize (B3 j). rewrite <- Hl in B3. specialize (B3 Hj).
  apply IZR_pos in Wa, Wb.
  split.
  - apply (Rmult_le_reg_r (IZR wa + IZR wb)); [lra|]. unfold Rdiv. rewrite Rmult_assoc, Rinv_l by lra. nra.
  - apply (Rmult_le_reg_r (IZR wa + IZR wb)); [lra|]. unfold Rdiv. rewrite Rmult_assoc, Rinv_l by lra. nra.
Qed.

Lemma average_in_box : forall (pdist : list R -> list R -> option R) (lo hi : list R) (s1 s2 : list (list R)) (window w1 w2 : Z),
  s1 <> [] -> s2 <> [] -> 0 < window -> 0 < w1 -> 0 < w2 ->
  Forall (in_box lo hi) s1 -> Forall (in_box lo hi) s2 ->
  exists r, dtw_combine ENum None pdist rcombine window s1 w1 s2 w2 = Ok r /\ r <> [] /\ Forall (in_box lo hi) r.
Proof. intros pdist lo hi s1 s2 window w1 w2 E1 E2 Hw W1 W2 Q1 Q2. apply combine_closed; auto using in_box_closed. Qed.

(** ** The Euclidean distance meets the hypotheses on all finite points of the same dimension *)

Lemma edist64_ok d s1 s2 p q : finite_series d s1 -> finite_series d s2 -> In p s1 -> In q s2 ->
  nneg64 (edist64 p q) /\ edist64 p q = edist64 q p /\ edist64 p p = b64_of_Z 0.
Proof.
  intros F1 F2 Hp Hq. unfold finite_series in *. rewrite Forall_forall in F1, F2.
  destruct (F1 p Hp) as [L1 V1]. destruct (F2 q Hq) as [L2 V2].
  assert (L : length p = length q) by exact (eq_trans L1 (eq_sym L2)).
  destruct (sqsum_nonneg p q (b64_of_Z 0) V1 V2 (Nat.eq_le_incl _ _ L) zero_nonneg) as (r & Hr & Hn).
  destruct (euclid_float_main p q V1 V2 L) as (v & A & B & _ & _ & C).
  unfold edist64. rewrite A, B, C. split; [|split; reflexivity].
  unfold point_dist in A. cbn [nof B64Num] in A. rewrite Hr in A. injection A as <-. apply sqrt_nonneg. exact Hn.
Qed.

Lemma euclid_dtw : forall (pcombine : list b64 -> Z -> list b64 -> Z -> list b64) (d : nat) (a b : list (list b64)) (window : Z),
  finite_series d a -> finite_series d b -> a <> [] -> b <> [] -> 0 < window -> Z.abs (slen a - slen b) <= window ->
  exists v, dtw_dist B64Num b64_inf edist64 pcombine window a b = Ok v /\
            dtw_dist B64Num b64_inf edist64 pcombine window b a = Ok v /\
            least_warping B64Num edist64 a b (within window) v /\
            dtw_dist B64Num b64_inf edist64 pcombine window a a = Ok (b64_of_Z 0).
Proof.
  intros pcombine d a b window Fa Fb Ea Eb Hw Hd.
  assert (Hsh : shrink_longest pcombine a b window = Ok (a, b)).
  { destruct (shrink_longest_ok pcombine a b window (slen_pos a Ea) (slen_pos b Eb)) as (t1 & t2 & Hsh & _ & _ & _ & _ & _ & _ & _ & _ & E).
    destruct (E Hd) as [-> ->]. exact Hsh. }
  destruct (dist_window _ edist64 pcombine a b a b window Ea Eb Hw Hsh) as (v & H1 & H2 & H3).
  { intros p q Hp Hq. destruct (edist64_ok d a b p q Fa Fb Hp Hq) as (X & Y & _). auto. }
  exists v. split; [exact H1|]. split; [exact H2|]. split.
  - destruct (dist_is_least _ edist64 a b window) as (dd & D1 & D2); auto.
    { intros p q Hp Hq. apply (edist64_ok d a b p q Fa Fb Hp Hq). }
    unfold dtw_dist in H1. rewrite Hsh in H1. cbn [obind fst snd] in H1. rewrite D1 in H1. injection H1 as <-. exact D2.
  - apply dist_self; [|intros p Hp; apply (edist64_ok d a a p p Fa Fa Hp Hp)|exact Ea|lia].
    intros p q Hp Hq. apply (edist64_ok d a a p q Fa Fa Hp Hq).
Qed.
