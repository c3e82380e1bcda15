(** Interpolation, resizing and the average of series (C51-C53). *)
From Coq Require Import List ZArith Lia Bool.
From Verif Require Import Base.Go Base.Num Model.Clustering Model.Dtw Spec.DtwSpec Proofs.GoLemmas Proofs.DtwProofs.
Import ListNotations.
Local Open Scope Z_scope.

Lemma nth_error_Z {A} (l : list A) i d : 0 <= i < slen l -> nth_error l (Z.to_nat i) = Some (nth (Z.to_nat i) l d).
Proof. intros H. apply nth_error_nth'. unfold slen in H. lia. Qed.

Section Interp.
Context {P : Type} (pcombine : P -> Z -> P -> Z -> P).

Lemma advance_ok idx x : forall fuel j, 0 <= j < slen idx -> slen idx - j <= Z.of_nat fuel + 1 ->
  x <= nth (Z.to_nat (slen idx - 1)) idx 0 ->
  exists j', advance fuel idx x j = Ok j' /\ j <= j' < slen idx /\ x <= nth (Z.to_nat j') idx 0 /\
    (j' = j \/ nth (Z.to_nat (j' - 1)) idx 0 < x).
Proof.
  induction fuel as [|fuel IH]; intros j Hj Hf Hx; cbn [advance]; rewrite (sget_in idx j 0) by exact Hj; cbn [obind].
  - assert (j = slen idx - 1) by lia. subst j. destruct (Z.ltb_spec (nth (Z.to_nat (slen idx - 1)) idx 0) x); [lia|].
    eexists. split; [reflexivity|]. split; [lia|]. split; [lia|]. now left.
  - destruct (Z.ltb_spec (nth (Z.to_nat j) idx 0) x) as [Hlt|Hge].
    + assert (j <> slen idx - 1) by (intros ->; lia).
      destruct (IH (j + 1)) as (j' & H1 & H2 & H3 & H4); try lia.
      exists j'. split; [exact H1|]. split; [lia|]. split; [exact H3|]. right.
      destruct H4 as [->|H4]; [|exact H4]. now replace (j + 1 - 1) with j by lia.
    + eexists. split; [reflexivity|]. split; [lia|]. split; [lia|]. now left.
Qed.

Lemma interpolate_ok s idx shrink e s0 : length s = length idx -> 0 < shrink -> 0 <= e ->
  nth_error idx 0 = Some 0 -> nth_error idx (length idx - 1) = Some e -> nth_error s 0 = Some s0 ->
  exists r, interpolate pcombine s idx shrink = Ok (map Some r) /\ slen r = e / shrink + 1 /\
    nth_error r 0 = Some s0 /\
    forall i p, nth_error r i = Some p -> interpolated pcombine s idx (Z.of_nat i * shrink) p.
Proof.
  intros Hlen Hsh He H0 He' Hs0.
  assert (Hn : 1 <= slen idx) by (unfold slen; destruct idx; [discriminate|cbn; lia]).
  assert (Hls : slen s = slen idx) by (unfold slen; lia).
  assert (Hlast : nth (Z.to_nat (slen idx - 1)) idx 0 = e).
  { unfold slen. replace (Z.to_nat (Z.of_nat (length idx) - 1)) with (length idx - 1)%nat by lia.
    rewrite (nth_error_nth' idx 0) in He' by (unfold slen in Hn; lia). congruence. }
  assert (Hfirst : nth 0 idx 0 = 0).
  { rewrite (nth_error_nth' idx 0) in H0 by (unfold slen in Hn; lia). congruence. }
  assert (Hq : 0 <= e / shrink) by (apply Z.div_pos; lia).
  set (last := e / shrink + 1) in *.
  unfold interpolate. rewrite Hls, (sget_in idx _ 0) by lia. rewrite Hlast. cbn [obind].
  destruct (Z.eqb_spec shrink 0); [lia|]. rewrite Z.quot_div_nonneg by lia. fold last.
  destruct (Z.ltb_spec last 0); [lia|].
  assert (Hsg : sget s 0 = Ok s0) by (change 0 with (Z.of_nat 0); rewrite sget_nat, Hs0; reflexivity).
  rewrite Hsg. cbn [obind].
  rewrite sset_in by (unfold slen; rewrite repeat_length; lia). cbn [obind Z.to_nat].
  destruct (ofold_zrange (interp_step pcombine s idx shrink)
    (fun i st => slen (snd st) = last /\ (i <= last - 1 -> 1 <= fst st < slen idx /\ nth (Z.to_nat (fst st - 1)) idx 0 < i * shrink) /\
       nth_error (snd st) 0 = Some (Some s0) /\
       forall k, 0 <= k < i -> exists p, nth_error (snd st) (Z.to_nat k) = Some (Some p) /\ interpolated pcombine s idx (k * shrink) p)
    (last - 1) _ 1 (1, upd (repeat None (Z.to_nat last)) 0 (Some s0)) eq_refl) as (st & Hst & Ist).
  - lia.
  - cbn [fst snd]. assert (Hup : nth_error (upd (repeat (@None P) (Z.to_nat last)) 0 (Some s0)) 0 = Some (Some s0)).
    { rewrite nth_error_upd, repeat_length. destruct (Nat.ltb_spec 0 (Z.to_nat last)); [reflexivity|lia]. }
    split; [unfold slen; rewrite upd_length, repeat_length; lia|]. split.
    + intros Hl. assert (shrink <= e) by (assert (1 <= e / shrink) by lia; pose proof (Z.mul_div_le e shrink); nia).
      cbn [Z.sub Z.to_nat]. change (Z.to_nat (1 - 1)) with O. rewrite Hfirst. split; [|lia].
      assert (slen idx <> 1); [|lia]. intros E. rewrite E in Hlast. change (Z.to_nat (1 - 1)) with O in Hlast. lia.
    + split; [exact Hup|]. intros k Hk. assert (k = 0) by lia. subst k. exists s0. split; [exact Hup|].
      left. exists O. split; [exact H0|exact Hs0].
  - intros i [j res] Hi (HL & Hj & Hf & Hk). cbn [fst snd] in *.
    unfold interp_step. destruct (Hj (proj2 Hi)) as [Hj1 Hj2].
    assert (Hx : i * shrink <= nth (Z.to_nat (slen idx - 1)) idx 0).
    { rewrite Hlast. pose proof (Z.mul_div_le e shrink). unfold last in Hi. nia. }
    destruct (advance_ok idx (i * shrink) (length idx) j) as (j' & Ha & Hb & Hc & Hd); [lia|unfold slen in *; lia|exact Hx|].
    rewrite Ha. cbn [obind]. rewrite (sget_in idx j' 0) by lia. cbn [obind].
    assert (Hprev : nth (Z.to_nat (j' - 1)) idx 0 < i * shrink) by (destruct Hd as [->|Hd]; assumption).
    assert (Hp : exists p, (if nth (Z.to_nat j') idx 0 =? i * shrink then sget s j'
                 else let* a := sget s (j' - 1) in let* b := sget s j' in let* va := sget idx (j' - 1) in
                      Ok (pcombine a (nth (Z.to_nat j') idx 0 - i * shrink) b (i * shrink - va))) = Ok p /\
                 interpolated pcombine s idx (i * shrink) p).
    { rewrite !(sget_in s _ s0) by lia. rewrite (sget_in idx (j' - 1) 0) by lia. cbn [obind].
      destruct (Z.eqb_spec (nth (Z.to_nat j') idx 0) (i * shrink)) as [E|E].
      - eexists. split; [reflexivity|]. left. exists (Z.to_nat j'). rewrite <- E. split; apply nth_error_Z; lia.
      - eexists. split; [reflexivity|]. right. exists (Z.to_nat (j' - 1)). do 4 eexists.
        replace (S (Z.to_nat (j' - 1))) with (Z.to_nat j') by lia.
        split; [apply (nth_error_Z _ _ 0); lia|]. split; [apply (nth_error_Z _ _ 0); lia|].
        split; [apply (nth_error_Z _ _ s0); lia|]. split; [apply (nth_error_Z _ _ s0); lia|].
        split; [lia|reflexivity]. }
    destruct Hp as (p & Hp & Hint). rewrite Hp. cbn [obind]. rewrite sset_in by lia. cbn [obind].
    eexists. split; [reflexivity|]. cbn [fst snd]. split; [unfold slen in *; now rewrite upd_length|]. split.
    + intros _. split; [lia|]. nia.
    + split.
      * rewrite nth_error_upd. destruct (Nat.eqb_spec 0 (Z.to_nat i)); [lia|]. exact Hf.
      * intros k Hk'. rewrite nth_error_upd. destruct (Nat.eqb_spec (Z.to_nat k) (Z.to_nat i)) as [E|E].
        -- assert (k = i) by lia. subst k. exists p. split; [|exact Hint].
           destruct (Nat.ltb_spec (Z.to_nat i) (length res)); [reflexivity|unfold slen in HL; lia].
        -- cbn [andb]. apply Hk. lia.
  - rewrite Hst. cbn [obind]. destruct st as [j res]. cbn [fst snd] in *.
    destruct Ist as (HL & _ & Hf & Hk).
    assert (Hall : exists r, res = map Some r).
    { clear - HL Hk. assert (Hs : forall k, (k < length res)%nat -> exists p, nth_error res k = Some (Some p)).
      { intros k Hk'. destruct (Hk (Z.of_nat k)) as (p & Hp & _); [unfold slen in HL; lia|].
        rewrite Nat2Z.id in Hp. eauto. }
      clear Hk HL. induction res as [|a res IH]; [exists []; reflexivity|].
      destruct (Hs O) as [p Hp]; [cbn; lia|]. cbn in Hp. injection Hp as ->.
      destruct IH as [r ->]. { intros k Hk. apply (Hs (S k)). cbn. lia. }
      exists (p :: r). reflexivity. }
    destruct Hall as [r ->]. exists r. split; [reflexivity|].
    split; [unfold slen in *; rewrite map_length in HL; exact HL|]. split.
    + rewrite nth_error_map in Hf. destruct (nth_error r 0); cbn in Hf; congruence.
    + intros i p Hp. assert (Hi : (i < length r)%nat) by (apply nth_error_Some; congruence).
      destruct (Hk (Z.of_nat i)) as (q & Hq' & Hint).
      { unfold slen in HL. rewrite map_length in HL. lia. }
      rewrite Nat2Z.id, nth_error_map, Hp in Hq'. cbn in Hq'. injection Hq' as <-. exact Hint.
Qed.

Lemma points_map (r : list P) : points (map Some r) = Ok r.
Proof. induction r as [|p r IH]; [reflexivity|]. cbn. rewrite IH. reflexivity. Qed.

Lemma resize_idx_nth n size j v : nth_error (map (fun i => i * (size - 1)) (zrange 0 (n - 1))) j = Some v <->
  (Z.of_nat j < n /\ v = Z.of_nat j * (size - 1)).
Proof.
  rewrite nth_error_map. destruct (Nat.ltb_spec j (Z.to_nat (n - 1 - 0 + 1))) as [H|H].
  - rewrite zrange_nth by exact H. cbn. split; [intros E; injection E as <-; lia|]. intros [_ ->]. f_equal; lia.
  - rewrite (proj2 (nth_error_None _ _)) by (rewrite zrange_length; lia). cbn. split; [discriminate|]. intros [H1 _]. lia.
Qed.

Lemma resize_ok s size : 2 <= slen s -> 1 <= size ->
  exists r, resize pcombine s size = Ok (map Some r) /\ slen r = size /\
    nth_error r 0 = nth_error s 0 /\
    (2 <= size -> nth_error r (length r - 1) = nth_error s (length s - 1)) /\
    (forall i p, nth_error r i = Some p ->
       (exists j, Z.of_nat j * (size - 1) = Z.of_nat i * (slen s - 1) /\ nth_error s j = Some p) \/
       (exists j a b, nth_error s j = Some a /\ nth_error s (S j) = Some b /\
          Z.of_nat j * (size - 1) < Z.of_nat i * (slen s - 1) < Z.of_nat (S j) * (size - 1) /\
          p = pcombine a (Z.of_nat (S j) * (size - 1) - Z.of_nat i * (slen s - 1))
                       b (Z.of_nat i * (slen s - 1) - Z.of_nat j * (size - 1)))) /\
    (size = slen s -> r = s).
Proof.
  intros Hs Hsize. destruct s as [|s0 s']; [cbn in Hs; lia|]. set (s := s0 :: s') in *.
  set (idx := map (fun i => i * (size - 1)) (zrange 0 (slen s - 1))).
  assert (Hli : length idx = length s) by (unfold idx; rewrite map_length, zrange_length; unfold slen; lia).
  destruct (interpolate_ok s idx (slen s - 1) ((slen s - 1) * (size - 1)) s0) as (r & H1 & H2 & H3 & H4).
  - now rewrite Hli.
  - lia.
  - nia.
  - apply resize_idx_nth. lia.
  - apply resize_idx_nth. rewrite Hli. unfold slen in *. split; [lia|]. f_equal. lia.
  - reflexivity.
  - assert (Hlr : slen r = size).
    { rewrite H2, Z.mul_comm, Z.div_mul by lia. lia. }
    assert (H5 : forall i p, nth_error r i = Some p ->
       (exists j, Z.of_nat j * (size - 1) = Z.of_nat i * (slen s - 1) /\ nth_error s j = Some p) \/
       (exists j a b, nth_error s j = Some a /\ nth_error s (S j) = Some b /\
          Z.of_nat j * (size - 1) < Z.of_nat i * (slen s - 1) < Z.of_nat (S j) * (size - 1) /\
          p = pcombine a (Z.of_nat (S j) * (size - 1) - Z.of_nat i * (slen s - 1))
                       b (Z.of_nat i * (slen s - 1) - Z.of_nat j * (size - 1)))).
    { intros i p Hp. destruct (H4 i p Hp) as [(j & Hj1 & Hj2)|(j & a & b & ia & ib & Ha & Hb & Hsa & Hsb & Hlt & ->)].
      - apply resize_idx_nth in Hj1. left. exists j. split; [lia|exact Hj2].
      - apply resize_idx_nth in Ha, Hb. destruct Ha as [_ ->], Hb as [_ ->]. right. exists j, a, b. auto. }
    exists r. split; [exact H1|]. split; [exact Hlr|]. split; [exact H3|]. split; [|split; [exact H5|]].
    + intros Hsz. assert (Hr : (length r - 1 < length r)%nat) by (unfold slen in Hlr; lia).
      destruct (nth_error r (length r - 1)) as [p|] eqn:Hp; [|apply nth_error_None in Hp; lia].
      assert (Ei : Z.of_nat (length r - 1) = size - 1) by (unfold slen in Hlr; lia).
      destruct (H5 _ p Hp) as [(j & Hj & Hsj)|(j & a & b & Ha & Hb & Hlt & _)]; rewrite Ei in *.
      * assert (j = length s - 1)%nat by (unfold slen in *; nia). subst j. now rewrite Hsj.
      * assert (S j < length s)%nat by (apply nth_error_Some; congruence). unfold slen in *. nia.
    + intros Esz. apply list_ext; [unfold slen in *; lia|].
      intros i _. destruct (nth_error r i) as [p|] eqn:Hp.
      * destruct (H5 i p Hp) as [(j & Hj & Hsj)|(j & a & b & Ha & Hb & Hlt & _)]; rewrite Esz in *.
        -- assert (j = i) by nia. subst j. now rewrite Hsj.
        -- destruct Hlt as [Hlt1 Hlt2]. apply Z.mul_lt_mono_pos_r in Hlt1, Hlt2; lia.
      * apply nth_error_None in Hp. symmetry. apply nth_error_None. unfold slen in *. lia.
Qed.

Lemma shrink_longest_ok s1 s2 window : 1 <= slen s1 -> 1 <= slen s2 ->
  exists t1 t2, shrink_longest pcombine s1 s2 window = Ok (t1, t2) /\
    1 <= slen t1 /\ 1 <= slen t2 /\
    (window <= 0 -> t1 = s1 /\ t2 = s2) /\
    (0 < window -> Z.abs (slen t1 - slen t2) <= window) /\
    (slen s1 <= slen s2 -> t1 = s1) /\ (slen s2 <= slen s1 -> t2 = s2) /\
    (0 < window -> slen s2 + window < slen s1 -> slen t1 = slen s2 + window) /\
    (0 < window -> slen s1 + window < slen s2 -> slen t2 = slen s1 + window) /\
    (Z.abs (slen s1 - slen s2) <= window -> t1 = s1 /\ t2 = s2).
Proof.
  intros L1 L2. unfold shrink_longest.
  destruct (Z.ltb_spec 0 window) as [Hw|Hw]; cbn [andb].
  - destruct (Z.ltb_spec (slen s2 + window) (slen s1)) as [A|A].
    + destruct (resize_ok s1 (slen s2 + window)) as (r & H1 & H2 & _); [lia|lia|].
      rewrite H1. cbn [obind]. rewrite points_map. cbn [obind]. exists r, s2. split; [reflexivity|].
      repeat split; intros; lia.
    + destruct (Z.ltb_spec (slen s1 + window) (slen s2)) as [B|B].
      * destruct (resize_ok s2 (slen s1 + window)) as (r & H1 & H2 & _); [lia|lia|].
        rewrite H1. cbn [obind]. rewrite points_map. cbn [obind]. exists s1, r. split; [reflexivity|].
        repeat split; intros; lia.
      * exists s1, s2. split; [reflexivity|]. repeat split; intros; lia.
  - exists s1, s2. split; [reflexivity|]. repeat split; intros; lia.
Qed.

(** Swapping the arguments swaps the results. *)
Lemma shrink_longest_swap s1 s2 window : 1 <= slen s1 -> 1 <= slen s2 ->
  shrink_longest pcombine s2 s1 window =
  (let* r := shrink_longest pcombine s1 s2 window in Ok (snd r, fst r)).
Proof.
  intros L1 L2. unfold shrink_longest.
  destruct (Z.ltb_spec 0 window); cbn [andb]; [|reflexivity].
  destruct (Z.ltb_spec (slen s1 + window) (slen s2)), (Z.ltb_spec (slen s2 + window) (slen s1)); try lia; try reflexivity.
  - destruct (resize pcombine s2 (slen s1 + window)) as [r|]; cbn [obind]; [|reflexivity].
    destruct (points r); reflexivity.
  - destruct (resize pcombine s1 (slen s2 + window)) as [r|]; cbn [obind]; [|reflexivity].
    destruct (points r); reflexivity.
Qed.

(** ** The average *)
Lemma path_anywhere {F} (N : Num F) inf w stride V : forall fuel i j p, 0 <= i -> 0 <= j ->
  path_loop N inf w stride fuel V i j = Ok p -> wpath anywhere (i, j) (rev p).
Proof.
  induction fuel as [|fuel IH]; intros i j p Hi Hj Hp; cbn [path_loop] in Hp;
    destruct ((0 <? i) || (0 <? j)) eqn:E; try discriminate.
  1, 3: apply orb_false_iff in E; rewrite !Z.ltb_ge in E; assert (i = 0) by lia; assert (j = 0) by lia; subst i j;
    injection Hp as <-; constructor; exact I.
  apply orb_true_iff in E. rewrite !Z.ltb_lt in E.
  destruct (Z.eqb_spec i 0); [|destruct (Z.eqb_spec j 0)].
  - cbn [obind fst snd] in Hp. destruct (path_loop N inf w stride fuel V i (j - 1)) as [r|] eqn:Hr; [|discriminate].
    injection Hp as <-. cbn [rev]. apply (wp_step _ (i, j - 1)); [apply IH; [lia|lia|exact Hr]|unfold wstep; cbn; lia|exact I].
  - cbn [obind fst snd] in Hp. destruct (path_loop N inf w stride fuel V (i - 1) j) as [r|] eqn:Hr; [|discriminate].
    injection Hp as <-. cbn [rev]. apply (wp_step _ (i - 1, j)); [apply IH; [lia|lia|exact Hr]|unfold wstep; cbn; lia|exact I].
  - destruct (neighbor_costs inf w stride V i j) as [[[l u] ul]|]; [|discriminate]. cbn [obind] in Hp.
    unfold decr_path in Hp. destruct (_ && _) in Hp; [|destruct (nleb N _ _) in Hp]; cbn [fst snd] in Hp.
    + destruct (path_loop N inf w stride fuel V (i - 1) (j - 1)) as [r|] eqn:Hr; [|discriminate].
      injection Hp as <-. cbn [rev]. apply (wp_step _ (i - 1, j - 1)); [apply IH; [lia|lia|exact Hr]|unfold wstep; cbn; lia|exact I].
    + destruct (path_loop N inf w stride fuel V (i - 1) j) as [r|] eqn:Hr; [|discriminate].
      injection Hp as <-. cbn [rev]. apply (wp_step _ (i - 1, j)); [apply IH; [lia|lia|exact Hr]|unfold wstep; cbn; lia|exact I].
    + destruct (path_loop N inf w stride fuel V i (j - 1)) as [r|] eqn:Hr; [|discriminate].
      injection Hp as <-. cbn [rev]. apply (wp_step _ (i, j - 1)); [apply IH; [lia|lia|exact Hr]|unfold wstep; cbn; lia|exact I].
Qed.

Lemma wpath_range al c p : wpath al c p -> Forall (fun e => 0 <= fst e <= fst c /\ 0 <= snd e <= snd c) p.
Proof.
  induction 1 as [|c p c' Hp IH Hs Ha]; [constructor; [cbn; lia|constructor]|].
  pose proof (wpath_nonneg _ _ _ Hp) as [N1 N2]. unfold wstep in Hs. apply Forall_app. split.
  - eapply Forall_impl; [|exact IH]. intros e. cbn. lia.
  - constructor; [lia|constructor].
Qed.
Lemma wpath_ends al c p : wpath al c p -> nth_error p 0 = Some (0, 0) /\ nth_error p (length p - 1) = Some c.
Proof.
  induction 1 as [|c p c' Hp [IH1 IH2] Hs Ha]; [split; reflexivity|].
  pose proof (wpath_ne _ _ _ Hp) as Hne. split.
  - destruct p; [congruence|exact IH1].
  - rewrite app_length. cbn [length]. rewrite nth_error_app2 by lia.
    replace (length p + 1 - 1 - length p)%nat with O by lia. reflexivity.
Qed.

Lemma dba_ok {F} s1 s2 (d : dtw (F := F)) w1 w2 p0 :
  wpath anywhere (last_cell s1 s2) (rev (d_path d)) -> 1 <= slen s1 -> 1 <= slen s2 -> 0 < w1 -> 0 < w2 ->
  let path := rev (d_path d) in
  let avg e := pcombine (nth (Z.to_nat (fst e)) s1 p0) w1 (nth (Z.to_nat (snd e)) s2 p0) w2 in
  exists r, dtw_dba pcombine s1 s2 d w1 w2 = Ok (map Some r) /\
    slen r = ((slen s1 - 1) * w1 + (slen s2 - 1) * w2) / (w1 + w2) + 1 /\
    nth_error r 0 = Some (pcombine (nth 0 s1 p0) w1 (nth 0 s2 p0) w2) /\
    forall i p, nth_error r i = Some p ->
      interpolated pcombine (map avg path) (map (fun e => fst e * w1 + snd e * w2) path) (Z.of_nat i * (w1 + w2)) p.
Proof.
  intros Hp L1 L2 W1 W2 path avg. fold path in Hp. unfold dtw_dba. fold path.
  assert (Ho : omap (fun ends => let* a := sget s1 (fst ends) in let* b := sget s2 (snd ends) in Ok (pcombine a w1 b w2)) path
           = Ok (map avg path)).
  { apply omap_ok. intros e He.
    pose proof (wpath_range _ _ _ Hp) as Hr. rewrite Forall_forall in Hr. specialize (Hr e He). unfold last_cell in Hr. cbn in Hr.
    rewrite (sget_in s1 _ p0) by (unfold slen; lia). rewrite (sget_in s2 _ p0) by (unfold slen; lia). reflexivity. }
  rewrite Ho. cbn [obind].
  destruct (wpath_ends _ _ _ Hp) as [E0 E1].
  apply interpolate_ok.
  - now rewrite !map_length.
  - lia.
  - nia.
  - rewrite nth_error_map, E0. reflexivity.
  - rewrite nth_error_map, map_length, E1. reflexivity.
  - rewrite nth_error_map, E0. reflexivity.
Qed.

Lemma dba_length n1 n2 w1 w2 : 1 <= n1 -> 1 <= n2 -> 0 < w1 -> 0 < w2 ->
  Z.min n1 n2 <= ((n1 - 1) * w1 + (n2 - 1) * w2) / (w1 + w2) + 1 <= Z.max n1 n2.
Proof.
  intros. set (m := Z.min n1 n2). set (M := Z.max n1 n2).
  assert (m - 1 <= ((n1 - 1) * w1 + (n2 - 1) * w2) / (w1 + w2)) by (apply Z.div_le_lower_bound; [lia|]; unfold m; nia).
  assert (((n1 - 1) * w1 + (n2 - 1) * w2) / (w1 + w2) <= M - 1).
  { replace (M - 1) with ((M - 1) * (w1 + w2) / (w1 + w2)) by (apply Z.div_mul; lia).
    apply Z.div_le_mono; [lia|]. unfold M. nia. }
  lia.
Qed.
End Interp.
