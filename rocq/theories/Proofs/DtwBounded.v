(** DTW averages with bounded weights, and the spaces of series. *)
From Coq Require Import List ZArith Lia Bool Reals Lra.
From Verif Require Import Base.Go Base.Num Model.Clustering Model.Euclid Model.Dtw Model.DtwSpace
  Spec.DtwSpec Spec.FloatSpec Spec.SystemSpec
  Proofs.GoLemmas Proofs.DtwProofs Proofs.DtwInterp Proofs.DtwMain Proofs.FloatKmeans.
Import ListNotations.
Local Open Scope Z_scope.

Lemma wpath_adjacent al c p : wpath al c p -> forall j e e', nth_error p j = Some e -> nth_error p (S j) = Some e' -> wstep e e'.
Proof.
  induction 1 as [H|c p c' H IH Hs Ha]; intros j e e' H1 H2.
  - destruct j; discriminate.
  - destruct (Nat.lt_ge_cases (S j) (length p)) as [L|L].
    + rewrite nth_error_app1 in H1 by lia. rewrite nth_error_app1 in H2 by lia. eauto.
    + assert (S j < length (p ++ [c']))%nat by (apply nth_error_Some; congruence). rewrite app_length in *. cbn [length] in *.
      assert (j = length p - 1)%nat by lia. subst j. rewrite nth_error_app1 in H1 by lia.
      destruct (wpath_ends _ _ _ H) as [_ E]. rewrite E in H1. injection H1 as <-.
      replace (S (length p - 1)) with (length p) in H2 by lia. rewrite nth_error_app2, Nat.sub_diag in H2 by lia. injection H2 as <-. exact Hs.
Qed.

Section Bounded.
Context {P F : Type} (N : Num F) (inf : F) (pdist : P -> P -> F) (pcombine : P -> Z -> P -> Z -> P) (Q : P -> Prop) (M : Z).
Context (HQ : forall a wa b wb, Q a -> Q b -> 0 < wa -> 0 < wb -> wa + wb <= M -> Q (pcombine a wa b wb)).

Lemma resize_bounded s size r : 2 <= slen s -> 1 <= size -> size <= M + 1 -> Forall Q s -> resize pcombine s size = Ok (map Some r) -> Forall Q r.
Proof.
  intros Hs Hsz HM Hall Hr. destruct (resize_ok pcombine s size Hs Hsz) as (r' & R1 & _ & _ & _ & R5 & _).
  rewrite Hr in R1. assert (r' = r).
  { injection R1 as R1. apply (f_equal points) in R1. rewrite !points_map in R1. congruence. }
  subst r'. rewrite Forall_forall in Hall. apply Forall_forall. intros p Hp. apply In_nth_error in Hp. destruct Hp as [i Hi].
  destruct (R5 i p Hi) as [(j & _ & Hj)|(j & a & b & Ha & Hb & Hlt & ->)].
  - apply Hall. eapply nth_error_In; exact Hj.
  - apply HQ; [apply Hall; eapply nth_error_In; exact Ha|apply Hall; eapply nth_error_In; exact Hb|lia|lia|].
    rewrite Nat2Z.inj_succ in *. lia.
Qed.

Lemma combine_bounded (s1 s2 : list P) window w1 w2 :
  s1 <> [] -> s2 <> [] -> 0 < window -> 0 < w1 -> 0 < w2 -> w1 + w2 <= M -> slen s1 <= M -> slen s2 <= M -> Forall Q s1 -> Forall Q s2 ->
  exists r, dtw_combine N inf pdist pcombine window s1 w1 s2 w2 = Ok r /\ r <> [] /\ slen r <= Z.max (slen s1) (slen s2) /\ Forall Q r.
Proof.
  intros E1 E2 Hw W1 W2 HM M1 M2 Q1 Q2.
  assert (L1 := slen_pos _ E1). assert (L2 := slen_pos _ E2).
  destruct (shrink_longest_ok pcombine s1 s2 window L1 L2)
    as (t1 & t2 & H & Lt1 & Lt2 & _ & B & _).
  assert (Et1 : t1 <> []) by (intros ->; cbn in Lt1; lia). assert (Et2 : t2 <> []) by (intros ->; cbn in Lt2; lia).
  assert (Hf : Forall Q t1 /\ Forall Q t2 /\ slen t1 <= slen s1 /\ slen t2 <= slen s2).
  { unfold shrink_longest in H. destruct (Z.ltb_spec 0 window); [|lia]. cbn [andb] in H.
    destruct (Z.ltb_spec (slen s2 + window) (slen s1)).
    - destruct (resize_ok pcombine s1 (slen s2 + window)) as (r & H1' & Hl & _); [lia|lia|].
      assert (Forall Q r) by (apply (resize_bounded s1 (slen s2 + window)); auto; lia).
      rewrite H1' in H. cbn [obind] in H. rewrite points_map in H. cbn [obind] in H. injection H as <- <-. repeat split; auto; lia.
    - destruct (Z.ltb_spec (slen s1 + window) (slen s2)).
      + destruct (resize_ok pcombine s2 (slen s1 + window)) as (r & H1' & Hl & _); [lia|lia|].
        assert (Forall Q r) by (apply (resize_bounded s2 (slen s1 + window)); auto; lia).
        rewrite H1' in H. cbn [obind] in H. rewrite points_map in H. cbn [obind] in H. injection H as <- <-. repeat split; auto; lia.
      + injection H as <- <-. repeat split; auto; lia. }
  destruct Hf as (F1 & F2 & G1 & G2).
  destruct t1 as [|x0 t1']; [congruence|]. set (t1 := x0 :: t1') in *.
  destruct (new_dtw_ok N inf pdist t1 t2 window Et1 Et2) as (d & R1 & R2 & _); [lia|rewrite eff_window_pos by lia; auto|].
  destruct (dba_ok pcombine t1 t2 d w1 w2 x0 R2 Lt1 Lt2 W1 W2) as (r & S1 & S2 & S3 & S4).
  exists r. unfold dtw_combine. rewrite H. cbn [obind fst snd]. rewrite R1. cbn [obind]. rewrite S1. cbn [obind].
  split; [apply points_map|]. split; [destruct r; [discriminate S3|discriminate]|]. split.
  { rewrite S2. assert (((slen t1 - 1) * w1 + (slen t2 - 1) * w2) / (w1 + w2) <= Z.max (slen s1) (slen s2) - 1); [|lia].
    apply Z.div_le_upper_bound; [lia|]. nia. }
  apply Forall_forall. intros p Hp. apply In_nth_error in Hp. destruct Hp as [i Hi]. specialize (S4 i p Hi).
  set (path := rev (d_path d)) in *. set (avg := fun e : Z * Z => pcombine (nth (Z.to_nat (fst e)) t1 x0) w1 (nth (Z.to_nat (snd e)) t2 x0) w2) in *.
  assert (Havg : Forall Q (map avg path)).
  { apply Forall_forall. intros q Hq. apply in_map_iff in Hq. destruct Hq as (e & <- & He).
    pose proof (wpath_range _ _ _ R2) as Hr. rewrite Forall_forall in Hr. specialize (Hr e He).
    unfold last_cell in Hr. cbn [fst snd] in Hr. unfold slen in *. rewrite Forall_forall in F1, F2.
    apply HQ; [apply F1, nth_In; lia|apply F2, nth_In; lia|exact W1|exact W2|exact HM]. }
  rewrite Forall_forall in Havg. destruct S4 as [(j & _ & Hj)|(j & a & b & ia & ib & Ia & Ib & Ha & Hb & Hlt & ->)].
  - apply Havg. eapply nth_error_In; exact Hj.
  - apply HQ; [apply Havg; eapply nth_error_In; exact Ha|apply Havg; eapply nth_error_In; exact Hb|lia|lia|].
    rewrite nth_error_map in Ia, Ib. destruct (nth_error path j) as [e|] eqn:Ej; [|discriminate]. destruct (nth_error path (S j)) as [e'|] eqn:Ej'; [|discriminate].
    injection Ia as <-. injection Ib as <-. destruct (wpath_adjacent _ _ _ R2 _ _ _ Ej Ej') as [[A1 A2]|[[A1 A2]|[A1 A2]]]; rewrite A1, A2; lia.
Qed.
End Bounded.

(** ** Series of points *)
Section Series.
Context {F : Type} (N : Num F) (inf : F) (pdist : list F -> list F -> F) (pcombine : list F -> Z -> list F -> Z -> list F) (Q : list F -> Prop) (M : Z).
Context (HQ : forall a wa b wb, Q a -> Q b -> 0 < wa -> 0 < wb -> wa + wb <= M -> Q (pcombine a wa b wb)).

Lemma series_total (L : Z) (a b : list (list F)) window wa wb : 0 < window -> L <= M -> series Q L a -> series Q L b -> 0 < wa -> 0 < wb -> wa + wb <= M ->
  (exists v, dtw_dist N inf pdist pcombine window a b = Ok v) /\
  (exists r, dtw_combine N inf pdist pcombine window a wa b wb = Ok r /\ series Q L r).
Proof.
  intros Hw HL (A1 & A2 & A3) (B1 & B2 & B3) Wa Wb HM. split; [apply dist_window_total; assumption|].
  destruct (combine_bounded N inf pdist pcombine Q M HQ a b window wa wb) as (r & R1 & R2 & R3 & R4); try assumption; [unfold slen; lia..|].
  exists r. split; [exact R1|]. split; [exact R2|]. split; [unfold slen in *; lia|exact R4].
Qed.

Lemma series_kept L window : 0 < window -> L <= M -> kept (dtw_space N inf pdist pcombine window) M (series Q L).
Proof.
  intros Hw HL. split; [auto|]. intros a n b m Ha Hb Hn Hm HM.
  destruct (series_total L a b window n m Hw HL Ha Hb Hn Hm HM) as (_ & r & Hr & S). cbn [scombine dtw_space]. rewrite Hr. exact S.
Qed.
End Series.

Lemma series_float64 : forall pdist k d window, -1074 <= k <= 970 -> 0 < window ->
  kept (dtw_space B64Num b64_inf pdist (scombine (euclid_space B64Num)) window) (2 ^ 53 - 1) (series (box_vec k d) (2 ^ 53 - 1)).
Proof.
  intros pdist k d window Hk Hw. apply series_kept; [|exact Hw|lia]. intros a wa b wb Ha Hb H1 H2 H3. apply box_combine; auto. lia.
Qed.
