(** C120: when MCMC in float64 can accept a proposal. *)
From Coq Require Import List ZArith Lia Bool Reals Lra Psatz.
From Flocq Require Import Core IEEE754.BinarySingleNaN.
From Verif Require Import Base.Go Base.Num Model.Clustering Model.Buffer Model.Euclid Model.KmeansInit Model.Mcmc Model.MultivT
  Spec.McmcSpec Spec.NearestSpec Spec.GoMathSpec Spec.RealSpec Spec.FloatSpec
  Proofs.GoLemmas Proofs.NumLaws Proofs.EuclidFloat Proofs.ConfProofs Proofs.FloatMean Proofs.McmcProofs Proofs.McmcMain.
Import ListNotations.
Local Open Scope Z_scope.

#[local] Existing Instance prec64_gt_0.
#[local] Existing Instance prec64_lt_emax.

(** ** An invariant under which nothing is accepted *)
Section Stuck.
Context {E F G I : Type} (N : Num F) (Sp : Space E F).
Context (pow : F -> F -> F) (log exp : F -> F) (cpus : Z) (D : distrib E F G) (conf : mparams F).
Context (initializer : I -> Z -> list E -> outcome (list (option E) * option init_error)).
Context (Hexact : init_exact initializer) (Hk : mp_init_k conf <= mp_max_k conf).
Context (bad : F -> Prop).
Context (Hpdf : forall c time p, c <> [] -> proba N D c c time = Ok p -> bad p).
Context (Hrho : forall dim (cur prop : proposal E F) time u, bad (pr_pdf cur) -> bad (pr_pdf prop) ->
  accept N log exp conf dim cur prop time u = false).

Notation mstep := (mstep N Sp pow log exp cpus D conf initializer).
Notation msteps := (msteps N Sp pow log exp cpus D conf initializer).

Definition stuck (s : @msys E F) : Prop :=
  store_ok (mi_store (ms_impl s)) /\ ready_ok conf s /\ (ms_ready s = true -> bad (pr_pdf (mi_current (ms_impl s)))).

Lemma stuck_step s e o s' : stuck s -> mstep s e o s' ->
  stuck s' /\ accepted N [o] = 0 /\ (forall dr, e = EvIterate dr -> ms_centroids s' = ms_centroids s).
Proof.
  intros (Hs & Hr & Hb) H. destruct (step_inv N Sp pow log exp cpus D conf initializer Hexact Hk s e o s' Hs Hr H) as (S1 & S2 & _).
  enough ((ms_ready s' = true -> bad (pr_pdf (mi_current (ms_impl s')))) /\ accepted N [o] = 0 /\
          (forall dr, e = EvIterate dr -> ms_centroids s' = ms_centroids s)) as (W1 & W2 & W3) by (split; [split; [|split]|split]; assumption).
  inversion H as [s0 x alive b Hb'|s0 i m cs err Hi|s0 dr c m c' f Hrdy Hc Hi|s0 dr c Hrdy Hc Hi]; subst; clear H.
  - split; [exact Hb|]. split; [reflexivity|discriminate].
  - split; [|split; [reflexivity|discriminate]]. unfold mcmc_init in Hi. apply obind_ok in Hi. destruct Hi as (b & _ & Hi).
    apply obind_ok in Hi. destruct Hi as ([cs0 [e0|]] & Hini & Hi); [injection Hi as <- <- <-; discriminate|].
    apply obind_ok in Hi. destruct Hi as (c & Hso & Hi). apply obind_ok in Hi. destruct Hi as (l & _ & Hi).
    apply obind_ok in Hi. destruct Hi as (p & Hp & [= <- <- <-]). intros _. cbn. apply (Hpdf c _ _) with (2 := Hp).
    destruct (Hexact _ _ _ _ Hini) as (c1 & E1 & E2 & E3). intros ->. cbn in Hso. apply somes_ok in Hso. rewrite Hso in E1.
    destruct c1; [cbn in E2; lia|discriminate].
  - destruct (Hr Hrdy) as (c0 & Hc0 & (G1 & G2 & G3 & G4)). rewrite Hc in Hc0. apply map_Some_inj in Hc0. subst c0.
    assert (Hacc : nltb N (d_u dr) (f_rho f) = false).
    { clear S1 S2. unfold mcmc_iterate in Hi. apply obind_ok in Hi. destruct Hi as ([m1 c1] & Hd & Hi).
      apply obind_ok in Hi. destruct Hi as (b & _ & [= _ _ <-]). unfold do_iter in Hd.
      apply obind_ok in Hd. destruct Hd as (p & Hp & Hd).
      assert (Hbp : bad (pr_pdf p)).
      { destruct (propose_k N Sp pow log exp cpus D conf _ _ _ _ _ _ _ Hs G2 G3 G4 Hp) as (P1 & P2 & _).
        unfold propose in Hp. apply obind_ok in Hp. destruct Hp as ([k c2] & _ & Hp).
        apply obind_ok in Hp. destruct Hp as (c3 & _ & Hp). apply obind_ok in Hp. destruct Hp as (c4 & _ & Hp).
        apply obind_ok in Hp. destruct Hp as (l & _ & Hp). apply obind_ok in Hp. destruct Hp as (pdf & Hpdf' & [= <-]). cbn in *.
        apply (Hpdf c4 _ _) with (2 := Hpdf'). intros ->. cbn in P1. lia. }
      pose proof (Hrho (mi_dim (ms_impl s)) (mi_current (ms_impl s)) p (slen (bdata (mi_buffer (ms_impl s)))) (d_u dr) (Hb Hrdy) Hbp) as Ha.
      unfold accept in Hd, Ha. destruct (accept_figures _ _ _ _ _ _ _ _) as [[lambda rho] rgibbs]. rewrite Ha in Hd.
      injection Hd as <- <-. exact Ha. }
    destruct (rejected_main _ _ _ N Sp pow log exp cpus D conf _ _ _ _ _ _ Hi Hacc) as (-> & A2 & _).
    split; [|split].
    + intros _. cbn. rewrite A2. apply Hb. exact Hrdy.
    + unfold accepted. cbn. rewrite Hacc. reflexivity.
    + intros dr' _. cbn. rewrite Hc. reflexivity.
  - split; [discriminate|]. split; [reflexivity|]. intros dr' _. reflexivity.
Qed.

Lemma stuck_main data fs s0 es os s : new_msys N data fs = Ok s0 -> msteps s0 es os s ->
  accepted N os = 0 /\ mi_acc (ms_impl s) = 0 /\
  forall dr o s', mstep s (EvIterate dr) o s' -> ms_centroids s' = ms_centroids s.
Proof.
  intros H0 H. destruct (new_inv N conf data fs s0 H0) as (N1 & N2 & N3).
  assert (Hst : stuck s0).
  { split; [exact N1|]. split; [exact N2|]. unfold new_msys in H0. apply obind_ok in H0. destruct H0 as (m & _ & [= <-]). discriminate. }
  assert (HH : stuck s /\ accepted N os = 0).
  { clear N1 N2 N3 H0. induction H as [s|s e o s1 es os s2 H1 H2 IH]; [split; [exact Hst|reflexivity]|].
    destruct (stuck_step _ _ _ _ Hst H1) as (A & B & _). destruct (IH A) as (C & Dd). split; [exact C|]. rewrite accepted_cons. lia. }
  destruct HH as [Hs Ha]. split; [exact Ha|]. split.
  - destruct (steps_inv N Sp pow log exp cpus D conf initializer Hexact Hk s0 es os s N1 N2 H) as (_ & _ & A). lia.
  - intros dr o s' Hs'. destruct (stuck_step _ _ _ _ Hs Hs') as (_ & _ & A). apply (A dr eq_refl).
Qed.
End Stuck.

(** ** Infinities and NaN *)
Definition sunk (x : b64) : Prop := x = b64_inf \/ is_nan x = true.

Lemma sunk_add_l x y : sunk x -> sunk (b64_add x y).
Proof.
  intros [->|H].
  - destruct y as [s|[|]| |s m e p]; [left|right|left|right|left]; reflexivity.
  - destruct x; try discriminate. right. destruct y; reflexivity.
Qed.
Lemma sunk_add_r x y : sunk y -> sunk (b64_add x y).
Proof.
  intros [->|H].
  - destruct x as [s|[|]| |s m e p]; [left|right|left|right|left]; reflexivity.
  - destruct y; try discriminate. right. destruct x; reflexivity.
Qed.
Lemma sunk_sub_l x y : sunk x -> sunk (b64_sub x y).
Proof.
  intros [->|H].
  - destruct y as [s|[|]| |s m e p]; [left|left|right|right|left]; reflexivity.
  - destruct x; try discriminate. right. destruct y; reflexivity.
Qed.
Lemma sunk_sub x y : sunk x -> sunk y -> is_nan (b64_sub x y) = true.
Proof.
  intros [->|Hx] [->|Hy]; [reflexivity|destruct y; try discriminate; reflexivity|destruct x; try discriminate; reflexivity|].
  destruct x; try discriminate; destruct y; try discriminate; reflexivity.
Qed.
Lemma nan_add_l x y : is_nan x = true -> is_nan (b64_add x y) = true.
Proof. destruct x; try discriminate. destruct y; reflexivity. Qed.
Lemma nan_add_r x y : is_nan y = true -> is_nan (b64_add x y) = true.
Proof. destruct y; try discriminate. destruct x; reflexivity. Qed.
Lemma nan_mul_l x y : is_nan x = true -> is_nan (b64_mul x y) = true.
Proof. destruct x; try discriminate. destruct y; reflexivity. Qed.
Lemma nan_ltb u x : is_nan x = true -> b64_ltb u x = false.
Proof. destruct x; try discriminate. destruct u as [|[|]| |[|]]; reflexivity. Qed.

Lemma accept_nan {E} log exp conf dim (cur prop : proposal E b64) time u : (forall x, is_nan x = true -> is_nan (exp x) = true) ->
  is_nan (b64_sub (pr_pdf cur) (pr_pdf prop)) = true \/ is_nan (log (b64_mul (b64_of_Z 2) (mp_b conf))) = true ->
  accept B64Num log exp conf dim cur prop time u = false.
Proof.
  intros He H. unfold accept, accept_figures. cbn [nltb B64Num]. apply nan_ltb. apply He. cbn [nadd B64Num].
  destruct H as [H|H]; [apply nan_add_r; exact H|]. apply nan_add_l. apply nan_add_r. apply nan_mul_l. exact H.
Qed.

(** ** The sum of the densities *)
Lemma proba_sunk {E G} (D : distrib E b64 G) (c : list E) time p :
  (forall mu x d, dpdf D mu x time = Ok d -> sunk d) -> c <> [] -> proba B64Num D c c time = Ok p -> sunk p.
Proof.
  intros HD Hc H. unfold proba in H. apply obind_ok in H. destruct H as ([i q] & H & [= <-]). cbn.
  assert (Hgen : forall l i q j r, ofold (fun st v => let '(i, p) := st in let* m := sget c i in let* d := dpdf D m v time in
      Ok (i + 1, nadd B64Num p d)) l (i, q) = Ok (j, r) -> sunk q \/ l <> [] -> sunk r).
  { induction l as [|v l IH]; intros i0 q0 j r Hf Hq.
    - cbn in Hf. injection Hf as <- <-. destruct Hq as [Hq|Hq]; [exact Hq|contradiction].
    - cbn [ofold] in Hf. apply obind_ok in Hf. destruct Hf as ([i1 q1] & H1 & H2). apply obind_ok in H1. destruct H1 as (m & _ & H1).
      apply obind_ok in H1. destruct H1 as (d & Hd & [= <- <-]). eapply IH; [exact H2|]. left. apply sunk_add_r. eapply HD. exact Hd. }
  eapply Hgen; [exact H|]. right. exact Hc.
Qed.

Lemma pdf_sunk log pi m mu x time d : mt_gamma_factor m = b64_inf -> mt_pdf B64Num log pi m mu x time = Ok d -> sunk d.
Proof.
  intros Hg H. unfold mt_pdf in H. apply obind_ok in H. destruct H as (sh & _ & [= <-]). apply sunk_add_l. cbn [nsub B64Num].
  apply sunk_sub_l. left. exact Hg.
Qed.

(** ** The gamma factor in a great dimension *)
Lemma power_great dim : 341 <= dim < 2 ^ 53 - 3 ->
  b64_leb (b64_of_Z 172) (b64_div (b64_add (b64_of_Z dim) (b64_of_Z 3)) (b64_of_Z 2)) = true.
Proof.
  intros Hd. rewrite weights_add by lia. destruct (b64_of_Z_exact (dim + 3) ltac:(lia)) as [V F].
  destruct (div_box (b64_of_Z (dim + 3)) 60 2) as (F1 & V1 & _); [lia|lia|exact F| |].
  { rewrite V. rewrite Rabs_right by (apply Rle_ge; apply IZR_le; lia). change (bpow radix2 60) with (IZR (2 ^ 60)). rewrite <- mult_IZR. apply IZR_le. lia. }
  destruct (b64_of_Z_exact 172 ltac:(lia)) as [V2 F2].
  unfold b64_leb. rewrite Bleb_correct by assumption. apply Rle_bool_true. rewrite V1, V2, V.
  rewrite <- (round_generic radix2 (SpecFloat.fexp prec64 emax64) (round_mode mode_NE) 172).
  - apply round_le; auto with typeclass_instances; [apply fexp_correct; reflexivity|].
    apply (Rmult_le_reg_r 2); [lra|]. unfold Rdiv. rewrite Rmult_assoc, Rinv_l, Rmult_1_r by lra. rewrite <- mult_IZR. apply IZR_le. lia.
  - rewrite <- V2. apply generic_format_B2R.
Qed.

Lemma conf_nu_default : conf_nu B64Num (b64_of_Z 0) = b64_of_Z 3.
Proof. reflexivity. Qed.

Lemma inf_div y : is_finite y = true -> (0 < B2R y)%R -> b64_div b64_inf y = b64_inf.
Proof.
  intros Hf Hy. destruct y as [s|s| |s m e p]; cbn in Hf, Hy; try discriminate; [lra|]. destruct s; [|reflexivity].
  exfalso. assert (F2R (Float radix2 (Z.neg m) e) < 0)%R by (apply F2R_lt_0; reflexivity). cbn in *. lra.
Qed.

Lemma three_half : is_finite (b64_div (b64_of_Z 3) (b64_of_Z 2)) = true /\ B2R (b64_div (b64_of_Z 3) (b64_of_Z 2)) = (3 / 2)%R.
Proof.
  destruct (b64_of_Z_exact 3 ltac:(lia)) as [V F]. destruct (div_box (b64_of_Z 3) 2 2) as (F1 & V1 & _); [lia|lia|exact F| |].
  { rewrite V. rewrite Rabs_right by lra. cbn. lra. }
  split; [exact F1|]. rewrite V1, V. apply round_generic; [auto with typeclass_instances|].
  replace (3 / 2)%R with (bpow radix2 (-1) * IZR 3)%R by (cbn; lra). apply box_format; lia.
Qed.

Lemma gamma_factor_great exp log gamma dim mt : go_math exp log gamma -> 341 <= dim < 2 ^ 53 - 3 ->
  new_multivt B64Num log gamma dim (b64_of_Z 0) = Ok mt -> mt_gamma_factor mt = b64_inf.
Proof.
  intros HM Hd H. unfold new_multivt in H. apply obind_ok in H. destruct H as (? & _ & H).
  rewrite conf_nu_default in H. cbv zeta in H. apply (f_equal (fun o => match o with Ok m => mt_gamma_factor m | Panic => b64_inf end)) in H.
  cbv beta iota in H. rewrite <- H. cbn [mt_gamma_factor]. cbn [ndiv nadd nof B64Num]. rewrite (gamma_over _ _ _ HM _ (power_great dim Hd)).
  destruct three_half as [F V]. destruct (gamma_range _ _ _ HM (b64_div (b64_of_Z 3) (b64_of_Z 2)) F) as [G1 G2]; [rewrite V; lra|].
  rewrite inf_div by assumption. apply (log_inf _ _ _ HM).
Qed.

Lemma dimension_main : forall exp log gamma, go_math exp log gamma -> forall I Sp pow pi cpus conf
  (initializer : I -> Z -> list (list b64) -> outcome (list (option (list b64)) * option init_error)) dim mt,
  341 <= dim < 2 ^ 53 - 3 -> new_multivt B64Num log gamma dim (b64_of_Z 0) = Ok mt ->
  init_exact initializer -> mp_init_k conf <= mp_max_k conf ->
  let D := multivt_distrib B64Num log pi mt in
  forall data frame_size s0 es os s, new_msys B64Num data frame_size = Ok s0 ->
  msteps B64Num Sp pow log exp cpus D conf initializer s0 es os s ->
  accepted B64Num os = 0 /\ mi_acc (ms_impl s) = 0 /\
  forall dr o s', mstep B64Num Sp pow log exp cpus D conf initializer s (EvIterate dr) o s' -> ms_centroids s' = ms_centroids s.
Proof.
  intros exp log gamma HM I Sp pow pi cpus conf ini dim mt Hd Hmt Hex Hk D data fs s0 es os s H0 H.
  pose proof (gamma_factor_great _ _ _ _ _ HM Hd Hmt) as Hg.
  apply (stuck_main B64Num Sp pow log exp cpus D conf ini Hex Hk sunk) with (data := data) (fs := fs) (s0 := s0) (es := es); auto.
  - intros c time p Hc Hp. apply (proba_sunk D c time p); auto. intros mu x d Hpd. apply (pdf_sunk log pi mt mu x time d Hg Hpd).
  - intros dim' cur prop time u H1 H2. apply accept_nan; [apply (exp_nan _ _ _ HM)|]. left. apply sunk_sub; assumption.
Qed.

(** ** A negative B *)
Lemma two_neg x : b64_ltb x (b64_of_Z 0) = true -> b64_ltb (b64_mul (b64_of_Z 2) x) (b64_of_Z 0) = true.
Proof.
  intros H. destruct (is_finite x) eqn:Fx.
  - destruct (b64_of_Z_exact 2 ltac:(lia)) as [V2 F2]. destruct (b64_of_Z_exact 0 ltac:(lia)) as [V0 F0].
    assert (Hx : (B2R x < 0)%R).
    { unfold b64_ltb in H. rewrite Bltb_correct in H by assumption. rewrite V0 in H. destruct (Rlt_bool_spec (B2R x) 0); [assumption|discriminate]. }
    destruct (mul_cases (b64_of_Z 2) x F2 Fx) as [(H1 & H2 & H3 & H4)|[H1 H2]].
    + unfold b64_ltb. rewrite Bltb_correct by assumption. rewrite V0. apply Rlt_bool_true. rewrite H2, V2.
      apply Rle_lt_trans with (B2R x); [|exact Hx].
      rewrite <- (round_generic radix2 (SpecFloat.fexp prec64 emax64) (round_mode mode_NE) (B2R x)) at 2 by apply generic_format_B2R.
      apply round_le; auto with typeclass_instances; [apply fexp_correct; reflexivity|lra].
    + rewrite H2. destruct x as [s|s| |s m e p]; cbn in *; try discriminate; try lra. destruct s; [reflexivity|].
      exfalso. assert (0 < F2R (Float radix2 (Z.pos m) e))%R by (apply F2R_gt_0; reflexivity). cbn in *. lra.
  - destruct x as [s|s| |s m e p]; try discriminate. destruct s; [reflexivity|discriminate].
Qed.

Lemma negative_main : forall exp log gamma, go_math exp log gamma -> forall E G I (Sp : Space E b64) pow cpus (D : distrib E b64 G) conf
  (initializer : I -> Z -> list E -> outcome (list (option E) * option init_error)),
  b64_ltb (mp_b conf) (b64_of_Z 0) = true -> init_exact initializer -> mp_init_k conf <= mp_max_k conf ->
  forall data frame_size s0 es os s, new_msys B64Num data frame_size = Ok s0 ->
  msteps B64Num Sp pow log exp cpus D conf initializer s0 es os s ->
  accepted B64Num os = 0 /\ mi_acc (ms_impl s) = 0 /\
  forall dr o s', mstep B64Num Sp pow log exp cpus D conf initializer s (EvIterate dr) o s' -> ms_centroids s' = ms_centroids s.
Proof.
  intros exp log gamma HM E G I Sp pow cpus D conf ini Hb Hex Hk data fs s0 es os s H0 H.
  apply (stuck_main B64Num Sp pow log exp cpus D conf ini Hex Hk (fun _ => True)) with (data := data) (fs := fs) (s0 := s0) (es := es); auto.
  intros dim' cur prop time u _ _. apply accept_nan; [apply (exp_nan _ _ _ HM)|]. right. apply (log_neg _ _ _ HM). apply two_neg. exact Hb.
Qed.

(** ** When a proposal is accepted *)
Lemma finite_sub_self x : is_finite x = true -> b64_sub x x = B754_zero false.
Proof.
  intros Hx. destruct (sub_cases x x Hx Hx) as [(H1 & H2 & H3)|[H1 _]].
  - pose proof (Bminus_correct prec64 emax64 _ _ mode_NE x x Hx Hx) as H. fold (b64_sub x x) in H. rewrite Rlt_bool_true in H by exact H1.
    destruct H as (A & B & C). apply B2R_Bsign_inj; [assumption|reflexivity| |].
    + rewrite A. rewrite Rminus_diag_eq by reflexivity. rewrite round_0 by auto with typeclass_instances. reflexivity.
    + rewrite C. rewrite Rminus_diag_eq by reflexivity. rewrite Rcompare_Eq by reflexivity. destruct (Bsign x); reflexivity.
  - exfalso. rewrite Rminus_diag_eq in H1 by reflexivity. rewrite round_0 in H1 by auto with typeclass_instances. rewrite Rabs_R0 in H1.
    pose proof (bpow_gt_0 radix2 emax64). lra.
Qed.

Lemma finite_mul_zero x : is_finite x = true -> exists s, b64_mul x (b64_of_Z 0) = B754_zero s.
Proof. rewrite b64_zero. destruct x as [s|s| |s m e p]; intros H; try discriminate; eexists; reflexivity. Qed.

Lemma nonneg_add_zero x s : nonneg64 x -> nonneg64 (b64_add x (B754_zero s)).
Proof.
  intros [H1 H2]. destruct x as [t|t| |t m e p]; cbn in H2; try discriminate; subst.
  - destruct s; split; reflexivity.
  - split; reflexivity.
  - split; reflexivity.
Qed.

Lemma finite_mul_nonneg x y : is_finite x = true -> is_finite y = true -> nonneg64 x -> nonneg64 y -> nonneg64 (b64_mul x y).
Proof.
  intros Fx Fy [_ Sx] [_ Sy]. destruct (mul_cases x y Fx Fy) as [(H1 & H2 & H3 & H4)|[_ H]].
  - split; [unfold not_nan64; destruct (b64_mul x y); cbn in *; congruence|]. rewrite H4, Sx, Sy. reflexivity.
  - rewrite H, Sx, Sy. split; reflexivity.
Qed.

Lemma finite_nonneg x : is_finite x = true -> (0 < B2R x)%R -> nonneg64 x.
Proof.
  intros Hf Hr. destruct x as [s|s| |s m e p]; cbn in *; try discriminate; try lra. split; [reflexivity|]. destruct s; [|reflexivity].
  exfalso. assert (F2R (Float radix2 (Z.neg m) e) < 0)%R by (apply F2R_lt_0; reflexivity). cbn in *. lra.
Qed.

(** The difference of two losses that are not negative. *)
Lemma loss_sub l l' : is_finite l = true -> is_finite l' = true -> nonneg64 l -> nonneg64 l' -> (B2R l' <= B2R l)%R ->
  is_finite (b64_sub l l') = true /\ nonneg64 (b64_sub l l').
Proof.
  intros F1 F2 N1 N2 Hle. pose proof (nonneg_R _ N1 F1) as P1. pose proof (nonneg_R _ N2 F2) as P2.
  assert (Hb : (Rabs (rnd (B2R l - B2R l')) < bpow radix2 emax64)%R).
  { apply Rle_lt_trans with (B2R l).
    - apply rnd_le; [apply generic_format_B2R|]. rewrite Rabs_right by lra. lra.
    - rewrite <- (Rabs_right (B2R l)) by lra. apply abs_B2R_lt_emax. }
  pose proof (Bminus_correct prec64 emax64 _ _ mode_NE l l' F1 F2) as H. fold (b64_sub l l') in H. rewrite Rlt_bool_true in H by exact Hb.
  destruct H as (A & B & C). split; [exact B|]. split; [unfold not_nan64; destruct (b64_sub l l'); cbn in *; congruence|].
  rewrite C. destruct (Rcompare_spec (B2R l - B2R l') 0); [lra| |reflexivity]. destruct N1 as [_ ->]. reflexivity.
Qed.

Lemma lambda_fine amp dim time : is_finite amp = true -> nonneg64 amp -> (B2R amp <= bpow radix2 900)%R ->
  0 <= dim < 2 ^ 53 - 3 -> 1 <= time < 2 ^ 53 ->
  let l := b64_mul amp (b64_sqrt (b64_div (b64_of_Z (dim + 3)) (b64_of_Z time))) in is_finite l = true /\ nonneg64 l.
Proof.
  intros Fa Na Ha Hd Ht l. pose proof (nonneg_R _ Na Fa) as Pa.
  destruct (b64_of_Z_exact (dim + 3) ltac:(lia)) as [V F]. destruct (b64_of_Z_exact time ltac:(lia)) as [Vt Ft].
  assert (Hpos : (0 < IZR (dim + 3))%R) by (apply IZR_lt; lia). assert (Htp : (1 <= IZR time)%R) by (apply IZR_le; lia).
  destruct (div_box (b64_of_Z (dim + 3)) 60 time) as (F1 & V1 & B1); [lia|lia|exact F| |].
  { rewrite V, Rabs_right by lra. change (bpow radix2 60) with (IZR (2 ^ 60)). rewrite <- mult_IZR. apply IZR_le. nia. }
  set (q := b64_div (b64_of_Z (dim + 3)) (b64_of_Z time)) in *.
  assert (Hq : (0 <= B2R q)%R).
  { rewrite V1, V. rewrite <- (round_0 radix2 (SpecFloat.fexp prec64 emax64) (round_mode mode_NE)).
    apply round_le; auto with typeclass_instances; [apply fexp_correct; reflexivity|]. apply Rlt_le. apply Rdiv_lt_0_compat; lra. }
  assert (Nq : nonneg64 q).
  { split; [unfold not_nan64; destruct q; cbn in *; congruence|].
    pose proof (Bdiv_correct prec64 emax64 _ _ mode_NE (b64_of_Z (dim + 3)) (b64_of_Z time)) as H. fold q in H. rewrite Vt, V in H. specialize (H ltac:(lra)).
    rewrite Rlt_bool_true in H.
    - destruct H as (_ & _ & H). change (Bsign q = xorb (Bsign (b64_of_Z (dim + 3))) (Bsign (b64_of_Z time))) in H || (unfold b64_div in q; fold q in H).
      rewrite H by (destruct q; cbn in *; congruence).
      rewrite (proj2 (finite_nonneg (b64_of_Z (dim + 3)) F ltac:(rewrite V; lra))), (proj2 (finite_nonneg (b64_of_Z time) Ft ltac:(rewrite Vt; lra))). reflexivity.
    - rewrite V in V1. rewrite <- V1. apply Rle_lt_trans with (1 := B1). apply bpow_lt. reflexivity. }
  pose proof (sqrt_nonneg q Nq) as Ns.
  pose proof (Bsqrt_correct prec64 emax64 _ _ mode_NE q) as Hs. fold (b64_sqrt q) in Hs. destruct Hs as (Vs & Fs & _).
  assert (Fs' : is_finite (b64_sqrt q) = true) by (rewrite Fs; destruct Nq as [_ Sq]; destruct q as [s|s| |s m e p]; cbn in *; try discriminate; subst; reflexivity).
  assert (Bs : (0 <= B2R (b64_sqrt q) <= bpow radix2 30)%R).
  { split; [apply nonneg_R; assumption|]. rewrite Vs. apply Rle_trans with (Rabs (rnd (sqrt (B2R q)))); [apply Rle_abs|].
    apply rnd_le; [apply pow_format; lia|]. rewrite Rabs_right by (apply Rle_ge; apply sqrt_pos).
    replace (bpow radix2 30) with (sqrt (bpow radix2 60)).
    - apply sqrt_le_1_alt. rewrite Rabs_right in B1 by lra. exact B1.
    - replace (bpow radix2 60) with (bpow radix2 30 * bpow radix2 30)%R by (rewrite <- bpow_plus; reflexivity). apply sqrt_square. apply bpow_ge_0. }
  assert (Fl : is_finite l = true).
  { unfold l. destruct (mul_cases amp (b64_sqrt q) Fa Fs') as [(_ & _ & H & _)|[H _]]; [exact H|]. exfalso. revert H. apply Rlt_not_le.
    apply Rle_lt_trans with (bpow radix2 930); [|apply bpow_lt; reflexivity]. apply rnd_le; [apply pow_format; lia|].
    rewrite Rabs_right by (apply Rle_ge; apply Rmult_le_pos; lra). replace (bpow radix2 930) with (bpow radix2 900 * bpow radix2 30)%R by (rewrite <- bpow_plus; reflexivity).
    apply Rmult_le_compat; lra. }
  split; [exact Fl|]. apply finite_mul_nonneg; assumption.
Qed.

Lemma accept_main : forall exp log gamma, go_math exp log gamma -> forall E conf dim (cur prop : proposal E b64) time u,
  is_finite (mp_b conf) = true -> (0 < B2R (mp_b conf) <= bpow radix2 1000)%R ->
  is_finite (mp_amp conf) = true -> nonneg64 (mp_amp conf) -> (B2R (mp_amp conf) <= bpow radix2 900)%R ->
  0 <= dim < 2 ^ 53 - 3 -> 1 <= time < 2 ^ 53 ->
  pr_k prop = pr_k cur -> pr_pdf prop = pr_pdf cur -> is_finite (pr_pdf cur) = true ->
  is_finite (pr_loss cur) = true -> is_finite (pr_loss prop) = true -> nonneg64 (pr_loss cur) -> nonneg64 (pr_loss prop) ->
  (B2R (pr_loss prop) <= B2R (pr_loss cur))%R -> b64_ltb u (b64_of_Z 1) = true ->
  accept B64Num log exp conf dim cur prop time u = true.
Proof.
  intros exp log gamma HM E conf dim cur prop time u FB PB FA NA BA Hd Ht Hk Hp Fp F1 F2 N1 N2 Hl Hu.
  unfold accept, accept_figures. cbn [nltb nsub nadd nmul ndiv nsqrt nof B64Num]. rewrite Hk, Hp.
  replace (dim * (pr_k cur - pr_k cur)) with 0 by lia. rewrite (finite_sub_self _ Fp).
  destruct (lambda_fine (mp_amp conf) dim time FA NA BA Hd Ht) as [Fl Nl].
  destruct (loss_sub _ _ F1 F2 N1 N2 Hl) as [Fs Ns].
  assert (Flog : is_finite (log (b64_mul (b64_of_Z 2) (mp_b conf))) = true).
  { destruct (b64_of_Z_exact 2 ltac:(lia)) as [V2 F2']. destruct (mul_cases (b64_of_Z 2) (mp_b conf) F2' FB) as [(H1 & H2 & H3 & H4)|[H1 _]].
    - apply (log_finite _ _ _ HM); [exact H3|]. rewrite H2, V2. apply Rlt_le_trans with (B2R (mp_b conf)); [apply PB|].
      rewrite <- (round_generic radix2 (SpecFloat.fexp prec64 emax64) (round_mode mode_NE) (B2R (mp_b conf))) at 1 by apply generic_format_B2R.
      apply round_le; auto with typeclass_instances; [apply fexp_correct; reflexivity|lra].
    - exfalso. revert H1. apply Rlt_not_le. apply Rle_lt_trans with (bpow radix2 1001); [|apply bpow_lt; reflexivity].
      apply rnd_le; [apply pow_format; lia|]. rewrite V2, Rabs_right by lra. replace (bpow radix2 1001) with (2 * bpow radix2 1000)%R by (rewrite (bpow_plus radix2 1 1000 : bpow radix2 1001 = _); reflexivity). lra. }
  destruct (finite_mul_zero _ Flog) as [s Hz].
  pose proof (nonneg_add_zero _ false (nonneg_add_zero _ s (finite_mul_nonneg _ _ Fl Fs Nl Ns))) as HN.
  rewrite <- Hz in HN. apply nonneg_leb in HN. apply (exp_up _ _ _ HM) in HN.
  match type of HN with _ _ ?t = true => set (r := t) in HN; change (b64_ltb u r = true) end. clearbody r.
  rewrite (ltb_nleb _ _ B64NumOrd : forall x y, not_nan64 x -> not_nan64 y -> b64_ltb x y = negb (b64_leb y x)).
  2: { destruct u; try discriminate; reflexivity. }
  2: { destruct r; try discriminate; reflexivity. }
  apply negb_true_iff. apply not_true_iff_false. intros Hle.
  pose proof (leb_trans _ _ B64NumOrd (b64_of_Z 1) r u (b64_of_Z_not_nan 1)) as Htr.
  assert (Hr : not_nan64 r) by (destruct r; try discriminate; reflexivity). assert (Hnu : not_nan64 u) by (destruct u; try discriminate; reflexivity).
  specialize (Htr Hr Hnu HN Hle). cbn [nleb B64Num] in Htr.
  rewrite (ltb_nleb _ _ B64NumOrd : forall x y, not_nan64 x -> not_nan64 y -> b64_ltb x y = negb (b64_leb y x)) in Hu by (assumption || apply b64_of_Z_not_nan).
  rewrite Htr in Hu. discriminate.
Qed.

(** ** The density of centers at themselves *)
Lemma shift_self mu : finite_vec mu -> shift_loop B64Num mu mu (B754_zero false) = Ok (B754_zero false).
Proof.
  induction 1 as [|x mu Hx HF IH]; [reflexivity|]. cbn [shift_loop nsub nadd nmul B64Num].
  rewrite (sub_self_sq x Hx). exact IH.
Qed.

Definition self_density (log : b64 -> b64) (pi : b64) (m : multivt b64) (time : Z) : b64 :=
  match mt_pdf B64Num log pi m [] [] time with Ok d => d | Panic => b64_of_Z 0 end.

Lemma pdf_self log pi m mu time : finite_vec mu -> mt_pdf B64Num log pi m mu mu time = Ok (self_density log pi m time).
Proof.
  intros H. unfold self_density, mt_pdf. change (nof B64Num 0) with (b64_of_Z 0). rewrite b64_zero, (shift_self mu H).
  cbn [shift_loop obind]. reflexivity.
Qed.

(** Values bounded by a power of two. *)
Definition bnd (a : Z) (x : b64) : Prop := is_finite x = true /\ (Rabs (B2R x) <= bpow radix2 a)%R.

Lemma bnd_mul a b x y : bnd a x -> bnd b y -> -1074 <= a + b <= 1020 -> bnd (a + b) (b64_mul x y).
Proof.
  intros [Fx Hx] [Fy Hy] Hab. assert (Hr : (Rabs (rnd (B2R x * B2R y)) <= bpow radix2 (a + b))%R).
  { apply rnd_le; [apply pow_format; lia|]. rewrite Rabs_mult, bpow_plus. apply Rmult_le_compat; try apply Rabs_pos; assumption. }
  destruct (mul_cases x y Fx Fy) as [(H1 & H2 & H3 & _)|[H1 _]].
  - split; [exact H3|]. rewrite H2. exact Hr.
  - exfalso. pose proof (bpow_lt radix2 (a + b) emax64 ltac:(unfold emax64; lia)). lra.
Qed.

Lemma bnd_le a b x : bnd a x -> a <= b -> bnd b x.
Proof. intros [F H] Hle. split; [exact F|]. apply Rle_trans with (1 := H). apply bpow_le. exact Hle. Qed.

Lemma bnd_add a x y : bnd a x -> bnd a y -> -1074 <= a <= 1020 -> bnd (a + 1) (b64_add x y).
Proof.
  intros [Fx Hx] [Fy Hy] Ha. assert (Hr : (Rabs (rnd (B2R x + B2R y)) <= bpow radix2 (a + 1))%R).
  { apply rnd_le; [apply pow_format; lia|]. apply Rle_trans with (1 := Rabs_triang _ _). rewrite bpow_plus. cbn [bpow radix2]. cbn. lra. }
  pose proof (Bplus_correct prec64 emax64 _ _ mode_NE x y Fx Fy) as H. fold (b64_add x y) in H. rewrite Rlt_bool_true in H.
  - destruct H as (A & B & _). split; [exact B|]. rewrite A. exact Hr.
  - apply Rle_lt_trans with (1 := Hr). apply bpow_lt. unfold emax64. lia.
Qed.

Lemma bnd_sub a x y : bnd a x -> bnd a y -> -1074 <= a <= 1020 -> bnd (a + 1) (b64_sub x y).
Proof.
  intros [Fx Hx] [Fy Hy] Ha. assert (Hr : (Rabs (rnd (B2R x - B2R y)) <= bpow radix2 (a + 1))%R).
  { apply rnd_le; [apply pow_format; lia|]. unfold Rminus. apply Rle_trans with (1 := Rabs_triang _ _). rewrite Rabs_Ropp, bpow_plus. cbn [bpow radix2]. cbn. lra. }
  destruct (sub_cases x y Fx Fy) as [(H1 & H2 & H3)|[H1 _]].
  - split; [exact H3|]. rewrite H2. exact Hr.
  - exfalso. pose proof (bpow_lt radix2 (a + 1) emax64 ltac:(unfold emax64; lia)). lra.
Qed.

Lemma bnd_of_Z a z : 0 <= a <= 53 -> Z.abs z <= 2 ^ a -> bnd a (b64_of_Z z).
Proof.
  intros Ha Hz. destruct (b64_of_Z_exact z) as [V F]; [apply Z.le_trans with (1 := Hz); apply Z.pow_le_mono_r; lia|].
  split; [exact F|]. rewrite V, <- abs_IZR. rewrite <- IZR_Zpower by lia. apply IZR_le. exact Hz.
Qed.

(** [pi * scale] for the default Nu. *)
Lemma rnd_between lo hi x : fmt lo -> fmt hi -> (lo <= x <= hi)%R -> (lo <= rnd x <= hi)%R.
Proof.
  intros H1 H2 [A B].
  assert (E1 : rnd lo = lo) by (apply round_generic; [auto with typeclass_instances|exact H1]).
  assert (E2 : rnd hi = hi) by (apply round_generic; [auto with typeclass_instances|exact H2]).
  assert (Hm : forall a b, (a <= b)%R -> (rnd a <= rnd b)%R) by (intros a b Hab; apply round_le; auto with typeclass_instances; apply fexp_correct; reflexivity).
  pose proof (Hm _ _ A). pose proof (Hm _ _ B). lra.
Qed.

Lemma scale_fine pi time : is_finite pi = true -> (3 <= B2R pi <= 4)%R -> 1 <= time <= 2 ^ 48 ->
  let x := b64_mul pi (b64_div (b64_of_Z 3) (b64_sqrt (b64_of_Z (time * 20)))) in is_finite x = true /\ (0 < B2R x)%R.
Proof.
  intros Fp Hp Ht x. destruct (b64_of_Z_exact (time * 20) ltac:(lia)) as [Vt Ft]. destruct (b64_of_Z_exact 3 ltac:(lia)) as [V3 F3].
  assert (H1 : (1 <= IZR (time * 20) <= bpow radix2 54)%R).
  { split; [apply IZR_le; lia|]. change (bpow radix2 54) with (IZR (2 ^ 54)). apply IZR_le. lia. }
  pose proof (Bsqrt_correct prec64 emax64 _ _ mode_NE (b64_of_Z (time * 20))) as Hs. fold (b64_sqrt (b64_of_Z (time * 20))) in Hs. destruct Hs as (Vs & Fs & _).
  set (q := b64_sqrt (b64_of_Z (time * 20))) in *. rewrite Vt in Vs.
  assert (Bq : (1 <= B2R q <= bpow radix2 27)%R).
  { rewrite Vs. apply rnd_between.
    - change 1%R with (bpow radix2 0). apply pow_format. lia.
    - apply pow_format. lia.
    - split; [rewrite <- sqrt_1; apply sqrt_le_1_alt; lra|]. replace (bpow radix2 27) with (sqrt (bpow radix2 54)).
      + apply sqrt_le_1_alt. lra.
      + replace (bpow radix2 54) with (bpow radix2 27 * bpow radix2 27)%R by (rewrite <- bpow_plus; reflexivity). apply sqrt_square. apply bpow_ge_0. }
  assert (Fq : is_finite q = true).
  { destruct q as [s|s| |s m e p]; try reflexivity; cbn in Bq; lra. }
  pose proof (Bdiv_correct prec64 emax64 _ _ mode_NE (b64_of_Z 3) q ltac:(lra)) as Hd. fold (b64_div (b64_of_Z 3) q) in Hd. rewrite V3 in Hd.
  assert (Bd : (bpow radix2 (-27) <= rnd (3 / B2R q) <= 3)%R).
  { apply rnd_between; [apply pow_format; lia|rewrite <- V3; apply generic_format_B2R|]. split.
    - apply (Rmult_le_reg_r (B2R q)); [lra|]. unfold Rdiv. rewrite Rmult_assoc, Rinv_l, Rmult_1_r by lra.
      apply Rle_trans with (bpow radix2 (-27) * bpow radix2 27)%R; [apply Rmult_le_compat_l; [apply bpow_ge_0|lra]|]. rewrite <- bpow_plus. cbn. lra.
    - apply (Rmult_le_reg_r (B2R q)); [lra|]. unfold Rdiv. rewrite Rmult_assoc, Rinv_l, Rmult_1_r by lra. lra. }
  pose proof (bpow_gt_0 radix2 (-27)) as Pb.
  rewrite Rlt_bool_true in Hd.
  2: { rewrite Rabs_right by lra. apply Rle_lt_trans with (bpow radix2 2); [change (bpow radix2 2) with 4%R; lra|apply bpow_lt; reflexivity]. }
  destruct Hd as (Vd & Fd & _). set (sc := b64_div (b64_of_Z 3) q) in *. rewrite F3 in Fd.
  destruct (mul_cases pi sc Fp Fd) as [(A1 & A2 & A3 & _)|[A1 _]].
  - split; [exact A3|]. unfold x. rewrite A2. apply Rlt_le_trans with (bpow radix2 (-27)); [exact Pb|].
    apply (rnd_between _ (bpow radix2 4)); [apply pow_format; lia|apply pow_format; lia|]. rewrite Vd. change (bpow radix2 4) with 16%R. split; nra.
  - exfalso. revert A1. apply Rlt_not_le. apply Rle_lt_trans with (bpow radix2 4); [|apply bpow_lt; reflexivity].
    apply rnd_le; [apply pow_format; lia|]. rewrite Vd. rewrite Rabs_right by nra. change (bpow radix2 4) with 16%R. nra.
Qed.

Lemma add_zero_r (x : b64) s : is_finite x = true -> (0 < B2R x)%R -> b64_add x (B754_zero s) = x.
Proof. destruct x as [t|t| |t m e p]; intros Hf Hp; cbn in Hf, Hp; try discriminate; [lra|reflexivity]. Qed.

Lemma density_finite exp log gamma pi dim mt time : go_math exp log gamma -> is_finite pi = true -> (3 <= B2R pi <= 4)%R ->
  0 <= dim <= 2 ^ 30 -> 1 <= time <= 2 ^ 48 -> new_multivt B64Num log gamma dim (b64_of_Z 0) = Ok mt ->
  is_finite (b64_div (gamma (mt_power mt)) (gamma (b64_div (b64_of_Z 3) (b64_of_Z 2)))) = true ->
  (0 < B2R (b64_div (gamma (mt_power mt)) (gamma (b64_div (b64_of_Z 3) (b64_of_Z 2)))))%R ->
  bnd 60 (self_density log pi mt time).
Proof.
  intros HM Fp Hp Hd Ht Hmt F0 P0. unfold new_multivt in Hmt. apply obind_ok in Hmt. destruct Hmt as (? & _ & Hmt).
  rewrite conf_nu_default in Hmt. cbv zeta in Hmt.
  match type of Hmt with Ok ?t = _ => assert (E : mt = t) by (apply (f_equal (fun o => match o with Ok m => m | Panic => t end)) in Hmt; symmetry; exact Hmt) end.
  clear Hmt. subst mt. cbn [mt_power nadd ndiv nof B64Num] in F0, P0.
  unfold self_density, mt_pdf. cbn [shift_loop obind mt_gamma_factor mt_nu mt_dim mt_power nadd nsub nmul ndiv nsqrt nof B64Num].
  destruct (log_finite _ _ _ HM _ F0 P0) as [Fg Bg].
  destruct (scale_fine pi time Fp Hp Ht) as [Fs Ps]. destruct (log_finite _ _ _ HM _ Fs Ps) as [Fl Bl].
  assert (H1024 : (1024 <= bpow radix2 10)%R) by (cbn; lra).
  assert (Hg : bnd 10 (log (b64_div (gamma (b64_div (b64_add (b64_of_Z dim) (b64_of_Z 3)) (b64_of_Z 2))) (gamma (b64_div (b64_of_Z 3) (b64_of_Z 2)))))) by (split; [exact Fg|lra]).
  assert (Hl : bnd 10 (log (b64_mul pi (b64_div (b64_of_Z 3) (b64_sqrt (b64_of_Z (time * 20))))))) by (split; [exact Fl|lra]).
  assert (Hdim : bnd 31 (b64_of_Z dim)) by (apply bnd_of_Z; lia).
  assert (Hhalf : forall a y, 0 <= a <= 900 -> bnd a y -> bnd a (b64_div y (b64_of_Z 2))).
  { intros a y Ha [Fy By]. destruct (div_box y a 2) as (A & _ & B); [lia|lia|exact Fy| |split; assumption].
    apply Rle_trans with (1 := By). pose proof (bpow_gt_0 radix2 a). lra. }
  assert (Hk : bnd 42 (b64_sub (log (b64_div (gamma (b64_div (b64_add (b64_of_Z dim) (b64_of_Z 3)) (b64_of_Z 2))) (gamma (b64_div (b64_of_Z 3) (b64_of_Z 2)))))
     (b64_div (b64_mul (log (b64_mul pi (b64_div (b64_of_Z 3) (b64_sqrt (b64_of_Z (time * 20)))))) (b64_of_Z dim)) (b64_of_Z 2)))).
  { change 42 with (41 + 1). apply bnd_sub; [apply (bnd_le 10); [exact Hg|lia]| |lia]. apply Hhalf; [lia|].
    change 41 with (10 + 31). apply bnd_mul; [exact Hl|exact Hdim|lia]. }
  assert (Hpow : bnd 33 (b64_sub (b64_of_Z 0) (b64_div (b64_add (b64_of_Z dim) (b64_of_Z 3)) (b64_of_Z 2)))).
  { change 33 with (32 + 1). apply bnd_sub; [apply bnd_of_Z; lia| |lia]. apply Hhalf; [lia|]. change 32 with (31 + 1).
    apply bnd_add; [exact Hdim|apply bnd_of_Z; lia|lia]. }
  assert (Hone : log (b64_add (b64_of_Z 1) (b64_div (b64_of_Z 0) (b64_div (b64_of_Z 3) (b64_sqrt (b64_of_Z (time * 20)))))) = b64_of_Z 0).
  { enough (W : b64_add (b64_of_Z 1) (b64_div (b64_of_Z 0) (b64_div (b64_of_Z 3) (b64_sqrt (b64_of_Z (time * 20))))) = b64_of_Z 1)
      by (rewrite W; apply (log_one _ _ _ HM)).
    set (sc := b64_div (b64_of_Z 3) (b64_sqrt (b64_of_Z (time * 20)))) in *.
    rewrite b64_zero. destruct sc as [s|s| |s m e p].
    - exfalso. destruct pi; cbn in Fs, Ps, Fp; try discriminate; lra.
    - exfalso. destruct pi as [?|?| |? ? ? ?]; cbn in Fs, Ps, Fp, Hp; try discriminate; lra.
    - exfalso. destruct pi as [?|?| |? ? ? ?]; cbn in Fs; discriminate.
    - change (b64_div (B754_zero false) (B754_finite s m e p)) with (B754_zero (xorb false s) : b64). apply add_zero_r.
      + apply (b64_of_Z_exact 1). lia.
      + rewrite (proj1 (b64_of_Z_exact 1 ltac:(lia))). lra. }
  rewrite Hone. apply (bnd_le 43); [|lia]. change 43 with (42 + 1). apply bnd_add; [exact Hk| |lia].
  change 42 with (33 + 9). apply bnd_mul; [exact Hpow|apply bnd_of_Z; lia|lia].
Qed.

(** The sum over [k] centers. *)
Fixpoint repeat_sum (d : b64) (k : nat) (acc : b64) : b64 := match k with O => acc | S j => repeat_sum d j (b64_add acc d) end.

Lemma proba_self log pi m (c : list (list b64)) time : Forall finite_vec c ->
  proba B64Num (multivt_distrib B64Num log pi m) c c time = Ok (repeat_sum (self_density log pi m time) (length c) (b64_of_Z 0)).
Proof.
  intros HF. unfold proba.
  assert (Hgen : forall l pre q, c = pre ++ l -> ofold (fun st v => let '(i, p) := st in let* mu := sget c i in
      let* d := dpdf (multivt_distrib B64Num log pi m) mu v time in Ok (i + 1, nadd B64Num p d)) l (Z.of_nat (length pre), q)
      = Ok (Z.of_nat (length c), repeat_sum (self_density log pi m time) (length l) q)).
  { induction l as [|v l IH]; intros pre q Hc.
    - subst c. rewrite app_nil_r. reflexivity.
    - cbn [ofold length repeat_sum].
      assert (Hg : sget c (Z.of_nat (length pre)) = Ok v).
      { unfold sget. destruct (Z.of_nat (length pre) <? 0) eqn:E; [apply Z.ltb_lt in E; lia|]. rewrite Nat2Z.id, Hc, nth_error_app2 by lia.
        rewrite Nat.sub_diag. reflexivity. }
      rewrite Hg. cbn [obind dpdf multivt_distrib]. rewrite pdf_self.
      2: { rewrite Forall_forall in HF. apply HF. rewrite Hc. apply in_or_app. right. left. reflexivity. }
      cbn [obind nadd B64Num]. replace (Z.of_nat (length pre) + 1) with (Z.of_nat (length (pre ++ [v]))) by (rewrite app_length; cbn [length]; lia).
      apply IH. rewrite <- app_assoc. exact Hc. }
  specialize (Hgen c [] (nof B64Num 0) eq_refl). cbn [length] in Hgen. change (Z.of_nat 0) with 0 in Hgen. rewrite Hgen. reflexivity.
Qed.

Lemma repeat_sum_bnd d : bnd 60 d -> forall k a acc, bnd a acc -> 60 <= a -> a + Z.of_nat k <= 1000 -> bnd (a + Z.of_nat k) (repeat_sum d k acc).
Proof.
  intros Hd. induction k as [|k IH]; intros a acc Ha H1 H2; cbn [repeat_sum]; [replace (a + Z.of_nat 0) with a by lia; exact Ha|].
  replace (a + Z.of_nat (S k)) with (a + 1 + Z.of_nat k) by lia. apply IH; [|lia|lia]. apply bnd_add; [exact Ha|apply (bnd_le 60); [exact Hd|lia]|lia].
Qed.

Lemma density_main : forall exp log gamma, go_math exp log gamma -> forall pi dim mt time,
  is_finite pi = true -> (3 <= B2R pi <= 4)%R -> 0 <= dim <= 2 ^ 30 -> 1 <= time <= 2 ^ 48 ->
  new_multivt B64Num log gamma dim (b64_of_Z 0) = Ok mt ->
  is_finite (b64_div (gamma (mt_power mt)) (gamma (b64_div (b64_of_Z 3) (b64_of_Z 2)))) = true ->
  (0 < B2R (b64_div (gamma (mt_power mt)) (gamma (b64_div (b64_of_Z 3) (b64_of_Z 2)))))%R ->
  forall k, (k <= 900)%nat -> exists p, is_finite p = true /\ forall c : list (list b64), length c = k -> Forall finite_vec c ->
    proba B64Num (multivt_distrib B64Num log pi mt) c c time = Ok p.
Proof.
  intros exp log gamma HM pi dim mt time Fp Hp Hd Ht Hmt F0 P0 k Hk.
  exists (repeat_sum (self_density log pi mt time) k (b64_of_Z 0)). split.
  - apply (repeat_sum_bnd _ (density_finite exp log gamma pi dim mt time HM Fp Hp Hd Ht Hmt F0 P0) k 60); [apply bnd_le with 1; [apply bnd_of_Z; lia|lia]|lia|lia].
  - intros c Hl Hc. rewrite <- Hl. apply proba_self. exact Hc.
Qed.
