From Coq Require Import List ZArith Bool Lia Reals Lra.
From Flocq Require Import Core Relative BinarySingleNaN.
From Verif Require Import Base.Num Model.Finish Model.Pace Spec.RealSpec Spec.FloatSpec Spec.PaceSpec
  Proofs.NumLaws Proofs.EuclidFloat Proofs.ConfProofs Proofs.FloatMean.
Import ListNotations.
Local Open Scope Z_scope.

(** Iterations after the clock passed [b] do not count. *)
Lemma begun_after p a b : forall ts last clock, turns p last clock ts -> b < clock -> begun a b ts = 0.
Proof.
  unfold begun. intros ts. induction ts as [|t ts IH]; intros last clock H Hb; [reflexivity|].
  inversion H; subst; cbn [begins flat_map app].
  - fold (begins ts). eapply IH; [eassumption|lia].
  - cbn [filter]. fold (begins ts). replace ((a <=? start) && (start <=? b)) with false by (symmetry; apply andb_false_iff; right; apply Z.leb_gt; lia).
    eapply IH; [eassumption|].
    match goal with X : (if _ then _ else _) |- _ => revert X end. unfold wake. destruct (0 <? p); lia.
  - cbn [filter]. replace ((a <=? start) && (start <=? b)) with false by (symmetry; apply andb_false_iff; right; apply Z.leb_gt; lia). reflexivity.
Qed.

Lemma begun_cons a b t ts : begun a b (t :: ts) =
  match t with PReceived _ => 0 | PIterated s _ _ | PFailed s => if (a <=? s) && (s <=? b) then 1 else 0 end + begun a b ts.
Proof.
  unfold begun. cbn [begins flat_map]. fold (begins ts). destruct t; cbn [app filter]; try lia; destruct ((a <=? start) && (start <=? b)); cbn [length]; lia.
Qed.

(** [last] is at most [clock]; a run whose last sleep ended at [last] >= a begins at most 1 + (b - last) / p iterations up to b. *)
Lemma begun_from p a b : 0 < p -> forall ts last clock, turns p last clock ts -> last <= clock -> last <= b ->
  (begun a b ts - 1) * p <= b - last.
Proof.
  intros Hp. induction ts as [|t ts IH]; intros last clock H Hl Hb; [change (begun a b []) with 0; nia|].
  rewrite begun_cons. inversion H; subst.
  - rewrite Z.add_0_l. eapply IH; [eassumption|lia|lia].
  - replace (0 <? p) with true in * by (symmetry; apply Z.ltb_lt; lia).
    assert (Hw : last + p <= stop /\ now <= stop) by (match goal with X : wake _ _ _ <= _ |- _ => unfold wake in X end; lia).
    destruct (Z.le_gt_cases stop b) as [Hs|Hs].
    + specialize (IH stop stop ltac:(assumption) ltac:(lia) Hs). destruct ((a <=? start) && (start <=? b)); nia.
    + rewrite (begun_after p a b ts stop stop ltac:(assumption) Hs). destruct ((a <=? start) && (start <=? b)); nia.
  - change (begun a b []) with 0. destruct ((a <=? start) && (start <=? b)); nia.
Qed.

Lemma begun_window p a b : 0 < p -> a <= b -> forall ts last clock, turns p last clock ts -> last <= clock ->
  (begun a b ts - 2) * p <= b - a.
Proof.
  intros Hp Hab. induction ts as [|t ts IH]; intros last clock H Hl; [change (begun a b []) with 0; nia|].
  destruct (Z.le_gt_cases a last) as [Ha|Ha].
  - destruct (Z.le_gt_cases last b) as [Hb|Hb].
    + pose proof (begun_from p a b Hp _ _ _ H Hl Hb). nia.
    + rewrite (begun_after p a b _ _ _ H); lia.
  - rewrite begun_cons. inversion H; subst.
    + rewrite Z.add_0_l. eapply IH; [eassumption|lia].
    + replace (0 <? p) with true in * by (symmetry; apply Z.ltb_lt; lia).
      assert (Hw : last + p <= stop /\ now <= stop) by (match goal with X : wake _ _ _ <= _ |- _ => unfold wake in X end; lia).
      destruct ((a <=? start) && (start <=? b)) eqn:W.
      * apply andb_true_iff in W. destruct W as [W1 W2]. apply Z.leb_le in W1. apply Z.leb_le in W2.
        destruct (Z.le_gt_cases stop b) as [Hs|Hs].
        -- pose proof (begun_from p a b Hp ts stop stop ltac:(assumption) ltac:(lia) Hs). nia.
        -- rewrite (begun_after p a b ts stop stop ltac:(assumption) Hs). nia.
      * rewrite Z.add_0_l. eapply IH; [eassumption|lia].
    + change (begun a b []) with 0. destruct ((a <=? start) && (start <=? b)); nia.
Qed.

(** Without pause or delay there is one iteration less. *)
Lemma begun_prompt p a b : 0 < p -> a <= b -> forall ts last, turns p last last ts -> prompt last ts -> (begun a b ts - 1) * p <= b - a.
Proof.
  intros Hp Hab. induction ts as [|t ts IH]; intros last H Hpr; [change (begun a b []) with 0; nia|].
  destruct (Z.le_gt_cases a last) as [Ha|Ha].
  - destruct (Z.le_gt_cases last b) as [Hb|Hb].
    + pose proof (begun_from p a b Hp _ _ _ H ltac:(lia) Hb). lia.
    + rewrite (begun_after p a b _ _ _ H); lia.
  - rewrite begun_cons. destruct t as [t|s n e|s]; cbn [prompt] in Hpr; [contradiction|destruct Hpr as [-> Hpr]|destruct Hpr as [-> Hpr]].
    + replace ((a <=? last) && (last <=? b)) with false by (symmetry; apply andb_false_iff; left; apply Z.leb_gt; lia).
      inversion H; subst. replace (0 <? p) with true in * by (symmetry; apply Z.ltb_lt; lia). rewrite Z.add_0_l. eapply IH; eassumption.
    + replace ((a <=? last) && (last <=? b)) with false by (symmetry; apply andb_false_iff; left; apply Z.leb_gt; lia).
      inversion H; subst. change (begun a b []) with 0; nia.
Qed.

#[local] Existing Instance prec64_gt_0.
#[local] Existing Instance prec64_lt_emax.
#[local] Existing Instance exp64.
#[local] Existing Instance rnd64.
Local Open Scope R_scope.

(** The period is 1e9 / IterFreq nanoseconds, less a nanosecond and a rounding. *)
Lemma period_main (f : b64) : is_finite f = true -> 0 < B2R f -> 1000000000 / B2R f <= bpow radix2 63 ->
  (1000000000 / B2R f) * (1 - bpow radix2 (-53)) - 2 < IZR (period f) <= (1000000000 / B2R f) * (1 + bpow radix2 (-53)) + 1.
Proof.
  intros Hf Hp Hx. unfold period.
  assert (Hlt : b64_ltb (b64_of_Z 0) f = true).
  { unfold b64_ltb. rewrite Bltb_correct; [|reflexivity|exact Hf]. apply Rlt_bool_true. change (B2R (b64_of_Z 0)) with 0. exact Hp. }
  rewrite Hlt. set (x := 1000000000 / B2R f) in *.
  assert (Hx0 : 0 < x) by (unfold x; apply Rdiv_lt_0_compat; lra).
  destruct (b64_of_Z_exact 1000000000 ltac:(lia)) as [Hn1 Hn2].
  pose proof (Bdiv_correct prec64 emax64 _ _ mode_NE (b64_of_Z 1000000000) f) as H. fold (b64_div (b64_of_Z 1000000000) f) in H. rewrite Hn1 in H.
  specialize (H ltac:(lra)). fold x in H.
  assert (Hb : Rabs (rnd x) <= bpow radix2 63).
  { apply rnd_le; [apply pow_format; lia|]. rewrite Rabs_right by lra. exact Hx. }
  rewrite Rlt_bool_true in H by (apply (Rle_lt_trans _ _ _ Hb); apply bpow_lt; unfold emax64; lia).
  destruct H as (H1 & H2 & _).
  assert (E : IZR (int_of_b64 (b64_div (b64_of_Z 1000000000) f)) = IZR (Ztrunc (rnd x))).
  { unfold int_of_b64. rewrite <- H1. pose proof (Btrunc_correct prec64 emax64 _ (b64_div (b64_of_Z 1000000000) f)) as T.
    rewrite T. rewrite round_FIX_IZR. reflexivity. }
  rewrite E. pose proof (rnd_err x) as Er. rewrite (Rabs_right x) in Er by lra. apply Rabs_le_inv in Er.
  assert (Hr0 : 0 <= rnd x). { apply round_ge_generic; auto with typeclass_instances; [apply generic_format_0|lra]. }
  rewrite (Ztrunc_floor _ Hr0). pose proof (Zfloor_lb (rnd x)). pose proof (Zfloor_ub (rnd x)).
  assert (bpow radix2 (-1075) < 1) by (change 1 with (bpow radix2 0); apply bpow_lt; lia). split; nra.
Qed.
Local Open Scope Z_scope.

Lemma rate_main : forall p start clock ts a b, 0 < p -> start <= clock -> a <= b -> turns p start clock ts ->
  (begun a b ts - 2) * p <= b - a.
Proof. intros p start clock ts a b Hp Hs Hab H. exact (begun_window p a b Hp Hab ts start clock H Hs). Qed.

Lemma prompt_main : forall p start ts a b, 0 < p -> a <= b -> turns p start start ts -> prompt start ts ->
  (begun a b ts - 1) * p <= b - a.
Proof. intros p start ts a b Hp Hab H Hq. exact (begun_prompt p a b Hp Hab ts start H Hq). Qed.

(** An iteration, five seconds of pause, two iterations of half a millisecond. *)
Definition resumed : list pturn :=
  [PIterated 0 500000 1000000000; PReceived 6000000000; PIterated 6000000000 6000500000 6000500000; PIterated 6000500000 6001000000 7000500000].
Lemma resumed_ex : period (b64_of_Z 1) = 1000000000 /\ turns 1000000000 0 0 resumed /\ begun 6000000000 6001000000 resumed = 2.
Proof. split; [vm_compute; reflexivity|]. split; [|reflexivity]. repeat (constructor; cbn; try (unfold wake; lia)). Qed.

Lemma period_three : period (b64_of_Z 3) = 333333333 /\ period (b64_of_Z 0) = 0 /\ period (b64_of_Z 2000000000) = 0 /\
  is_finite (b64_of_Z 3) = true /\ (0 < B2R (b64_of_Z 3))%R /\ (1000000000 / B2R (b64_of_Z 3) <= bpow radix2 63)%R.
Proof.
  split; [vm_compute; reflexivity|]. split; [vm_compute; reflexivity|]. split; [vm_compute; reflexivity|]. split; [reflexivity|].
  destruct (b64_of_Z_exact 3 ltac:(lia)) as [-> _]. split; [lra|]. change (bpow radix2 63) with (IZR (2 ^ 63)). cbn [Z.pow Z.pow_pos Pos.iter Z.mul Pos.mul]. lra.
Qed.
