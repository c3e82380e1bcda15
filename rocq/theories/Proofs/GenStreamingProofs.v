(** Streaming algorithms that share a generator (C123). *)
From Coq Require Import List ZArith Lia Bool.
From Flocq Require Import IEEE754.BinarySingleNaN.
From Verif Require Import Base.Go Base.Num Model.Clustering Model.Euclid Model.KmeansInit Model.Streaming Model.Generators Model.GenStreaming
  Spec.GeneratorsSpec Spec.NearestSpec Proofs.NumLaws Proofs.GeneratorsProofs Proofs.GeneratorsWitness.
Import ListNotations.

Lemma uses_gstreaming {E F S} (N : Num F) (Sp : Space E F) (gen : generator F F S) bs oa ratio pt s :
  only_uses (held pt) (gi_init (gstreaming N Sp gen bs oa ratio) pt s) /\
  forall c, only_uses (held pt) (gi_iterate (gstreaming N Sp gen bs oa ratio) pt s c).
Proof.
  split; cbn.
  - destruct (streaming_init N s) as [s' c]. apply uses_ret.
  - intros c. unfold gstreaming_iterate. apply uses_bind; [apply uses_lift|intros b].
    apply uses_bind; [destruct b; [apply uses_draw; cbn; tauto|apply uses_ret]|intros t].
    apply uses_bind; [apply uses_lift|intros r; apply uses_ret].
Qed.

Lemma streaming_apart_main : forall (E F S : Type) (N : Num F) (Sp : Space E F) (gen : generator F F S) buffer_size out_after out_ratio,
  let im := gstreaming N Sp gen buffer_size out_after out_ratio in forall i a l m os l1 m1,
  nth_error l i = Some a -> apart i (ga_pt a) l os -> gsteps im (l, m) os = Some (l1, m1) ->
  exists l2 m2, gsteps im (l, m) (own_calls i os) = Some (l2, m2) /\ nth_error l1 i = nth_error l2 i /\
    forall p, In p (held (ga_pt a)) -> m1 p = m2 p.
Proof. intros. eapply apart_main; try eassumption. intros pt b. apply uses_gstreaming. Qed.

(** An iteration is one of Model/Streaming.v: its threshold is the next of the generator of the implementation,
    or the result depends on no threshold and nothing is drawn. Nothing is
    drawn for an outlier. *)
Lemma gstreaming_draws_main : forall (E F S : Type) (N : Num F) (Sp : Space E F) (gen : generator F F S) buffer_size out_after out_ratio pt s c
    (mem mem' : gmem S) s' c',
  gi_iterate (gstreaming N Sp gen buffer_size out_after out_ratio) pt s c mem = Ok (s', c', mem') ->
  exists r, c' = match r with Some x => x | None => c end /\
    ((forall t, streaming_iterate N Sp out_after out_ratio s t = Ok (s', r)) /\ mem' = mem \/
     streaming_iterate N Sp out_after out_ratio s (fst (g_law gen (mem (pt_impl pt)))) = Ok (s', r) /\
     mem' = gset mem (pt_impl pt) (snd (g_law gen (mem (pt_impl pt)))) /\
     exists x q y label d, s_queue s = x :: q /\ assign N Sp (s_clust s) x = Ok (y, label, d) /\
       (s_count s < out_after \/ nltb N out_ratio (ndiv N d (if neqb N (s_max s) (nof N 0) then d else s_max s)) = false)%Z).
Proof.
  intros until c'. cbn [gstreaming gi_iterate]. unfold gstreaming_iterate, gbind, glift, gret, glaw.
  destruct (s_queue s) as [|x q] eqn:Eq.
  - cbn [obind]. unfold streaming_iterate. rewrite Eq. cbn [obind fst snd]. intros H. injection H as <- <- <-. exists None. split; [reflexivity|left; auto].
  - destruct (draws_threshold N Sp out_after out_ratio s x) as [[|]|] eqn:Ed; cbn [obind]; [| |discriminate].
    + destruct (g_law gen (mem (pt_impl pt))) as [t st] eqn:Et. cbn [fst snd].
      destruct (streaming_iterate N Sp out_after out_ratio s t) as [[s1 r]|] eqn:Es; cbn [obind fst snd]; [|discriminate].
      intros H. injection H as <- <- <-. exists r. split; [reflexivity|right]. split; [reflexivity|split; [reflexivity|]].
      clear Es. unfold draws_threshold in Ed. destruct (assign N Sp (s_clust s) x) as [[[y l] d]|] eqn:Ea; cbn [obind] in Ed; [|discriminate].
      exists x, q, y, l, d. split; [reflexivity|split; [exact Ea|]]. unfold relative_distance in Ed.
      injection Ed as Ed. apply negb_true_iff, andb_false_iff in Ed. destruct Ed as [Ed|Ed]; [left; apply Z.leb_gt; exact Ed|right; exact Ed].
    + destruct (streaming_iterate N Sp out_after out_ratio s (nof N 0)) as [[s1 r]|] eqn:Es; cbn [obind fst snd]; [|discriminate].
      intros H. injection H as <- <- <-. exists r. split; [reflexivity|left]. split; [|reflexivity]. intros t. rewrite <- Es. clear Es.
      unfold streaming_iterate. rewrite Eq. f_equal. unfold process, draws_threshold in *. cbn [s_max s_clust s_cards s_queue s_count].
      destruct (assign N Sp (s_clust s) x) as [[[y l] d]|]; cbn [obind] in *; [|reflexivity].
      destruct (relative_distance N (s_max s) d) as [mx rel]. cbn [s_max s_clust s_cards s_queue s_count].
      injection Ed as Ed. apply negb_false_iff in Ed. rewrite Ed. reflexivity.
Qed.

(** A generator that returns thresholds, in tenths. *)
Definition law_gen : generator b64 b64 (list Z) := mkGenerator
  (fun s => (tenths (hd 0%Z s), tl s)) (fun n s => (Z.modulo (hd 0%Z s) n, tl s)) (fun s => (tenths (hd 0%Z s), tl s)).

Definition shown_after (o : option (list (option (list b64)))) : option (list (option (list SpecFloat.spec_float))) :=
  option_map (map (option_map (map show64))) o.

Lemma shown_after_inj o c : shown_after o = shown_after (Some (map Some c)) -> o = Some (map Some c).
Proof.
  destruct o as [l|]; [|discriminate]. cbn [shown_after option_map]. intros H.
  apply (f_equal (fun o => match o with Some v => v | None => [] end)) in H. cbv beta iota in H. f_equal.
  revert c H. induction l as [|[x|] l IH]; intros [|y c] H; try (cbn in H; discriminate H).
  - reflexivity.
  - cbn [map option_map] in H. injection H as H1 H2. cbn [map]. f_equal; [|apply IH; exact H2].
    f_equal. clear -H1. revert y H1. induction x as [|u x IH]; intros [|v y] H; try discriminate H; [reflexivity|].
    cbn [map] in H. injection H as H1 H2. f_equal; [apply B2SF_inj; exact H1|auto].
Qed.

Lemma shared_streaming_main : exists (gen : generator b64 b64 (list Z)) m,
  let im := gstreaming B64Num (euclid_space B64Num) gen 100 10 (b64_of_Z 2) in
  let l := [mkGalgo (mkPointers 0 0 0) (new_streaming B64Num [v64 [0]; v64 [10]]%Z) [] false] in
  centroids_after im (l, m) [GInit 0; GIterate 0] 0 = Some [Some (v64 [0]%Z); Some (v64 [10]%Z)] /\
  centroids_after im (l, m) [GInit 0; GCopy 0 1; GInit 1; GPush 1 (v64 [4]%Z); GIterate 1; GIterate 0] 0 = Some [Some (v64 [5]%Z)] /\
  centroids_after im (l, m) [GInit 0; GCopy 0 1; GInit 1; GPush 1 (v64 [4]%Z); GIterate 1; GIterate 0] 1 = Some [Some (v64 [0]%Z); Some (v64 [4]%Z)].
Proof.
  exists law_gen, (fun p => match p with O => [5; 15]%Z | _ => [5]%Z end). cbv zeta. split; [|split].
  - apply (shown_after_inj _ [v64 [0]; v64 [10]]%Z). vm_compute. reflexivity.
  - apply (shown_after_inj _ [v64 [5]]%Z). vm_compute. reflexivity.
  - apply (shown_after_inj _ [v64 [0]; v64 [4]]%Z). vm_compute. reflexivity.
Qed.
