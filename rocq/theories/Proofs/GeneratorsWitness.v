(** Algorithms that share a generator change the results of each other (C123). *)
From Coq Require Import List ZArith Lia Bool FunctionalExtensionality.
From Flocq Require Import IEEE754.BinarySingleNaN.
From Verif Require Import Base.Go Base.Num Model.Clustering Model.Par Model.Buffer Model.Euclid Model.Kmeans Model.KmeansInit Model.Mcmc
  Model.Generators Spec.GeneratorsSpec Spec.NearestSpec Proofs.NumLaws Proofs.GeneratorsProofs.
Import ListNotations.

(** ** k-means: the initialization of the copy changes that of the algorithm. *)
Lemma shared_init_main : forall (E F : Type) (N : Num F) (Sp : Space E F) par cpus of_tenths (x y : E), x <> y ->
  exists b m, new_data_buffer [x; y] 0 = Ok b /\
    let im := gkmeans N Sp (gpp_initializer N Sp (list_gen of_tenths) cpus) 1 0 par in
    let l := [mkGalgo (mkPointers 0 0 0) b [] false] in
    centroids_after im (l, m) [GCopy 0 0; GInit 0] 0 = Some [Some x] /\
    centroids_after im (l, m) [GCopy 0 0; GInit 1; GInit 0] 0 = Some [Some y].
Proof.
  intros E F N Sp par cpus oft x y Hxy. exists (mkBuffer [] [x; y] InfiniteSize), (fun _ => [0; 1]%Z).
  split; [reflexivity|]. split; reflexivity.
Qed.

(** ** MCMC *)
Lemma gmcmc_pow {E F G S} (N : Num F) (Sp : Space E F) (gen : generator F G S) initializer frame pow log exp cpus D conf g0 :
  gmcmc N Sp gen initializer frame pow log exp cpus D conf g0 =
  gmcmc N Sp gen initializer frame (fun x _ => pow x (mp_norm conf)) (fun _ => log (nmul N (nof N 2) (mp_b conf))) exp cpus D conf g0.
Proof. reflexivity. Qed.

Definition is_ok {A} (o : outcome A) : bool := match o with Ok _ => true | Panic => false end.
Definition got {A} (d : A) (o : outcome A) : A := match o with Ok x => x | Panic => d end.
Lemma got_ok {A} (d : A) o : is_ok o = true -> o = Ok (got d o).
Proof. destruct o; [reflexivity|discriminate]. Qed.

Notation e64 := (euclid_space B64Num).
Definition z64 : b64 := b64_of_Z 0.
Definition tenths (z : Z) : b64 := b64_div (b64_of_Z z) (b64_of_Z 10).
Definition half64 : b64 := b64_div (b64_of_Z 1) (b64_of_Z 2).
Definition w_conf : mparams b64 := mkMparams false 1 half64 (b64_of_Z 1) (b64_of_Z 2) 2 [z64; z64; b64_of_Z 1] 0.
Definition w_data : list (list b64) := [v64 [0]; v64 [10]; v64 [20]]%Z.
Definition w_im (exp : b64 -> b64) : gimplem (list b64) (mimpl (list b64) b64) (list Z) :=
  gmcmc B64Num e64 (list_gen tenths) (ggiven_initializer e64) 0 (fun x _ => b64_mul x x) (fun _ => z64) exp 2 (dirac B64Num) w_conf tt.
Definition w_m0 : mimpl (list b64) b64 := mkMimpl (mkBuffer [] w_data InfiniteSize) [] 0 z64 z64 z64 0 0 (mkProposal 0 [] z64 z64).
(** The generator of the algorithm, and that given to the copy. *)
Definition w_mem : gmem (list Z) := fun p => match p with O => [5; 3; 5; 5; 9; 5]%Z | _ => [5]%Z end.

Definition w_init (pt : pointers) (m : mimpl (list b64) b64) (mem : gmem (list Z)) := gi_init (w_im (fun x => x)) pt m mem.
Definition w_draws (pt : pointers) m c mem := gmcmc_draws B64Num e64 (list_gen tenths) 2 w_conf tt pt m c mem.
Definition w_propose (m : mimpl (list b64) b64) c dr :=
  propose B64Num e64 (fun x _ => b64_mul x x) 2 (dirac B64Num) w_conf m (mi_current m) c (bdata (mi_buffer m)) (slen (bdata (mi_buffer m))) dr.

(** An iteration whose proposal does not panic. *)
Lemma w_iterate exp pt m c mem dr mem' p :
  w_draws pt m c mem = Ok (dr, mem') -> w_propose m c dr = Ok p -> buffer_apply (mi_buffer m) = Ok (mi_buffer m) ->
  exists m', gi_iterate (w_im exp) pt m c mem =
    Ok (m', if accept B64Num (fun _ => z64) exp w_conf (mi_dim m) (mi_current m) p (slen (bdata (mi_buffer m))) (d_u dr) then pr_centers p else c, mem').
Proof.
  intros Hd Hp Hb. cbn [w_im gmcmc gi_iterate]. unfold gbind at 1. unfold w_draws in Hd. rewrite Hd. unfold gbind, glift, gret.
  unfold mcmc_iterate, do_iter. unfold w_propose in Hp. rewrite Hp. cbn [obind].
  destruct (accept_figures B64Num (fun _ => z64) exp w_conf (mi_dim m) (mi_current m) p (slen (bdata (mi_buffer m)))) as [[la rh] rg].
  destruct (accept B64Num (fun _ => z64) exp w_conf (mi_dim m) (mi_current m) p (slen (bdata (mi_buffer m))) (d_u dr));
    cbn [mi_buffer obind]; rewrite Hb; cbn [obind fst]; eexists; reflexivity.
Qed.

Definition w_c0 : list (list b64) := [v64 [0]%Z].
Definition w_loss : outcome b64 := strategy_loss B64Num e64 (fun x _ => b64_mul x x) w_conf w_c0 w_data.
Definition w_pdf : outcome b64 := proba B64Num (dirac B64Num) w_c0 w_c0 3.
Definition w_m1 : mimpl (list b64) b64 :=
  mkMimpl (mkBuffer [] w_data InfiniteSize) [] 0 z64 z64 z64 3 1 (mkProposal 1 w_c0 (got z64 w_loss) (got z64 w_pdf)).

Lemma w_init_ok exp pt : gi_init (w_im exp) pt w_m0 w_mem = Ok (w_m1, [Some (v64 [0]%Z)], None, w_mem).
Proof.
  assert (Hl : w_loss = Ok (got z64 w_loss)) by (apply got_ok; vm_compute; reflexivity).
  assert (Hp : w_pdf = Ok (got z64 w_pdf)) by (apply got_ok; vm_compute; reflexivity).
  transitivity (let* loss := w_loss in let* pdf := w_pdf in
    Ok (mkMimpl (mkBuffer [] w_data InfiniteSize) [] 0 z64 z64 z64 3 1 (mkProposal 1 w_c0 loss pdf), [Some (v64 [0]%Z)], @None init_error, w_mem)).
  - cbn [w_im gmcmc gi_init]. unfold gbind, ggiven_initializer, glift. unfold w_m0. cbn [mi_buffer].
    change (buffer_apply (mkBuffer [] w_data InfiniteSize)) with (Ok (mkBuffer [] w_data InfiniteSize)). cbn [obind bdata].
    change (given_initializer e64 (mp_init_k w_conf) w_data) with (Ok ([Some (v64 [0]%Z)], @None init_error)). cbn [obind].
    unfold mcmc_init. cbn [mi_buffer].
    change (buffer_apply (mkBuffer [] w_data InfiniteSize)) with (Ok (mkBuffer [] w_data InfiniteSize)). cbn [obind bdata somes].
    change (strategy_loss B64Num e64 (fun x _ : b64 => b64_mul x x) w_conf [v64 [0]%Z] w_data) with w_loss.
    change (proba B64Num (dirac B64Num) [v64 [0]%Z] [v64 [0]%Z] (slen w_data)) with w_pdf.
    destruct w_loss as [lo|]; [|reflexivity]. cbn [obind]. destruct w_pdf as [pd|]; [|reflexivity]. reflexivity.
  - rewrite Hl, Hp. reflexivity.
Qed.

Definition w_pt0 := mkPointers 0 0 0.
Definition w_pt1 := mkPointers 1 0 0.
Definition no_draws : draws b64 unit := mkDraws z64 z64 0 z64 0 (fun _ => tt) z64.
Definition no_prop : proposal (list b64) b64 := mkProposal 0 [] z64 z64.

(** The iteration of the algorithm alone, that of the copy, and that of the algorithm after it. *)
Definition w_da := got (no_draws, w_mem) (w_draws w_pt0 w_m1 w_c0 w_mem).
Definition w_db := got (no_draws, w_mem) (w_draws w_pt1 w_m1 w_c0 w_mem).
Definition w_dc := got (no_draws, w_mem) (w_draws w_pt0 w_m1 w_c0 (snd w_db)).
Definition w_p (d : draws b64 unit * gmem (list Z)) := got no_prop (w_propose w_m1 w_c0 (fst d)).

Lemma w_facts :
  (w_draws w_pt0 w_m1 w_c0 w_mem = Ok (fst w_da, snd w_da) /\ w_propose w_m1 w_c0 (fst w_da) = Ok (w_p w_da)) /\
  (w_draws w_pt1 w_m1 w_c0 w_mem = Ok (fst w_db, snd w_db) /\ w_propose w_m1 w_c0 (fst w_db) = Ok (w_p w_db)) /\
  (w_draws w_pt0 w_m1 w_c0 (snd w_db) = Ok (fst w_dc, snd w_dc) /\ w_propose w_m1 w_c0 (fst w_dc) = Ok (w_p w_dc)).
Proof.
  rewrite <- !surjective_pairing. repeat split; apply got_ok; vm_compute; reflexivity.
Qed.

Lemma w_shown : map (map show64) (pr_centers (w_p w_da)) = [map show64 (v64 [0]%Z); map show64 (v64 [15]%Z)] /\
  map (map show64) (pr_centers (w_p w_dc)) = [map show64 (v64 [5]%Z); map show64 (v64 [20]%Z)].
Proof. split; vm_compute; reflexivity. Qed.

Definition w_arg (p : proposal (list b64) b64) : b64 :=
  let current := mi_current w_m1 in
  let rprop := b64_sub (pr_pdf current) (pr_pdf p) in
  let rinit := b64_mul z64 (b64_of_Z (1 * (pr_k current - pr_k p))) in
  let lambda := b64_mul (b64_of_Z 1) (b64_sqrt (b64_div (b64_of_Z (1 + 3)) (b64_of_Z 3))) in
  b64_add (b64_add (b64_mul lambda (b64_sub (pr_loss current) (pr_loss p))) rinit) rprop.

Lemma ltb_not_nan (x y : b64) : nltb B64Num x y = true -> not_nan64 x /\ not_nan64 y.
Proof. intros H. destruct x, y; try discriminate H; split; reflexivity. Qed.

Lemma ltb_trans64 (x y z : b64) : nltb B64Num x y = true -> nltb B64Num y z = true -> nltb B64Num x z = true.
Proof.
  intros H1 H2. destruct (ltb_not_nan _ _ H1) as [Gx Gy], (ltb_not_nan _ _ H2) as [_ Gz].
  rewrite (ltb_nleb _ _ B64NumOrd) in * by assumption. apply negb_true_iff in H1, H2. apply negb_true_iff.
  destruct (nleb B64Num z x) eqn:Hzx; [|reflexivity].
  destruct (leb_total _ _ B64NumOrd x y Gx Gy) as [H|H]; [|congruence].
  rewrite (leb_trans _ _ B64NumOrd z x y Gz Gx Gy Hzx H) in H2. discriminate.
Qed.

Lemma w_accept exp d : (forall x, nltb B64Num (b64_of_Z 0) x = true -> nltb B64Num (b64_of_Z 1) (exp x) = true) ->
  nltb B64Num (b64_of_Z 0) (w_arg (w_p d)) = true -> nltb B64Num (d_u (fst d)) (b64_of_Z 1) = true ->
  accept B64Num (fun _ => z64) exp w_conf (mi_dim w_m1) (mi_current w_m1) (w_p d) (slen (bdata (mi_buffer w_m1))) (d_u (fst d)) = true.
Proof.
  intros He Ha Hu. specialize (He _ Ha).
  change (nltb B64Num (d_u (fst d)) (exp (w_arg (w_p d))) = true). exact (ltb_trans64 _ _ _ Hu He).
Qed.

Lemma w_main exp : (forall x, nltb B64Num (b64_of_Z 0) x = true -> nltb B64Num (b64_of_Z 1) (exp x) = true) ->
  centroids_after (w_im exp) ([mkGalgo w_pt0 w_m0 [] false], w_mem) [GInit 0; GIterate 0] 0 = Some (map Some (pr_centers (w_p w_da))) /\
  centroids_after (w_im exp) ([mkGalgo w_pt0 w_m0 [] false], w_mem) [GInit 0; GCopy 0 1; GInit 1; GIterate 1; GIterate 0] 0
    = Some (map Some (pr_centers (w_p w_dc))).
Proof.
  intros He. destruct w_facts as ((A1 & A2) & (B1 & B2) & (C1 & C2)).
  assert (Hb : buffer_apply (mi_buffer w_m1) = Ok (mi_buffer w_m1)) by reflexivity.
  destruct (w_iterate exp w_pt0 w_m1 w_c0 w_mem _ _ _ A1 A2 Hb) as [ma Ia].
  destruct (w_iterate exp w_pt1 w_m1 w_c0 w_mem _ _ _ B1 B2 Hb) as [mb Ib].
  destruct (w_iterate exp w_pt0 w_m1 w_c0 (snd w_db) _ _ _ C1 C2 Hb) as [mc Ic].
  rewrite w_accept in Ia by (try exact He; vm_compute; reflexivity).
  rewrite w_accept in Ic by (try exact He; vm_compute; reflexivity).
  pose proof (w_init_ok exp) as Hi.
  assert (Hcopy : gi_copy (w_im exp) w_m1 = Ok w_m0) by reflexivity.
  set (im := w_im exp) in *.
  split; unfold centroids_after; cbn [gsteps gstep nth_error ga_pt ga_impl]; rewrite Hi;
    cbn [gsteps gstep nth_error gupdate ga_pt ga_impl ga_ready ga_centroids app].
  - cbn [somes obind]. fold w_c0. rewrite Ia. cbn [gsteps nth_error gupdate ga_centroids]. reflexivity.
  - rewrite Hcopy. cbn [gsteps gstep nth_error gupdate ga_pt ga_impl ga_ready ga_centroids app]. rewrite Hi.
    cbn [gsteps gstep nth_error gupdate ga_pt ga_impl ga_ready ga_centroids app somes obind]. fold w_c0.
    change (mkPointers 1 (pt_conf w_pt0) (pt_law w_pt0)) with w_pt1. rewrite Ib.
    cbn [gsteps gstep nth_error gupdate ga_pt ga_impl ga_ready ga_centroids app somes obind]. fold w_c0. rewrite Ic. cbn [gsteps nth_error gupdate ga_centroids app]. reflexivity.
Qed.

Lemma show_map_inj (a b : list (list b64)) : map (map show64) a = map (map show64) b -> a = b.
Proof.
  revert b. induction a as [|x a IH]; intros [|y b] H; try discriminate; [reflexivity|]. cbn in H. injection H as H1 H2. f_equal; [|auto].
  clear -H1. revert y H1. induction x as [|u x IH]; intros [|v y] H; try discriminate; [reflexivity|]. cbn in H. injection H as H1 H2. f_equal; [|auto].
  apply B2SF_inj. exact H1.
Qed.

Lemma shared_own_main : forall pow log exp : _,
  (forall x, pow x (b64_of_Z 2) = b64_mul x x) -> log (b64_of_Z 1) = b64_of_Z 0 ->
  (forall x, nltb B64Num (b64_of_Z 0) x = true -> nltb B64Num (b64_of_Z 1) (exp x) = true) ->
  exists conf m0 m, new_mcmc B64Num [v64 [0]; v64 [10]; v64 [20]]%Z 0 = Ok m0 /\
    let im := gmcmc B64Num (euclid_space B64Num) (list_gen (fun z => b64_div (b64_of_Z z) (b64_of_Z 10))) (ggiven_initializer (euclid_space B64Num)) 0
                pow log exp 2 (dirac B64Num) conf tt in
    let l := [mkGalgo (mkPointers 0 0 0) m0 [] false] in
    centroids_after im (l, m) [GInit 0; GIterate 0] 0 = Some [Some (v64 [0]%Z); Some (v64 [15]%Z)] /\
    centroids_after im (l, m) [GInit 0; GCopy 0 1; GInit 1; GIterate 1; GIterate 0] 0 = Some [Some (v64 [5]%Z); Some (v64 [20]%Z)].
Proof.
  intros pow log exp Hpow Hlog Hexp. exists w_conf, w_m0, w_mem. split; [reflexivity|]. cbv zeta.
  rewrite gmcmc_pow.
  replace (fun x _ : b64 => pow x (mp_norm w_conf)) with (fun x _ : b64 => b64_mul x x)
    by (extensionality x; extensionality y; symmetry; apply Hpow).
  assert (Hone : nmul B64Num (nof B64Num 2) (mp_b w_conf) = b64_of_Z 1) by (apply B2SF_inj; vm_compute; reflexivity).
  rewrite Hone, Hlog. destruct (w_main exp Hexp) as [H1 H2]. destruct w_shown as [S1 S2].
  rewrite (show_map_inj _ [v64 [0]; v64 [15]]%Z S1) in H1. rewrite (show_map_inj _ [v64 [5]; v64 [20]]%Z S2) in H2.
  split; [exact H1|exact H2].
Qed.
