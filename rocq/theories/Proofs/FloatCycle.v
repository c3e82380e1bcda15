(** k-means in binary64 may oscillate for ever (C119); whatever the arithmetic, the centroids of
    successive iterations on the same data end by repeating. *)
From Coq Require Import List ZArith Lia Bool Classical.
From Flocq Require Import IEEE754.BinarySingleNaN.
From Verif Require Import Base.Go Base.Num Model.Clustering Model.Par Model.Euclid Model.Kmeans
  Spec.ClusterSpec Spec.KmeansSpec Spec.NearestSpec
  Proofs.GoLemmas Proofs.NumLaws Proofs.NearestProofs Proofs.ReduceProofs Proofs.ParReduceProofs Proofs.ReduceMain Proofs.KmeansProofs Proofs.Represent
  Proofs.Converge Proofs.FloatKmeans.
Import ListNotations.
Local Open Scope nat_scope.

(** ** The averages that the code may compute of a list *)
Fixpoint trees {E F} (Sp : Space E F) (fuel : nat) (xs : list E) : list E :=
  match fuel with
  | O => []
  | S f =>
    match xs with [x] => [x; scopy Sp x] | _ => [] end ++
    flat_map (fun i => flat_map (fun a => map (fun b =>
      scombine Sp a (Z.of_nat (length (firstn i xs))) b (Z.of_nat (length (skipn i xs)))) (trees Sp f (skipn i xs)))
      (trees Sp f (firstn i xs))) (seq 1 (length xs - 1))
  end.

Lemma trees_mono {E F} (Sp : Space E F) : forall f g xs a, f <= g -> In a (trees Sp f xs) -> In a (trees Sp g xs).
Proof.
  induction f as [|f IH]; intros g xs a Hle H; [destruct H|]. destruct g as [|g]; [lia|]. cbn [trees] in *.
  apply in_app_or in H. apply in_or_app. destruct H as [H|H]; [left; exact H|right].
  apply in_flat_map in H. destruct H as (i & Hi & H). apply in_flat_map in H. destruct H as (b & Hb & H).
  apply in_map_iff in H. destruct H as (d & <- & Hd). apply in_flat_map. exists i. split; [exact Hi|].
  apply in_flat_map. exists b. split; [apply IH; [lia|exact Hb]|]. apply in_map_iff. exists d. split; [reflexivity|]. apply IH; [lia|exact Hd].
Qed.

Lemma trees_averages {E F} (Sp : Space E F) M : averages Sp M (fun _ => True) (fun a xs => In a (trees Sp (length xs) xs)).
Proof.
  split.
  - intros x _. right. left. reflexivity.
  - intros x _. left. reflexivity.
  - intros a xs b ys _ _ Hx Hy Ha Hb _.
    assert (Hlx : 0 < length xs) by (destruct xs; [contradiction|cbn; lia]).
    assert (Hly : 0 < length ys) by (destruct ys; [contradiction|cbn; lia]).
    destruct (length (xs ++ ys)) as [|f] eqn:Hf; rewrite app_length in Hf; [lia|]. cbn [trees]. apply in_or_app. right.
    apply in_flat_map. exists (length xs). split; [apply in_seq; rewrite app_length; lia|].
    rewrite firstn_app, skipn_app, Nat.sub_diag, firstn_all, skipn_all. cbn [firstn skipn app]. rewrite app_nil_r.
    apply in_flat_map. exists a. split; [apply (trees_mono Sp (length xs)); [lia|exact Ha]|].
    apply in_map_iff. exists b. split; [reflexivity|]. apply (trees_mono Sp (length ys)); [lia|exact Hb].
Qed.

(** ** A sequence given by a function, whose values are in a finite list, is periodic *)
Lemma pigeon {A} (f : nat -> A) (l : list A) : (forall n, In (f n) l) ->
  exists i j, i < j /\ j <= length l /\ f i = f j.
Proof.
  intros Hin. apply NNPP. intros Hno.
  assert (Hnd : NoDup (map f (seq 0 (S (length l))))).
  { apply NoDup_nth_error. intros i j Hi Heq. rewrite map_length, seq_length in Hi.
    assert (Hget : forall x, x < S (length l) -> nth_error (map f (seq 0 (S (length l)))) x = Some (f x)).
    { intros x Hx. rewrite nth_error_map. rewrite (nth_error_nth' _ 0) by (rewrite seq_length; exact Hx).
      rewrite seq_nth by exact Hx. reflexivity. }
    destruct (Nat.lt_ge_cases j (S (length l))) as [Hj|Hj].
    - rewrite !Hget in Heq by assumption. injection Heq as Heq.
      destruct (Nat.lt_trichotomy i j) as [H|[H|H]]; [|exact H|]; exfalso; apply Hno; [exists i, j|exists j, i]; repeat split; auto; lia.
    - assert (Hn : nth_error (map f (seq 0 (S (length l)))) j = None) by (apply nth_error_None; rewrite map_length, seq_length; exact Hj).
      rewrite Hn, Hget in Heq by assumption. discriminate. }
  assert (Hle : length (map f (seq 0 (S (length l)))) <= length l).
  { apply (NoDup_incl_length Hnd). intros x Hx. apply in_map_iff in Hx. destruct Hx as (n & <- & _). apply Hin. }
  rewrite map_length, seq_length in Hle. lia.
Qed.

Section Period.
Context {E F : Type} (N : Num F) (good : F -> Prop) (HN : NumOrd N good) (Sp : Space E F) (par : option Z) (data : list E).
Context (Hpar : valid_par par).

Lemma iterations_functional n : forall c c1 c2, iterations N Sp par data n c c1 -> iterations N Sp par data n c c2 -> c1 = c2.
Proof.
  induction n as [|n IH]; intros c c1 c2 H1 H2; inversion H1 as [|? ? d1 ? A1 B1]; inversion H2 as [|? ? d2 ? A2 B2]; subst; [reflexivity|].
  assert (d1 = d2) by (eapply iterate_functional; eassumption). subst. eapply IH; eassumption.
Qed.

Lemma iterations_app n : forall m c c1 c2, iterations N Sp par data n c c1 -> iterations N Sp par data m c1 c2 -> iterations N Sp par data (n + m) c c2.
Proof.
  induction n as [|n IH]; intros m c c1 c2 H1 H2; inversion H1; subst; [exact H2|]. cbn. econstructor; [eassumption|]. eapply IH; eassumption.
Qed.

Lemma iterations_split n : forall m c c2, iterations N Sp par data (n + m) c c2 -> exists c1, iterations N Sp par data n c c1 /\ iterations N Sp par data m c1 c2.
Proof.
  induction n as [|n IH]; intros m c c2 H; [exists c; split; [constructor|exact H]|]. cbn in H. inversion H as [|? ? d1 ? A1 B1]; subst.
  destruct (IH m _ _ B1) as (c1' & Ha & Hb). exists c1'. split; [econstructor; eassumption|exact Hb].
Qed.

(** The candidates of one iteration, for a relation [Q] with finitely many averages. *)
Context (Q : E -> list E -> Prop) (cand : list E -> list E) (HQ : forall a xs, xs <> [] -> Q a xs -> In a (cand xs)).
Context (Hstep : forall c, c <> [] -> exists c', strategy_iterate N Sp par c data = Ok (map Some c') /\
  average_step Q (fun x => fst (nearest N Sp c x)) c data c').

Definition pool (c : list E) : list E := c ++ flat_map cand (subs data).

Lemma pool_step c0 c : c <> [] -> Forall (fun x => In x (pool c0)) c ->
  exists c', strategy_iterate N Sp par c data = Ok (map Some c') /\ length c' = length c /\ Forall (fun x => In x (pool c0)) c'.
Proof.
  intros Hc HP. destruct (Hstep c Hc) as (c' & H1 & H2 & H3). exists c'. split; [exact H1|]. split; [exact H2|].
  apply Forall_forall. intros x Hx. apply In_nth_error in Hx. destruct Hx as [i Hi].
  assert (Hlt : i < length c) by (rewrite <- H2; apply nth_error_Some; congruence).
  destruct (nth_error c i) as [ci|] eqn:Hci; [|apply nth_error_None in Hci; lia].
  destruct (H3 i ci x Hci Hi) as [[_ ->]|[Hm Ha]].
  - rewrite Forall_forall in HP. apply HP. apply (nth_error_In c i Hci).
  - apply in_or_app. right. apply in_flat_map. eexists. split; [apply filter_subs|]. apply HQ; eassumption.
Qed.

Lemma pool_iterations c0 : forall n c, c <> [] -> Forall (fun x => In x (pool c0)) c ->
  exists cn, iterations N Sp par data n c cn /\ length cn = length c /\ Forall (fun x => In x (pool c0)) cn.
Proof.
  induction n as [|n IH]; intros c Hc HP; [exists c; repeat split; auto; constructor|].
  destruct (pool_step c0 c Hc HP) as (c1 & H1 & H2 & H3). destruct (IH c1) as (cn & H4 & H5 & H6); [|exact H3|].
  - intros ->. destruct c; [contradiction|discriminate].
  - exists cn. split; [econstructor; eassumption|]. split; [congruence|exact H6].
Qed.

Lemma pool_period c : c <> [] ->
  exists n0 p, 0 < p /\ n0 + p <= length (pool c) ^ length c /\
    forall n, n0 <= n -> exists cn, iterations N Sp par data n c cn /\ iterations N Sp par data (n + p) c cn.
Proof.
  intros Hc. assert (HP : Forall (fun x => In x (pool c)) c) by (apply Forall_forall; intros x Hx; apply in_or_app; left; exact Hx).
  set (step := fun c1 => match strategy_iterate N Sp par c1 data with
    | Ok l => flat_map (fun o => match o with Some x => [x] | None => [] end) l | Panic => c1 end).
  assert (Hst : forall c1 c2, strategy_iterate N Sp par c1 data = Ok (map Some c2) -> step c1 = c2).
  { intros c1 c2 H. unfold step. rewrite H. clear. induction c2 as [|x c2 IH]; [reflexivity|]. cbn. rewrite IH. reflexivity. }
  set (f := fix f n c1 := match n with O => c1 | S m => f m (step c1) end).
  assert (Hf : forall n c1 cn, iterations N Sp par data n c1 cn -> f n c1 = cn).
  { induction n as [|n IH]; intros c1 cn H; inversion H as [|? ? d1 ? A1 B1]; subst; [reflexivity|]. cbn. rewrite (Hst _ _ A1). apply IH. exact B1. }
  assert (Hit : forall n, iterations N Sp par data n c (f n c) /\ In (f n c) (tuples (length c) (pool c))).
  { intros n. destruct (pool_iterations c n c Hc HP) as (cn & H1 & H2 & H3). rewrite (Hf _ _ _ H1). split; [exact H1|].
    rewrite <- H2. apply tuples_in. exact H3. }
  destruct (pigeon (fun n => f n c) (tuples (length c) (pool c)) (fun n => proj2 (Hit n))) as (i & j & Hlt & Hle & Heq).
  rewrite tuples_length in Hle. exists i, (j - i). split; [lia|]. split; [lia|]. intros n Hn.
  exists (f n c). split; [apply Hit|]. replace n with (i + (n - i)) in * by lia. set (k := n - i) in *. clearbody k. clear n Hn.
  destruct (iterations_split i k c _ (proj1 (Hit (i + k)))) as (ci & H1 & H2).
  replace (i + k + (j - i)) with (j + k) by lia. eapply iterations_app; [apply Hit|].
  cbn beta in Heq. rewrite <- Heq, (Hf _ _ _ H1). exact H2.
Qed.
End Period.

Lemma period_main : forall (E F : Type) (N : Num F) good, NumOrd N good -> forall (Sp : Space E F) par (c data : list E),
  valid_par par -> c <> [] ->
  exists n0 p, 0 < p /\ forall n, n0 <= n ->
    exists cn, iterations N Sp par data n c cn /\ iterations N Sp par data (n + p) c cn /\
      forall c', iterations N Sp par data (n + p) c c' -> c' = cn.
Proof.
  intros E F N good HN Sp par c data Hp Hc.
  destruct (pool_period N Sp par data (fun a xs => In a (trees Sp (length xs) xs)) (fun xs => trees Sp (length xs) xs)
    (fun a xs _ H => H)) with (c := c) as (n0 & p & H1 & _ & H2); [|exact Hc|].
  - intros c1 Hc1. apply (strategy_average N good HN Sp (Z.of_nat (length data)) (fun _ => True) _ (trees_averages Sp _)); auto; [|lia].
    apply Forall_forall. auto.
  - exists n0, p. split; [exact H1|]. intros n Hn. destruct (H2 n Hn) as (cn & A & B). exists cn. split; [exact A|]. split; [exact B|].
    intros c' H. eapply iterations_functional; eassumption.
Qed.

Lemma flat_map_one {A B} (f : A -> list B) (l : list A) : (forall x, length (f x) = 1) -> length (flat_map f l) = length l.
Proof. intros H. induction l as [|x l IH]; [reflexivity|]. cbn. rewrite app_length, H, IH. reflexivity. Qed.

Lemma period_seq_main : forall (E F : Type) (N : Num F) good, NumOrd N good -> forall (Sp : Space E F) (c data : list E), c <> [] ->
  exists n0 p, 0 < p /\ n0 + p <= (length c + 2 ^ length data) ^ length c /\ forall n, n0 <= n ->
    exists cn, iterations N Sp None data n c cn /\ iterations N Sp None data (n + p) c cn /\
      forall c', iterations N Sp None data (n + p) c c' -> c' = cn.
Proof.
  intros E F N good HN Sp c data Hc. destruct c as [|x0 cs] eqn:Ec; [contradiction|]. rewrite <- Ec in *.
  destruct (pool_period N Sp None data (fun a xs => dba Sp xs = Some a)
    (fun xs => match dba Sp xs with Some m => [m] | None => [x0] end)) with (c := c) as (n0 & p & H1 & H2 & H3).
  - intros a xs _ H. rewrite H. left. reflexivity.
  - intros c1 Hc1. destruct (seq_iterate_lloyd N good HN Sp c1 data Hc1) as (c' & A & B1 & B2). exists c'. split; [exact A|].
    split; [exact B1|]. intros i ci ci' Hi Hi'. rewrite (B2 i ci Hi) in Hi'. injection Hi' as <-.
    set (ms := members (fun x => fst (nearest N Sp c1 x)) i data) in *. destruct ms as [|y ms1] eqn:Em; [left; split; reflexivity|].
    right. split; [discriminate|]. destruct (dba_nonempty Sp (y :: ms1) ltac:(discriminate)) as [m Hm]. rewrite Hm. reflexivity.
  - exact Hc.
  - exists n0, p. split; [exact H1|]. split.
    + unfold pool in H2. rewrite app_length, flat_map_one, subs_length in H2; [exact H2|]. intros xs. destruct (dba Sp xs); reflexivity.
    + intros n Hn. destruct (H3 n Hn) as (cn & A & B). exists cn. split; [exact A|]. split; [exact B|].
      intros c' H. eapply iterations_functional; eassumption.
Qed.

(** ** The cycle *)
Definition lo64 : list b64 := v64 [6755399441055746]%Z.
Definition hi64 : list b64 := v64 [6755399441055747]%Z.
Definition cycle_data : list (list b64) := [hi64; lo64; lo64; lo64].

Definition shown_step (o : outcome (list (option (list b64)))) : option (list (option (list SpecFloat.spec_float))) :=
  match o with Ok l => Some (map (option_map (map show64)) l) | Panic => None end.

Lemma map_inj {A B} (f : A -> B) : (forall x y, f x = f y -> x = y) -> forall l l', map f l = map f l' -> l = l'.
Proof.
  intros H. induction l as [|x l IH]; intros [|y l'] Heq; try discriminate; [reflexivity|]. cbn in Heq. injection Heq as H1 H2.
  f_equal; [apply H; exact H1|apply IH; exact H2].
Qed.

Lemma shown_step_inj o c : shown_step o = shown_step (Ok (map Some c)) -> o = Ok (map Some c).
Proof.
  intros H. destruct o as [l|]; [|discriminate]. cbn in H. apply (f_equal (fun o => match o with Some v => v | None => [] end)) in H. cbv beta iota in H. f_equal.
  revert H. apply map_inj. intros [x|] [y|] H; try discriminate; [|reflexivity]. cbn in H. f_equal.
  apply (f_equal (fun o => match o with Some v => v | None => [] end)) in H. cbv beta iota in H. revert H. apply map_inj.
  intros u v H. apply B2SF_inj. exact H.
Qed.

Lemma cycle_down : seq_iterate B64Num (euclid_space B64Num) [hi64; hi64] cycle_data = Ok (map Some [lo64; hi64]).
Proof. apply shown_step_inj. vm_compute. reflexivity. Qed.

Lemma cycle_up : seq_iterate B64Num (euclid_space B64Num) [lo64; hi64] cycle_data = Ok (map Some [hi64; hi64]).
Proof. apply shown_step_inj. vm_compute. reflexivity. Qed.

Lemma lo_hi : lo64 <> hi64.
Proof. intros H. apply (f_equal (map show64)) in H. vm_compute in H. discriminate. Qed.

Lemma cycle_main : exists c1 c2 data : list (list b64), c1 <> c2 /\
  forall n, iterations B64Num (euclid_space B64Num) None data (2 * n) c1 c1 /\
            iterations B64Num (euclid_space B64Num) None data (2 * n + 1) c1 c2.
Proof.
  exists [lo64; hi64], [hi64; hi64], cycle_data. split; [intros H; exact (lo_hi (f_equal (hd lo64) H))|].
  assert (H2 : forall n, iterations B64Num (euclid_space B64Num) None cycle_data (2 * n) [lo64; hi64] [lo64; hi64]).
  { induction n as [|n IH]; [constructor|]. replace (2 * S n) with (S (S (2 * n))) by lia.
    econstructor; [exact cycle_up|]. econstructor; [exact cycle_down|]. exact IH. }
  intros n. split; [apply H2|]. eapply iterations_app; [apply H2|]. econstructor; [exact cycle_up|constructor].
Qed.

(** The iteration that starts from a perfect clustering makes it worse. [pow] is math.Pow. *)
Definition shown_loss (o : outcome b64) : option SpecFloat.spec_float :=
  match o with Ok l => Some (show64 l) | Panic => None end.

Lemma cycle_loss_main : exists c c' data, seq_iterate B64Num (euclid_space B64Num) c data = Ok (map Some c') /\
  forall pow : b64 -> b64 -> b64, (forall x, pow x (b64_of_Z 2) = nmul B64Num x x) ->
    shown_loss (total_loss B64Num (euclid_space B64Num) pow c data (b64_of_Z 2)) = Some (show64 (b64_of_Z 0)) /\
    shown_loss (total_loss B64Num (euclid_space B64Num) pow c' data (b64_of_Z 2)) = Some (show64 (b64_of_Z 3)).
Proof.
  exists [lo64; hi64], [hi64; hi64], cycle_data. split; [exact cycle_up|]. intros pow Hpow.
  assert (Hext : forall c, total_loss B64Num (euclid_space B64Num) pow c cycle_data (b64_of_Z 2) =
    total_loss B64Num (euclid_space B64Num) (fun x _ => nmul B64Num x x) c cycle_data (b64_of_Z 2)).
  { intros c. unfold total_loss. f_equal. unfold reduce_loss.
    assert (Hf : forall (f g : list b64 * list Z -> list b64 -> outcome (list b64 * list Z)) l st, (forall a b, f a b = g a b) -> ofold f l st = ofold g l st).
    { intros f g l. induction l as [|x l IH]; intros st H; [reflexivity|]. cbn. rewrite H. destruct (g st x); [apply IH; exact H|reflexivity]. }
    apply Hf. intros [ls cs] x. destruct (nearest B64Num (euclid_space B64Num) c x) as [la di]. unfold loss_add. rewrite Hpow. reflexivity. }
  rewrite !Hext. split; vm_compute; reflexivity.
Qed.

(** Three copies of an element, and a centroid on it: the centroid leaves it. *)
Lemma cycle_mean_main : exists (x y : list b64), x <> y /\
  seq_iterate B64Num (euclid_space B64Num) [x] [x; x; x] = Ok (map Some [y]) /\
  map show64 x = map show64 (v64 [6755399441055746]%Z) /\ map show64 y = map show64 (v64 [6755399441055747]%Z).
Proof.
  exists lo64, hi64. split; [exact lo_hi|]. split; [apply shown_step_inj; vm_compute; reflexivity|]. split; reflexivity.
Qed.
