(** C21-C25: the initializers. *)
From Coq Require Import List ZArith Bool Arith Reals Lra.
From Flocq Require Import IEEE754.BinarySingleNaN.
From Verif Require Import Base.Go Base.Num Model.Clustering Model.Euclid Model.KmeansInit
  Spec.RealSpec Spec.NearestSpec Spec.InitSpec Proofs.NumLaws Proofs.InitProofs.
Import ListNotations.

Theorem C21_given : forall E F (Sp : Space E F) (k : Z) (elemts : list E),
  ((1 <= k <= Z.of_nat (length elemts))%Z ->
     given_initializer Sp k elemts = Ok (map (fun x => Some (scopy Sp x)) (firstn (Z.to_nat k) elemts), None)) /\
  ((k < 1)%Z -> given_initializer Sp k elemts = Ok ([], Some ErrKLow)) /\
  ((1 <= k)%Z -> (Z.of_nat (length elemts) < k)%Z -> given_initializer Sp k elemts = Ok ([], Some ErrFewElemts)).
Proof. exact given_main. Qed.
Print Assumptions C21_given.

Example C21_case :
  let r := given_initializer (euclid_space B64Num) 2 [v64 [1]%Z; v64 [9]%Z; v64 [3]%Z] in
  match r with
  | Ok (c, None) => map (option_map (map show64)) c = map (fun z => Some (map show64 (v64 [z]))) [1; 9]%Z
  | _ => False
  end.
Proof. vm_compute. auto. Qed.

Theorem C22_rand : forall E F (Sp : Space E F) (k : Z) (elemts : list E) (draws : list Z),
  Forall (fun p => (0 <= p < Z.of_nat (length elemts))%Z) draws ->
  ((k < 0)%Z -> rand_initializer Sp k elemts draws = Some Panic) /\
  ((0 <= k)%Z -> (k < 1 \/ Z.of_nat (length elemts) < k)%Z ->
     exists e, rand_initializer Sp k elemts draws = Some (Ok (repeat None (Z.to_nat k), Some e))) /\
  ((1 <= k <= Z.of_nat (length elemts))%Z -> forall r, rand_initializer Sp k elemts draws = Some r ->
     exists positions, NoDup positions /\ Z.of_nat (length positions) = k /\
       (forall p, In p positions -> p < length elemts) /\
       r = Ok (map (fun p => option_map (scopy Sp) (nth_error elemts p)) positions, None)).
Proof. exact rand_main. Qed.
Print Assumptions C22_rand.

Theorem C22_rand_terminates : forall E F (Sp : Space E F) (k : Z) (elemts : list E) (s : nat -> Z),
  (forall n, (0 <= s n < Z.of_nat (length elemts))%Z) ->
  (forall p, (0 <= p < Z.of_nat (length elemts))%Z -> exists n, s n = p) ->
  exists n r, rand_initializer Sp k elemts (map s (seq 0 n)) = Some r.
Proof. exact rand_terminates. Qed.
Print Assumptions C22_rand_terminates.

Example C22_case :
  let r := rand_initializer (euclid_space B64Num) 2 [v64 [1]%Z; v64 [9]%Z; v64 [3]%Z] [2; 2; 2; 0; 1]%Z in
  Forall (fun p => (0 <= p < 3)%Z) [2; 2; 2; 0; 1]%Z /\
  match r with
  | Some (Ok (c, None)) => map (option_map (map show64)) c = map (fun z => Some (map show64 (v64 [z]))) [3; 1]%Z
  | _ => False
  end.
Proof. split; [repeat constructor; discriminate|vm_compute; auto]. Qed.

(** A stream of draws meeting the hypotheses of termination for three elements. *)
Example C22_stream : let s := fun n => (Z.of_nat n mod 3)%Z in
  (forall n, (0 <= s n < 3)%Z) /\ (forall p, (0 <= p < 3)%Z -> exists n, s n = p).
Proof.
  split; [intros n; apply Z.mod_pos_bound; reflexivity|].
  intros p H. exists (Z.to_nat p). rewrite Z2Nat.id by apply H. apply Z.mod_small. exact H.
Qed.

Section Reals.
Local Open Scope R_scope.

Theorem C23_pp : forall E (Sp : Space E R), forall degree k (elemts : list E) draw (rs : nat -> R),
  (0 < degree)%Z -> (forall x y, 0 <= sdist Sp x y) -> (forall i, 0 < rs i < 1) ->
  ((k < 0)%Z -> pp_initializer RNum Sp degree k elemts draw rs = Panic) /\
  ((0 <= k)%Z -> (k < 1 \/ Z.of_nat (length elemts) < k)%Z ->
     exists e, e <> ErrNullSet /\ pp_initializer RNum Sp degree k elemts draw rs = Ok (repeat None (Z.to_nat k), Some e)) /\
  ((1 <= k <= Z.of_nat (length elemts))%Z -> (0 <= draw < Z.of_nat (length elemts))%Z ->
     (exists found, pp_initializer RNum Sp degree k elemts draw rs = Ok (map Some found, None) /\
        Z.of_nat (length found) = k /\ spread Sp elemts found) \/
     (exists cs prev, pp_initializer RNum Sp degree k elemts draw rs = Ok (cs, Some ErrNullSet) /\
        (Z.of_nat (length prev) < k)%Z /\ spread Sp elemts prev /\
        forall x, In x elemts -> exists y, In y prev /\ sdist Sp x y = 0)).
Proof. exact @pp_main. Qed.
Print Assumptions C23_pp.

Example C23_case : let rs := (fun _ : nat => / 2) in let Sp := euclid_space RNum in
  (0 < 4)%Z /\ (forall i, 0 < rs i < 1) /\ spread Sp [[0]; [1]; [0]] [[0]; [1]].
Proof.
  split; [reflexivity|]. split; [intros i; lra|]. intros i c Hi.
  destruct i as [|[|i]]; [| |destruct i; discriminate]; injection Hi as <-.
  - exists [0]. split; [left; reflexivity|]. split; [auto|]. split; [congruence|]. intros j y Hj. inversion Hj.
  - exists [1]. split; [right; left; reflexivity|]. split; [discriminate|]. split; [reflexivity|].
    intros j y Hj Hy. destruct j as [|j]; [|apply Nat.lt_1_r in Hj; discriminate]. injection Hy as <-.
    cbn. unfold point_dist. cbn. apply sqrt_lt_R0. lra.
Qed.

Theorem C24_weighted_choice : forall ws r, Forall (fun w => 0 <= w) ws -> 0 < r < 1 ->
  (rsum ws = 0 <-> weighted_choice RNum ws r = Ok (0%Z, Some ErrNullSet)) /\
  (rsum ws <> 0 -> exists n, (n < length ws)%nat /\ weighted_choice RNum ws r = Ok (Z.of_nat n, None)) /\
  (rsum ws <> 0 -> forall n, (n < length ws)%nat ->
     (weighted_choice RNum ws r = Ok (Z.of_nat n, None) <->
      rsum (firstn n ws) / rsum ws < r <= rsum (firstn (S n) ws) / rsum ws)) /\
  (rsum ws <> 0 -> forall n w, nth_error ws n = Some w ->
     rsum (firstn (S n) ws) / rsum ws - rsum (firstn n ws) / rsum ws = w / rsum ws) /\
  (forall n w, nth_error ws n = Some w -> weighted_choice RNum ws r = Ok (Z.of_nat n, None) -> 0 < w).
Proof. exact choice_main. Qed.
Print Assumptions C24_weighted_choice.

(** Weights 1, 0, 3: the draw 1/2 gives the cursor 2, hence index 2. *)
Example C24_case : Forall (fun w => 0 <= w) [1; 0; 3] /\ rsum [1; 0; 3] <> 0 /\
  rsum (firstn 2 [1; 0; 3]) / rsum [1; 0; 3] < / 2 <= rsum (firstn 3 [1; 0; 3]) / rsum [1; 0; 3].
Proof. split; [repeat constructor; lra|]. cbn. lra. Qed.

End Reals.

(** Binary64: a returned index is -1 (when the cursor starts at 0) or the index of a positive weight. *)
Theorem C25_float_partial : forall (ws : list b64) (r : b64),
  Forall (fun w => b64_leb (b64_of_Z 0) w = true) ws ->
  match weighted_choice B64Num ws r with
  | Ok (i, Some e) => i = 0%Z /\ e = ErrNullSet /\ b64_eqb (weights_sum B64Num ws) (b64_of_Z 0) = true
  | Ok (i, None) =>
      (i = (-1)%Z /\ b64_ltb (b64_of_Z 0) (b64_mul r (weights_sum B64Num ws)) = false) \/
      (exists n w, i = Z.of_nat n /\ nth_error ws n = Some w /\ b64_ltb (b64_of_Z 0) w = true)
  | Panic => b64_ltb (b64_of_Z 0) (b64_mul r (weights_sum B64Num ws)) = true
  end.
Proof. exact choice_float. Qed.
Print Assumptions C25_float_partial.

Theorem C25_float_refuted : (exists (ws : list b64) (r : b64),
     Forall (fun w => is_finite w = true /\ b64_ltb (b64_of_Z 0) w = true) ws /\
     b64_leb (b64_of_Z 0) r = true /\ b64_ltb r (b64_of_Z 1) = true /\
     weighted_choice B64Num ws r = Ok ((-1)%Z, None)) /\
  (exists (ws : list b64) (r : b64),
     Forall (fun w => is_finite w = true /\ b64_ltb (b64_of_Z 0) w = true) ws /\
     b64_ltb (b64_of_Z 0) r = true /\ b64_ltb r (b64_of_Z 1) = true /\
     weighted_choice B64Num ws r = Panic).
Proof. exact choice_float_refuted. Qed.
Print Assumptions C25_float_refuted.

Example C25_case :
  Forall (fun w => b64_leb (b64_of_Z 0) w = true) (v64 [1; 0; 3]%Z) /\
  weighted_choice B64Num (v64 [1; 0; 3]%Z) (b64_div (b64_of_Z 1) (b64_of_Z 2)) = Ok (2%Z, None).
Proof. split; [repeat constructor|vm_compute; reflexivity]. Qed.
