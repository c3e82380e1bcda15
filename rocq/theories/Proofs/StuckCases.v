(** Concrete instances for the examples beside C120: stand-ins for Exp, Log and Gamma, and a run of
    MCMC with MultivT in dimension 341. *)
From Coq Require Import List ZArith Bool Lia Reals Lra.
From Flocq Require Import Core IEEE754.BinarySingleNaN.
From Verif Require Import Base.Go Base.Num Model.Clustering Model.Par Model.Euclid Model.Buffer Model.Kmeans
  Model.KmeansInit Model.Mcmc Model.MultivT
  Spec.ClusterSpec Spec.NearestSpec Spec.McmcSpec Spec.GoMathSpec Spec.FloatSpec
  Proofs.NumLaws Proofs.EuclidFloat Proofs.ConfProofs Proofs.FloatMean Proofs.McmcProofs Proofs.McmcMain Proofs.McmcStuck.
Import ListNotations.
Local Open Scope Z_scope.

Definition toy_exp (x : b64) : b64 :=
  if is_nan x then x else if b64_leb (b64_of_Z 0) x then b64_of_Z 1 else b64_of_Z 0.
Definition toy_log (x : b64) : b64 :=
  match x with
  | B754_infinity false => b64_inf
  | B754_nan => B754_nan
  | _ => if b64_ltb x (b64_of_Z 0) then B754_nan else b64_of_Z 0
  end.
Definition toy_gamma (x : b64) : b64 :=
  if b64_leb (b64_of_Z 172) x then b64_inf else b64_of_Z 1.

Lemma toy_log_else x : is_finite x = true -> toy_log x = if b64_ltb x (b64_of_Z 0) then B754_nan else b64_of_Z 0.
Proof. destruct x as [ | [] | | ]; simpl; try discriminate; reflexivity. Qed.

Lemma toy_go_math : go_math toy_exp toy_log toy_gamma.
Proof.
  constructor.
  - intros x H. unfold toy_exp. rewrite H. exact H.
  - intros x H. unfold toy_exp. rewrite H.
    destruct (is_nan x) eqn:Hn; [|vm_compute; reflexivity].
    destruct x; try discriminate.
  - reflexivity.
  - intros x H. destruct (is_finite x) eqn:Hf.
    + rewrite toy_log_else by exact Hf. rewrite H. reflexivity.
    + destruct x as [ | [] | | ]; try discriminate; reflexivity.
  - reflexivity.
  - intros x Hf Hp. rewrite toy_log_else by exact Hf.
    destruct (b64_of_Z_exact 0 ltac:(lia)) as [V F].
    assert (b64_ltb x (b64_of_Z 0) = false) as ->.
    { unfold b64_ltb. rewrite Bltb_correct by assumption. apply Rlt_bool_false. rewrite V. lra. }
    split; [exact F|]. rewrite V, Rabs_R0. lra.
  - intros x H. unfold toy_gamma. rewrite H. reflexivity.
  - intros x Hf Hp. unfold toy_gamma.
    destruct (b64_of_Z_exact 172 ltac:(lia)) as [V F]. destruct (b64_of_Z_exact 1 ltac:(lia)) as [V1 F1].
    assert (b64_leb (b64_of_Z 172) x = false) as ->.
    { unfold b64_leb. rewrite Bleb_correct by assumption. apply Rle_bool_false. rewrite V. lra. }
    split; [exact F1|]. rewrite V1. lra.
Qed.

(** Three elements of dimension [dim] that differ in their first coordinate, one center, one iteration
    that proposes their mean instead of the first element. *)
Section Run.
Variable dim : nat.
Variable b : Z.
Definition vec_dim (z : Z) : list b64 := b64_of_Z z :: repeat (b64_of_Z 0) (dim - 1).
Definition conf_dim : mparams b64 :=
  mkMparams false 1 (b64_of_Z b) (b64_of_Z 0) (b64_of_Z 2) 2 (map b64_of_Z [0; 1; 0]) 2.
Definition draw_dim : draws b64 (@noise b64) :=
  mkDraws (b64_div (b64_of_Z 1) (b64_of_Z 2)) (b64_of_Z 0) 0 (b64_of_Z 0) 0 (fun _ => mkNoise (b64_of_Z 3) (repeat (b64_of_Z 0) dim)) (b64_of_Z 0).
Definition run_dim :=
  match new_multivt B64Num toy_log toy_gamma (Z.of_nat dim) (b64_of_Z 0) with
  | Ok mt =>
    let D := multivt_distrib B64Num toy_log (b64_of_Z 3) mt in
    let pow := fun x _ => b64_mul x x in
    match new_msys B64Num [vec_dim 0; vec_dim 2; vec_dim 2] 0 with
    | Ok s =>
      match mcmc_init B64Num (euclid_space B64Num) pow D conf_dim (use_given (euclid_space B64Num)) (ms_impl s) tt with
      | Ok (m, cs, None) =>
        match somes cs with
        | Ok c =>
          match mcmc_iterate B64Num (euclid_space B64Num) pow toy_log toy_exp 2 D conf_dim m c draw_dim with
          | Ok (m', c', f) => Some (map (fun x => (show64 (hd b64_inf x), length x)) c', f_acceptations f)
          | Panic => None
          end
        | Panic => None
        end
      | _ => None
      end
    | Panic => None
    end
  | Panic => None
  end.
End Run.
