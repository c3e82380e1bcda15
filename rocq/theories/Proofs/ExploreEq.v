(** The comparisons of Proofs/Explore.v and Proofs/ExploreRun.v are right; consistent programs. *)
From Coq Require Import List ZArith Bool Lia FMapPositive.
From Verif Require Import Base.Go Model.Status Model.Finish Model.CtrlLang Model.CtrlCode Proofs.ConfProofs Proofs.Explore Proofs.ExploreRun.
Import ListNotations.
Local Open Scope list_scope.

Definition subs (i : instr) : list instr :=
  match i with
  | ITryAck p | ISpawn _ p | ILoop _ p | IDefer p | IStartTimer p => p
  | IIf _ p q => p ++ q
  | _ => []
  end.
Lemma instr_ind2 (P : instr -> Prop) : (forall i, Forall P (subs i) -> P i) -> forall i, P i.
Proof.
  intros H. exact (fix F (i : instr) : P i :=
    let all := fix all (p : list instr) : Forall P p := match p with [] => Forall_nil P | x :: p' => Forall_cons x (F x) (all p') end in
    H i (match i as j return Forall P (subs j) with
         | ITryAck p => all p | ISpawn _ p => all p | ILoop _ p => all p | IDefer p => all p | IStartTimer p => all p
         | IIf _ p q => proj2 (Forall_app P p q) (conj (all p) (all q))
         | _ => Forall_nil P
         end)).
Qed.

Lemma err_eqb_eq a b : err_eqb a b = true -> a = b.
Proof. unfold err_eqb. match goal with |- (if ?x then _ else _) = _ -> _ => destruct x end; congruence. Qed.
Lemma mutex_eqb_eq a b : mutex_eqb a b = true -> a = b.
Proof. destruct a, b; cbn; congruence. Qed.
Lemma src_eqb_eq a b : src_eqb a b = true -> a = b.
Proof. destruct a, b; cbn; try congruence. intros H. apply err_eqb_eq in H. congruence. Qed.
Lemma stexp_eqb_eq a b : stexp_eqb a b = true -> a = b.
Proof. destruct a, b; cbn; try congruence; intros H; [apply status_eqb_eq in H|apply src_eqb_eq in H]; congruence. Qed.
Lemma fld_eqb_eq a b : fld_eqb a b = true -> a = b.
Proof. destruct a, b; cbn; congruence. Qed.
Lemma mop_eqb_eq a b : mop_eqb a b = true -> a = b.
Proof. destruct a, b; cbn; congruence. Qed.
Lemma kind_eqb_eq a b : kind_eqb a b = true -> a = b.
Proof. destruct a, b; cbn; congruence. Qed.
Lemma fin_eqb_eq f g d e : fin_eqb f g d e = true -> f = g /\ d = e.
Proof.
  unfold fin_eqb. destruct f as [[| | |[|]  []|]|], g as [[| | |[|] []|]|]; try discriminate;
    intros H; apply andb_prop in H as (A & B); apply Z.eqb_eq in A, B; subst; auto.
Qed.
Lemma getter_eqb_eq a b : getter_eqb a b = true -> a = b.
Proof.
  destruct a, b; cbn; try congruence; intros H;
    [apply err_eqb_eq in H|apply Z.eqb_eq in H|apply fin_eqb_eq in H as (? & ?)]; congruence.
Qed.
Lemma cond_eqb_eq a b : cond_eqb a b = true -> a = b.
Proof.
  destruct a, b; cbn; try congruence; intros H;
    [apply status_eqb_eq in H|apply status_eqb_eq in H|apply fin_eqb_eq in H as (? & ?)]; congruence.
Qed.
Lemma code_eqb_of (p : list instr) : Forall (fun x => forall y, instr_eqb x y = true -> x = y) p -> forall q, code_eqb p q = true -> p = q.
Proof.
  induction 1 as [|x p Hx Hp IH]; intros [|y q]; cbn; try discriminate; [reflexivity|].
  intros H. apply andb_prop in H as (A & B). f_equal; auto.
Qed.
Lemma instr_eqb_eq : forall a b, instr_eqb a b = true -> a = b.
Proof.
  refine (instr_ind2 _ _). intros a Hs b H.
  destruct a, b; cbn in H; try discriminate H; try reflexivity; cbn in Hs;
    repeat match goal with
           | H : _ && _ = true |- _ => apply andb_prop in H as (? & ?)
           | H : mutex_eqb _ _ = true |- _ => apply mutex_eqb_eq in H
           | H : stexp_eqb _ _ = true |- _ => apply stexp_eqb_eq in H
           | H : mop_eqb _ _ = true |- _ => apply mop_eqb_eq in H
           | H : getter_eqb _ _ = true |- _ => apply getter_eqb_eq in H
           | H : fld_eqb _ _ = true |- _ => apply fld_eqb_eq in H
           | H : kind_eqb _ _ = true |- _ => apply kind_eqb_eq in H
           | H : cond_eqb _ _ = true |- _ => apply cond_eqb_eq in H
           | H : Bool.eqb _ _ = true |- _ => apply eqb_prop in H
           | H : Forall _ (_ ++ _) |- _ => apply Forall_app in H as (? & ?)
           end; subst; try reflexivity; f_equal;
    match goal with H : Forall _ ?p |- ?p = _ => exact (code_eqb_of p H _ ltac:(eassumption)) end.
Qed.
Lemma code_eqb_eq p q : code_eqb p q = true -> p = q.
Proof. apply code_eqb_of. apply Forall_forall. intros x _ y. apply instr_eqb_eq. Qed.

(** Every place has a node that tells the truth about it. *)
Section Program.
  Variable g : program.
  Definition place_is (pc : positive) (c : list instr) : bool := match PositiveMap.find pc (g_codes g) with Some d => code_eqb d c | None => false end.
  Definition node_ok (pc : positive) (c : list instr) : bool :=
    match c with
    | [] => true
    | i :: k =>
        match PositiveMap.find pc (g_nodes g) with
        | Some n =>
            instr_eqb (n_instr n) i && place_is (n_next n) k &&
            match i with
            | IIf _ p q => place_is (n_a n) (p ++ k) && place_is (n_b n) (q ++ k)
            | ILoop _ p => place_is (n_a n) (p ++ c)
            | ITryAck p => place_is (n_a n) (p ++ k)
            | ISpawn _ p | IDefer p => place_is (n_a n) p
            | _ => true
            end
        | None => false
        end
    end.
  Definition program_ok : bool := PositiveMap.fold (fun pc c b => b && node_ok pc c) (g_codes g) true.
End Program.

Lemma fold_and {A} (f : positive -> A -> bool) (m : PositiveMap.t A) : PositiveMap.fold (fun k a b => b && f k a) m true = true ->
  forall k a, PositiveMap.find k m = Some a -> f k a = true.
Proof.
  rewrite PositiveMap.fold_1. intros H k a Hk. apply PositiveMap.elements_correct in Hk.
  assert (G : forall l b, fold_left (fun b (p : positive * A) => b && f (fst p) (snd p)) l b = true -> b = true /\ forall p, In p l -> f (fst p) (snd p) = true).
  { clear. induction l as [|p l IH]; cbn; intros b Hl; [split; [exact Hl|tauto]|].
    apply IH in Hl as (Hb & Hl). apply andb_prop in Hb as (Hb & Hp). split; [exact Hb|].
    intros q [<-|Hq]; [exact Hp|apply Hl; exact Hq]. }
  exact (proj2 (G _ _ H) _ Hk).
Qed.

Definition code_at (g : program) (pc : positive) : option (list instr) := PositiveMap.find pc (g_codes g).
Lemma place_is_eq g pc c : place_is g pc c = true -> code_at g pc = Some c.
Proof. unfold place_is, code_at. destruct (PositiveMap.find pc (g_codes g)) as [d|]; [|discriminate]. intros H. apply code_eqb_eq in H. congruence. Qed.
Lemma node_spec g : program_ok g = true -> forall pc i k, code_at g pc = Some (i :: k) ->
  exists n, PositiveMap.find pc (g_nodes g) = Some n /\ n_instr n = i /\ code_at g (n_next n) = Some k /\
  match i with
  | IIf _ p q => code_at g (n_a n) = Some (p ++ k) /\ code_at g (n_b n) = Some (q ++ k)
  | ILoop _ p => code_at g (n_a n) = Some (p ++ i :: k)
  | ITryAck p => code_at g (n_a n) = Some (p ++ k)
  | ISpawn _ p | IDefer p => code_at g (n_a n) = Some p
  | _ => True
  end.
Proof.
  intros Hg pc i k Hc. pose proof (fold_and _ _ Hg _ _ Hc) as H. unfold node_ok in H.
  destruct (PositiveMap.find pc (g_nodes g)) as [n|]; [|discriminate]. exists n. split; [reflexivity|].
  apply andb_prop in H as (H & H3). apply andb_prop in H as (H1 & H2).
  apply instr_eqb_eq in H1. apply place_is_eq in H2. split; [exact H1|]. split; [exact H2|].
  destruct i; try exact Logic.I; try (apply andb_prop in H3 as (H3 & H4); split); apply place_is_eq; assumption.
Qed.

Lemma aerr_eqb_eq a b : aerr_eqb a b = true -> a = b.
Proof. destruct a, b; cbn; congruence. Qed.
Lemma astatus_eqb_eq a b : astatus_eqb a b = true -> a = b.
Proof. destruct a, b. unfold astatus_eqb. cbn. intros H. apply andb_prop in H as (A & B). apply status_eqb_eq in A. apply aerr_eqb_eq in B. congruence. Qed.
Lemma achan_eqb_eq a b : achan_eqb a b = true <-> a = b.
Proof. destruct a, b; cbn; split; try congruence; intros H; [apply Nat.eqb_eq in H; congruence|apply Nat.eqb_eq; congruence]. Qed.
Lemma opt_eqb_eq {A} (f : A -> A -> bool) : (forall a b, f a b = true -> a = b) -> forall x y, opt_eqb f x y = true -> x = y.
Proof. intros H [a|] [b|]; cbn; try congruence. intros E. apply H in E. congruence. Qed.
Lemma list_eqb_eq {A} (f : A -> A -> bool) : (forall a b, f a b = true -> a = b) -> forall x y, list_eqb f x y = true -> x = y.
Proof. intros H. induction x as [|a x IH]; intros [|b y]; cbn; try congruence. intros E. apply andb_prop in E as (E1 & E2). f_equal; auto. Qed.
Lemma nat_eqb_eq a b : Nat.eqb a b = true -> a = b.
Proof. apply Nat.eqb_eq. Qed.
Lemma pos_eqb_eq a b : Pos.eqb a b = true -> a = b.
Proof. apply Pos.eqb_eq. Qed.
Lemma loc_eqb_eq a b : loc_eqb a b = true -> a = b.
Proof.
  unfold loc_eqb. destruct a, b. cbn. intros H.
  repeat match goal with H : _ && _ = true |- _ => apply andb_prop in H as (? & ?) end.
  f_equal; first [apply (opt_eqb_eq astatus_eqb astatus_eqb_eq)|apply (opt_eqb_eq Bool.eqb eqb_prop)|apply (opt_eqb_eq aerr_eqb aerr_eqb_eq)]; assumption.
Qed.
Lemma mode_eqb_eq a b : mode_eqb a b = true -> a = b.
Proof.
  destruct a, b; cbn; try congruence; intros H.
  - apply mutex_eqb_eq in H. congruence.
  - apply andb_prop in H as (A & B). apply achan_eqb_eq in A. apply astatus_eqb_eq in B. congruence.
  - apply achan_eqb_eq in H. congruence.
Qed.
Lemma th_eqb_eq a b : th_eqb a b = true -> a = b.
Proof.
  unfold th_eqb. destruct a, b. cbn. intros H.
  repeat match goal with H : _ && _ = true |- _ => apply andb_prop in H as (? & ?) end.
  f_equal; auto using kind_eqb_eq, nat_eqb_eq, pos_eqb_eq, mode_eqb_eq, loc_eqb_eq. apply (opt_eqb_eq Pos.eqb pos_eqb_eq); assumption.
Qed.
Lemma holder_eqb_eq a b : holder_eqb a b = true -> a = b.
Proof. destruct a, b; cbn; try congruence. intros H. apply Nat.eqb_eq in H. congruence. Qed.
Lemma lock_eqb_eq a b : lock_eqb a b = true -> a = b.
Proof.
  unfold lock_eqb. destruct a, b. cbn. intros H.
  repeat match goal with H : _ && _ = true |- _ => apply andb_prop in H as (? & ?) end.
  f_equal; [apply holder_eqb_eq|apply (opt_eqb_eq Nat.eqb nat_eqb_eq)|apply (list_eqb_eq Nat.eqb nat_eqb_eq)]; assumption.
Qed.
Lemma state_eqb_eq a b : state_eqb a b = true -> a = b.
Proof.
  unfold state_eqb. destruct a, b. cbn. intros H.
  repeat match goal with H : _ && _ = true |- _ => apply andb_prop in H as (? & ?) end.
  f_equal; auto using astatus_eqb_eq, lock_eqb_eq, eqb_prop, nat_eqb_eq.
  - apply (list_eqb_eq Nat.eqb nat_eqb_eq); assumption.
  - apply (list_eqb_eq _ (opt_eqb_eq _ th_eqb_eq)); assumption.
Qed.
