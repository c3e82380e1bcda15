(** Lemmas about the Go helpers. *)
From Coq Require Import List ZArith Lia Bool.
From Verif Require Import Base.Go.
Import ListNotations.

Lemma upd_length {A} (l : list A) n a : length (upd l n a) = length l.
Proof. revert n; induction l as [|b l IH]; destruct n; simpl; auto. Qed.

Lemma nth_upd {A} (l : list A) n m a d :
  nth m (upd l n a) d = if (Nat.eqb m n && Nat.ltb n (length l))%bool then a else nth m l d.
Proof.
  revert n m; induction l as [|b l IH]; intros n m; simpl.
  - rewrite Bool.andb_comm; simpl; reflexivity.
  - destruct n as [|n], m as [|m]; simpl; try reflexivity. apply IH.
Qed.

Lemma nth_upd_eq {A} (l : list A) n a d : n < length l -> nth n (upd l n a) d = a.
Proof.
  intros H. rewrite nth_upd, Nat.eqb_refl.
  destruct (Nat.ltb_spec n (length l)); [reflexivity|lia].
Qed.

Lemma nth_upd_neq {A} (l : list A) n m a d : m <> n -> nth m (upd l n a) d = nth m l d.
Proof. intros H. rewrite nth_upd. destruct (Nat.eqb_spec m n); [contradiction|reflexivity]. Qed.

Lemma nth_error_upd {A} (l : list A) n m a :
  nth_error (upd l n a) m =
  if (Nat.eqb m n && Nat.ltb n (length l))%bool then Some a else nth_error l m.
Proof.
  revert n m; induction l as [|b l IH]; intros n m; simpl.
  - rewrite Bool.andb_comm; simpl; destruct m; reflexivity.
  - destruct n as [|n], m as [|m]; simpl; try reflexivity. apply IH.
Qed.

Lemma sget_ok {A} (l : list A) i a :
  sget l i = Ok a <-> (0 <= i)%Z /\ nth_error l (Z.to_nat i) = Some a.
Proof.
  unfold sget. destruct (Z.ltb_spec i 0).
  - split; [discriminate|lia].
  - destruct (nth_error l (Z.to_nat i)) as [b|] eqn:Hn.
    + split; [intros [= ->]; auto | intros [_ [= ->]]; reflexivity].
    + split; [discriminate|intros [_ [=]]].
Qed.

Lemma sget_nat {A} (l : list A) n :
  sget l (Z.of_nat n) = match nth_error l n with Some a => Ok a | None => Panic end.
Proof.
  unfold sget. destruct (Z.ltb_spec (Z.of_nat n) 0); [lia|]. rewrite Nat2Z.id. reflexivity.
Qed.

Lemma sget_nth {A} (l : list A) n d : n < length l -> sget l (Z.of_nat n) = Ok (nth n l d).
Proof. intros H. rewrite sget_nat, (nth_error_nth' l d H). reflexivity. Qed.

Lemma sget_panic {A} (l : list A) i :
  sget l i = Panic <-> (i < 0)%Z \/ (slen l <= i)%Z.
Proof.
  unfold sget, slen. destruct (Z.ltb_spec i 0).
  - split; [lia|reflexivity].
  - destruct (nth_error l (Z.to_nat i)) as [b|] eqn:Hn.
    + assert (Z.to_nat i < length l) by (apply nth_error_Some; congruence).
      split; [discriminate|lia].
    + apply nth_error_None in Hn. split; [lia|reflexivity].
Qed.

Lemma sset_nat {A} (l : list A) n a :
  n < length l -> sset l (Z.of_nat n) a = Ok (upd l n a).
Proof.
  intros H. unfold sset. destruct (Z.ltb_spec (Z.of_nat n) 0); [lia|]. rewrite Nat2Z.id.
  destruct (Nat.ltb_spec n (length l)); [reflexivity|lia].
Qed.

Lemma sset_panic {A} (l : list A) i a :
  sset l i a = Panic <-> (i < 0)%Z \/ (slen l <= i)%Z.
Proof.
  unfold sset, slen. destruct (Z.ltb_spec i 0).
  - split; [lia|reflexivity].
  - destruct (Nat.ltb_spec (Z.to_nat i) (length l)); split; try discriminate; try lia; reflexivity.
Qed.

Lemma ofold_app {A S} (f : S -> A -> outcome S) l1 l2 s :
  ofold f (l1 ++ l2) s = obind (ofold f l1 s) (ofold f l2).
Proof.
  revert s; induction l1 as [|x l1 IH]; intros s; simpl; [reflexivity|].
  destruct (f s x); simpl; auto.
Qed.

(** A loop that never panics is a fold. *)
Lemma ofold_pure {A S} (f : S -> A -> outcome S) (g : S -> A -> S) (Inv : S -> Prop) l s :
  Inv s ->
  (forall s x, Inv s -> In x l -> f s x = Ok (g s x) /\ Inv (g s x)) ->
  ofold f l s = Ok (fold_left g l s) /\ Inv (fold_left g l s).
Proof.
  revert s; induction l as [|x l IH]; intros s Hs H; simpl; [auto|].
  destruct (H s x Hs (or_introl eq_refl)) as [-> Hi]. simpl.
  apply IH; [exact Hi|]. intros s' y Hs' Hy. apply H; [exact Hs'|right; exact Hy].
Qed.

Lemma omap_ok {A B} (f : A -> outcome B) (g : A -> B) l :
  (forall x, In x l -> f x = Ok (g x)) -> omap f l = Ok (map g l).
Proof.
  induction l as [|x l IH]; intros H; simpl; [reflexivity|].
  rewrite (H x (or_introl eq_refl)). simpl. rewrite IH; [reflexivity|].
  intros y Hy. apply H. right; exact Hy.
Qed.

Lemma sslice_ok {A} (l : list A) a b :
  (0 <= a <= b)%Z -> (b <= slen l)%Z ->
  sslice l a b = Ok (firstn (Z.to_nat (b - a)) (skipn (Z.to_nat a) l)).
Proof.
  intros H1 H2. unfold sslice.
  destruct (Z.ltb_spec a 0); [lia|]. destruct (Z.ltb_spec b a); [lia|].
  destruct (Z.ltb_spec (slen l) b); [lia|]. reflexivity.
Qed.

Lemma list_ext {A} (l1 l2 : list A) :
  length l1 = length l2 -> (forall i, i < length l1 -> nth_error l1 i = nth_error l2 i) -> l1 = l2.
Proof.
  revert l2; induction l1 as [|x l1 IH]; intros [|y l2] Hl H; simpl in *; try discriminate; auto.
  assert (Hxy : Some x = Some y) by (apply (H 0); lia). injection Hxy as ->.
  f_equal. apply IH; [lia|]. intros i Hi. apply (H (S i)). lia.
Qed.

Lemma skipn_nth {A} (l : list A) n d : n < length l -> skipn n l = nth n l d :: skipn (S n) l.
Proof.
  revert n; induction l as [|a l IH]; intros n Hn; simpl in Hn; [lia|].
  destruct n as [|n]; [reflexivity|]. cbn [skipn nth]. apply IH. lia.
Qed.
