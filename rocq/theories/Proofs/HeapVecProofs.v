(** The vectors made by Copy and Combine are new arrays (C107). *)
From Coq Require Import List ZArith Bool Arith Lia.
From Verif Require Import Base.Go Base.Num Model.Clustering Model.Euclid Model.HeapVec Proofs.GoLemmas.
Import ListNotations.

Section HV.
Context {F : Type} (N : Num F).

Lemma vec_old (m : @vmem F) l a : (a < length m)%nat -> vec (m ++ [l]) a = vec m a.
Proof. intros H. unfold vec. apply app_nth1. exact H. Qed.
Lemma vec_new (m : @vmem F) l : vec (m ++ [l]) (length m) = l.
Proof. unfold vec. rewrite app_nth2 by lia. rewrite Nat.sub_diag. reflexivity. Qed.
Lemma upd_last (m : @vmem F) l l' : upd (m ++ [l]) (length m) l' = m ++ [l'].
Proof. induction m as [|x m IH]; cbn [app length upd]; [reflexivity|]. rewrite IH. reflexivity. Qed.
Lemma upd_mid {A} (l : list A) x y l' : upd (l ++ x :: l') (length l) y = l ++ y :: l'.
Proof. induction l as [|z l IH]; cbn [app length upd]; [reflexivity|]. rewrite IH. reflexivity. Qed.

(** One pass of a loop that fills a new array: entries before [i] are done. *)
Lemma fill_step (m : @vmem F) done z rest x : vset (m ++ [done ++ z :: rest]) (length m) (length done) x = Ok (m ++ [(done ++ [x]) ++ rest]).
Proof.
  unfold vset. rewrite vec_new, app_length. cbn [length]. replace (length done <? length done + S (length rest))%nat with true by (symmetry; apply Nat.ltb_lt; lia).
  rewrite upd_last, upd_mid, <- app_assoc. reflexivity.
Qed.

Lemma combine_fill (m : @vmem F) a b w1 w2 t : (a < length m)%nat -> (b < length m)%nat ->
  forall p1 p2 pre1 pre2 done, vec m a = pre1 ++ p1 -> vec m b = pre2 ++ p2 -> length pre1 = length done -> length pre2 = length done ->
  ofold (fun m' i => let* x := vget m' a i in let* y := vget m' b i in vset m' (length m) i (ndiv N (nadd N (nmul N x w1) (nmul N y w2)) t))
    (seq (length done) (length p1)) (m ++ [done ++ repeat (nof N 0) (length p1)]) =
  let* r := combine_loop N p1 w1 p2 w2 t in Ok (m ++ [done ++ r]).
Proof.
  intros Ha Hb p1. induction p1 as [|x p1 IH]; intros p2 pre1 pre2 done E1 E2 L1 L2; [reflexivity|]. cbn [length repeat seq ofold combine_loop].
  unfold vget at 1. rewrite vec_old, E1 by exact Ha. rewrite nth_error_app2 by lia. rewrite L1, Nat.sub_diag. cbn [nth_error obind].
  unfold vget at 1. rewrite vec_old, E2 by exact Hb. rewrite nth_error_app2 by lia. rewrite L2, Nat.sub_diag.
  destruct p2 as [|y p2]; [reflexivity|]. cbn [nth_error obind]. rewrite fill_step. cbn [obind].
  set (v := ndiv N _ t). specialize (IH p2 (pre1 ++ [x]) (pre2 ++ [y]) (done ++ [v])). rewrite !app_length in IH. cbn [length] in IH.
  rewrite !Nat.add_1_r in IH. rewrite IH; [|rewrite <- app_assoc; exact E1|rewrite <- app_assoc; exact E2|lia|lia].
  destruct (combine_loop N p1 w1 p2 w2 t) as [r|]; [|reflexivity]. cbn [obind]. rewrite <- app_assoc. reflexivity.
Qed.

Lemma hcombine_new : forall (m : @vmem F) a n b k, (a < length m)%nat -> (b < length m)%nat ->
  hpoint_combine N m a n b k = match point_combine N (vec m a) n (vec m b) k with Ok v => Ok (m ++ [v], length m) | Panic => Panic end.
Proof.
  intros m a n b k Ha Hb. unfold hpoint_combine, vmake, point_combine.
  pose proof (combine_fill m a b (nof N n) (nof N k) (nadd N (nof N n) (nof N k)) Ha Hb (vec m a) (vec m b) [] [] [] eq_refl eq_refl eq_refl eq_refl) as H.
  cbn [length app] in H. rewrite H. destruct (combine_loop _ _ _ _ _ _) as [v|]; reflexivity.
Qed.

Lemma copy_fill (m : @vmem F) a : (a < length m)%nat -> forall p pre done, vec m a = pre ++ p -> length pre = length done ->
  ofold (fun m' i => let* x := vget m' a i in vset m' (length m) i x) (seq (length done) (length p)) (m ++ [done ++ repeat (nof N 0) (length p)]) = Ok (m ++ [done ++ p]).
Proof.
  intros Ha p. induction p as [|x p IH]; intros pre done E1 L1; [reflexivity|]. cbn [length repeat seq ofold].
  unfold vget at 1. rewrite vec_old, E1 by exact Ha. rewrite nth_error_app2 by lia. rewrite L1, Nat.sub_diag. cbn [nth_error obind]. rewrite fill_step. cbn [obind].
  specialize (IH (pre ++ [x]) (done ++ [x])). rewrite !app_length in IH. cbn [length] in IH. rewrite !Nat.add_1_r in IH.
  rewrite IH; [rewrite <- app_assoc; reflexivity|rewrite <- app_assoc; exact E1|lia].
Qed.
Lemma hcopy_new : forall (m : @vmem F) a, (a < length m)%nat -> hpoint_copy N m a = Ok (m ++ [vec m a], length m).
Proof.
  intros m a Ha. unfold hpoint_copy, vmake, vcopy. rewrite vec_new, vec_old by exact Ha. rewrite repeat_length, Nat.min_id.
  pose proof (copy_fill m a Ha (vec m a) [] [] eq_refl eq_refl) as H. cbn [length app] in H. rewrite H. reflexivity.
Qed.

Lemma hseries_new : forall (s : list nat) (m : @vmem F), Forall (fun a => (a < length m)%nat) s ->
  hseries_copy N m s = Ok (m ++ map (vec m) s, seq (length m) (length s)).
Proof.
  induction s as [|a s IH]; intros m H; cbn [hseries_copy map length seq]; [rewrite app_nil_r; reflexivity|]. inversion H as [|? ? Ha Hs]; subst.
  rewrite hcopy_new by exact Ha. cbn [obind fst snd]. rewrite IH.
  - cbn [obind fst snd]. rewrite app_length, <- app_assoc. cbn [length app]. rewrite Nat.add_1_r.
    rewrite (map_ext_in (vec (m ++ [vec m a])) (vec m)); [reflexivity|]. intros b Hb. rewrite Forall_forall in Hs. apply vec_old, Hs, Hb.
  - rewrite app_length. cbn [length]. eapply Forall_impl; [|exact Hs]. cbn. intros; lia.
Qed.
End HV.
