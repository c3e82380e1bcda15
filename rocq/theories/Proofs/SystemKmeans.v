(** k-means under the controller. *)
From Coq Require Import List ZArith Lia Bool.
From Verif Require Import Base.Go Base.Num Model.Clustering Model.Par Model.Buffer Model.Kmeans Model.Status Model.Finish
  Model.CtrlLang Model.CtrlCode Model.CtrlSeq Model.System
  Spec.ClusterSpec Spec.BufferSpec Spec.KmeansSpec Spec.CtrlSpec Spec.CtrlSeqSpec Spec.SystemSpec
  Proofs.GoLemmas Proofs.NumLaws Proofs.NearestProofs Proofs.ReduceMain Proofs.KmeansProofs Proofs.Represent Proofs.BufferProofs
  Proofs.CtrlSeqProofs Proofs.CtrlSeqMain Proofs.SystemProofs.
Import ListNotations.
Local Open Scope Z_scope.

Lemma all_some_map {E} (l : list E) : all_some (map Some l) = Some l.
Proof. induction l as [|x l IH]; [reflexivity|]. cbn. rewrite IH. reflexivity. Qed.

Lemma kept_averages {E F} (Sp : Space E F) M P : kept Sp M P -> averages Sp M P (fun a _ => P a).
Proof.
  intros [H1 H2]. split.
  - intros x Hx. apply H1. exact Hx.
  - auto.
  - intros a xs b ys _ _ Hx Hy Ha Hb Hle. apply H2; auto; destruct xs, ys; try contradiction; cbn [length]; lia.
Qed.

Section Use.
Context {E F : Type} (N : Num F) (good : F -> Prop) (HN : NumOrd N good) (Sp : Space E F).
Context {D : Type} (initializer : D -> list E -> option (option (list E) * option nat)) (par : option Z).
Context (cf : cconf) (size : Z) (k : nat) (P : E -> Prop) (M : Z) (elemts : list E).
Context (Hpar : valid_par par) (Hk : (0 < k)%nat) (HP : kept Sp M P) (Hinit : initializes initializer k P).
Notation im := (kmeans_implem N Sp initializer par).

Lemma step_kept c data : c <> [] -> Forall P c -> Forall P data -> Z.of_nat (length data) <= M ->
  exists c', strategy_iterate N Sp par c data = Ok (map Some c') /\ length c' = length c /\ Forall P c'.
Proof.
  intros Hc HC HD HL.
  destruct (strategy_average N good HN Sp M P _ (kept_averages Sp M P HP) par c data Hpar Hc HD HL) as (c' & H1 & H2 & H3).
  exists c'. split; [exact H1|]. split; [exact H2|]. apply Forall_forall. intros x Hx. apply In_nth_error in Hx. destruct Hx as [i Hi].
  assert (Hlt : (i < length c)%nat) by (rewrite <- H2; apply nth_error_Some; congruence).
  destruct (nth_error c i) as [ci|] eqn:Hci; [|apply nth_error_None in Hci; lia].
  destruct (H3 i ci x Hci Hi) as [[_ ->]|[_ H4]]; [|exact H4]. rewrite Forall_forall in HC. apply HC. apply (nth_error_In _ i Hci).
Qed.

(** The buffer holds the elements given and pushed. *)
Definition buffer_ok (n : Z) (b : buffer E) : Prop :=
  Z.of_nat (length elemts) + n <= M ->
  exists all, brepr size all b /\ Forall P all /\ Forall P (bpipe b) /\ slen all + slen (bpipe b) = Z.of_nat (length elemts) + n.

Definition cent_ok (n : Z) (c : option (list E)) : Prop :=
  Z.of_nat (length elemts) + n <= M -> forall c', c = Some c' -> Forall P c'.
Definition cent_k (c : option (list E)) : Prop := exists c', c = Some c' /\ length c' = k.

Definition KD (log : list (event (list E))) (c : option (list E)) (b : buffer E) : Prop :=
  buffer_ok (total_pushed log) b /\ cent_ok (total_pushed log) c.
Definition KA (log : list (event (list E))) (c : option (list E)) (b : buffer E) : Prop :=
  KD log c b /\ (Z.of_nat (length elemts) + total_pushed log <= M -> cent_k c).

Lemma pushed_one (log : list (event (list E))) : total_pushed (EvPushed :: log) = total_pushed log + 1.
Proof. unfold total_pushed. cbn [filter length]. lia. Qed.
Lemma pushed_other e (log : list (event (list E))) : match e with EvPushed => False | _ => True end -> total_pushed (e :: log) = total_pushed log.
Proof. destruct e; intros []; reflexivity. Qed.

Lemma brepr_data all b : brepr size all b -> Forall P all -> Forall P (bdata b) /\ (length (bdata b) <= length all)%nat.
Proof.
  intros Hb HF. destruct (repr_data size all (bdata b) (bstrategy b) Hb) as [H1 H2].
  destruct (Z_le_gt_dec size 0) as [Hs|Hs].
  - rewrite (H1 Hs). auto.
  - destruct (H2 ltac:(lia)) as [(p & Hp & Hrot) Hlen]. split; [|lia]. apply Forall_forall. intros x Hx.
    assert (Hin : In x (last_n (Z.to_nat size) all)).
    { rewrite <- Hrot. apply in_or_app. rewrite <- (firstn_skipn p (bdata b)) in Hx. apply in_app_or in Hx. tauto. }
    rewrite Forall_forall in HF. apply HF. unfold last_n in Hin. rewrite <- (firstn_skipn (length all - Z.to_nat size) all). apply in_or_app. right. exact Hin.
Qed.

Lemma iterate_ok n b c : buffer_ok n b -> cent_ok n (Some c) -> length c = k -> Z.of_nat (length elemts) + n <= M -> forall d,
  exists b' c', im_iterate im d b (Some c) = (b', IterRes (Some c') None None) /\ buffer_ok n b' /\ length c' = k /\ Forall P c' /\
    strategy_iterate N Sp par c (bdata b) = Ok (map Some c').
Proof.
  intros Hb Hc Hl HM d. destruct (Hb HM) as (all & B1 & B2 & B3 & B4). destruct (brepr_data all b B1 B2) as [B5 B6].
  destruct (step_kept c (bdata b)) as (c' & H1 & H2 & H3); auto.
  - intros ->. cbn in Hl. lia.
  - unfold slen in *. lia.
  - cbn [im_iterate kmeans_implem]. rewrite H1. destruct (buffer_apply_repr size all b B1) as (b' & A1 & A2 & A3). rewrite A1, all_some_map.
    exists b', c'. split; [reflexivity|]. split; [|split; [congruence|auto]]. intros _. exists (all ++ bpipe b). rewrite A3. split; [exact A2|].
    split; [apply Forall_app; auto|]. split; [constructor|]. unfold slen in *. rewrite app_length. cbn [length]. lia.
Qed.

Lemma kmeans_preserved : preserved im P KA KD.
Proof.
  split.
  - intros e log c i He. unfold KA, KD. rewrite (pushed_other e log) by (destruct e; [exact I| |exact I| | |exact I]; destruct He). auto.
  - intros log c i [H _]. exact H.
  - intros d log c i i' r [[Hb Hc] Hk'] Hit.
    destruct (Z_le_gt_dec (Z.of_nat (length elemts) + total_pushed log) M) as [HM|HM].
    + destruct (Hk' HM) as (c0 & -> & Hl). destruct (iterate_ok _ _ _ Hb Hc Hl HM d) as (b' & c' & H1 & H2 & H3 & H4 & _).
      rewrite H1 in Hit. injection Hit as <- <-. unfold KA, KD. rewrite pushed_other by exact I.
      split; [split; [exact H2|]|intros _; exists c'; auto]. intros _ c'' [= <-]. exact H4.
    + assert (V : forall c'' i'', KA log c'' i'' /\ KD log c'' i'').
      { intros c'' i''. assert (V' : KD log c'' i'') by (split; intros X; exfalso; lia). split; [split; [exact V'|intros X; exfalso; lia]|exact V']. }
      destruct r as [[c'|] f [n|]|n]; apply V.
  - intros d log c i i' c' e [Hb Hc] Hi. cbn [im_init kmeans_implem] in Hi.
    destruct (buffer_apply i) as [b1|] eqn:A; [|discriminate].
    destruct (initializer d (bdata b1)) as [r|] eqn:Q; [|discriminate]. injection Hi as <- ->.
    assert (Hgood : Z.of_nat (length elemts) + total_pushed log <= M -> exists all, brepr size all b1 /\ Forall P all /\ bpipe b1 = [] /\ slen all = Z.of_nat (length elemts) + total_pushed log).
    { intros HM. destruct (Hb HM) as (all & B1 & B2 & B3 & B4). destruct (buffer_apply_repr size all i B1) as (b' & A1 & A2 & A3).
      rewrite A in A1. injection A1 as <-. exists (all ++ bpipe i). split; [exact A2|]. split; [apply Forall_app; auto|]. split; [exact A3|].
      unfold slen in *. rewrite app_length. lia. }
    assert (HD : KD log c' b1).
    { split.
      - intros HM. destruct (Hgood HM) as (all & B1 & B2 & B3 & B4). exists all. rewrite B3. split; [exact B1|]. split; [exact B2|]. split; [constructor|].
        unfold slen in *. cbn [length]. lia.
      - intros HM. destruct (Hgood HM) as (all & B1 & B2 & _). destruct (brepr_data all b1 B1 B2) as [B5 _].
        apply (Hinit _ _ _ _ Q B5). }
    destruct e as [n|]; [exact HD|]. split; [exact HD|]. intros HM. destruct (Hgood HM) as (all & B1 & B2 & _).
    destruct (brepr_data all b1 B1 B2) as [B5 _]. destruct (Hinit _ _ _ _ Q B5) as [_ Hk']. exact (Hk' eq_refl).
  - intros x log c i i' err Hx. cbn [im_push kmeans_implem].
    assert (Hp : forall alive b', buffer_push i x alive = Some (Ok b') -> buffer_ok (total_pushed log) i -> buffer_ok (total_pushed log + 1) b').
    { intros alive b' Hpu Hb HM. destruct (Hb ltac:(lia)) as (all & B1 & B2 & B3 & B4). unfold buffer_push in Hpu. destruct alive.
      - destruct (slen (bpipe i) <? pipe_size)%Z; [|discriminate]. injection Hpu as <-. exists all. cbn [bpipe]. split; [exact B1|]. split; [exact B2|].
        split; [apply Forall_app; auto|]. unfold slen in *. rewrite app_length. cbn [length]. lia.
      - injection Hpu as Hpu. destruct (store_repr size all i x B1) as (b1 & S1 & S2 & S3). rewrite S1 in Hpu. injection Hpu as <-.
        exists (all ++ [x]). rewrite S3. split; [exact S2|]. split; [apply Forall_app; auto|]. split; [exact B3|]. unfold slen in *. rewrite app_length. cbn [length]. lia. }
    split.
    + intros [[Hb Hc] Hk'] Hq. destruct (buffer_push i x true) as [[b'|]|] eqn:Hpu; try discriminate. injection Hq as <- <-. unfold KA, KD. rewrite pushed_one.
      split; [split; [apply (Hp true); assumption|intros HM; apply Hc; lia]|intros HM; apply Hk'; lia].
    + intros [Hb Hc] Hq. destruct (buffer_push i x false) as [[b'|]|] eqn:Hpu; try discriminate. injection Hq as <- <-. unfold KD. rewrite pushed_one.
      split; [apply (Hp false); assumption|intros HM; apply Hc; lia].
Qed.

Lemma kmeans_use xs b0 q b : new_data_buffer elemts size = Ok b0 -> Forall P elemts -> pushes_only P xs ->
  sys_acts cf im xs (seq0, b0) = Some (q, b) -> Z.of_nat (length elemts) + total_pushed (q_log q) <= M ->
  Forall P (bdata b ++ bpipe b) /\
  (size <= 0 -> Z.of_nat (length (bdata b ++ bpipe b)) = Z.of_nat (length elemts) + total_pushed (q_log q)) /\
  (0 < size -> Z.of_nat (length (bdata b)) <= size) /\
  (forall c, m_centroids (q_model q) = Some c -> Forall P c) /\
  (st_alive (q_status q) = true ->
     (exists c, m_centroids (q_model q) = Some c /\ length c = k) /\
     forall d, exists b' c', im_iterate im d b (m_centroids (q_model q)) = (b', IterRes (Some c') None None)).
Proof.
  intros Hb0 HE Hx Hs HM. destruct (new_data_buffer_repr size elemts) as (b0' & Hn & Hr & Hp). rewrite Hb0 in Hn. injection Hn as <-.
  assert (H0 : KD [] None b0).
  { split; [|intros _ c' X; discriminate]. intros _. exists elemts. rewrite Hp. split; [exact Hr|]. split; [exact HE|]. split; [constructor|]. unfold slen, total_pushed. cbn [filter length]. lia. }
  assert (Hok : Forall (action_ok P) xs).
  { apply Forall_forall. intros [c now|p] Hin; [|exact I]. destruct c; try exact I. exact (Hx _ _ _ Hin). }
  pose proof (sys_invariant cf im P KA KD kmeans_preserved xs b0 (q, b) H0 Hok Hs) as H. unfold holds_in in H. cbn [fst snd] in H.
  assert (HD : KD (q_log q) (m_centroids (q_model q)) b) by (destruct (st_alive (q_status q)); [apply H|exact H]).
  destruct HD as [Hbuf Hcen]. destruct (Hbuf HM) as (all & B1 & B2 & B3 & B4). destruct (brepr_data all b B1 B2) as [B5 B6].
  destruct (repr_data size all (bdata b) (bstrategy b) B1) as [R1 R2].
  split; [apply Forall_app; auto|]. split; [intros Hsz; rewrite app_length, (R1 Hsz); unfold slen in *; lia|].
  split; [intros Hsz; destruct (R2 Hsz) as [_ R3]; lia|]. split; [apply (Hcen HM)|].
  intros A. rewrite A in H. destruct H as [_ Hk']. destruct (Hk' HM) as (c & Hc & Hl). split; [exists c; auto|].
  intros d. rewrite Hc. rewrite Hc in Hcen. destruct (iterate_ok _ _ _ Hbuf Hcen Hl HM d) as (b' & c' & Hi & _). exists b', c'. exact Hi.
Qed.

Lemma kmeans_data_bound xs b0 q b : new_data_buffer elemts size = Ok b0 -> Forall P elemts -> pushes_only P xs ->
  sys_acts cf im xs (seq0, b0) = Some (q, b) -> Z.of_nat (length elemts) + total_pushed (q_log q) <= M ->
  Z.of_nat (length (bdata b)) <= Z.of_nat (length elemts) + total_pushed (q_log q).
Proof.
  intros Hb0 HE Hx Hs HM. destruct (new_data_buffer_repr size elemts) as (b0' & Hn & Hr & Hp). rewrite Hb0 in Hn. injection Hn as <-.
  assert (H0 : KD [] None b0).
  { split; [|intros _ c' X; discriminate]. intros _. exists elemts. rewrite Hp. split; [exact Hr|]. split; [exact HE|]. split; [constructor|]. unfold slen, total_pushed. cbn [filter length]. lia. }
  assert (Hok : Forall (action_ok P) xs).
  { apply Forall_forall. intros [c now|p] Hin; [|exact I]. destruct c; try exact I. exact (Hx _ _ _ Hin). }
  pose proof (sys_invariant cf im P KA KD kmeans_preserved xs b0 (q, b) H0 Hok Hs) as H. unfold holds_in in H. cbn [fst snd] in H.
  assert (HD : KD (q_log q) (m_centroids (q_model q)) b) by (destruct (st_alive (q_status q)); [apply H|exact H]).
  destruct HD as [Hbuf _]. destruct (Hbuf HM) as (all & B1 & B2 & B3 & B4). destruct (brepr_data all b B1 B2) as [_ B6].
  unfold slen in *. lia.
Qed.
End Use.
