(** The sessions of an implementation under the controller as executions of the code. *)
From Coq Require Import List ZArith Bool.
From Verif Require Import Base.Go Base.Num Model.Status Model.Finish Model.CtrlLang Model.CtrlCode Model.CtrlSeq Model.System Spec.CtrlSpec Spec.CtrlSeqSpec Spec.SimSpec
  Proofs.SystemProofs Proofs.SimMain.
Import ListNotations.
Local Open Scope list_scope.

Lemma session_main : forall (E C I D : Type) cf (im : implem E C I D) xs i0 q i, cf_notifier cf = None ->
  sys_acts cf im xs (seq0, i0) = Some (q, i) -> exists cs st, all_returned cf cs st /\
  sh_status (s_sh st) = q_status q /\ sh_model (s_sh st) = q_model q /\ unnumbered (sh_log (s_sh st)) = q_log q.
Proof.
  intros E C I D cf im xs i0 q i Hn H. destruct (sys_reachable cf im xs i0 (q, i) H) as [ys Hy]. cbn [fst] in Hy.
  destruct (sim_main cf Hn ys q Hy) as (st & A & E1 & E2 & E3 & _). exists (calls_of ys), st. auto.
Qed.
