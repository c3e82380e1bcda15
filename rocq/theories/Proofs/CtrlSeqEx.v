(** Concrete uses of the controller by one client. *)
From Coq Require Import List ZArith Bool.
From Verif Require Import Base.Num Model.Status Model.Finish Model.CtrlLang Model.CtrlCode Model.CtrlSeq
  Spec.CtrlSpec Spec.CtrlSeqSpec.
Import ListNotations.
Local Open Scope list_scope.

Definition ok_answers : answers nat := mkAnswers (Some 1, None) None 0 0 [] [].
Definition no_init : answers nat := mkAnswers (None, Some 5) None 0 0 [] [].
Definition good_turn : progress nat := PTurn (IterRes (Some 2) None None) 0 0.
Definition bad_turn : progress nat := PTurn (IterPanic 7) 0 0.
Definition ok_call (c : dcall) : action nat := ACall c ok_answers.

(** One iteration plus one per element. *)
Definition conf_budget : cconf := mkCConf 1 1 0 false None None.
Definition conf_free : cconf := mkCConf 0 0 0 false None None.
Definition conf_auto : cconf := mkCConf 1 0 2 false None None.

Definition use (cf : cconf) (xs : list (action nat)) : seq_st nat :=
  match acts cf xs seq0 with Some q => q | None => seq0 end.
Lemma use_reachable cf xs : match acts cf xs seq0 with Some _ => true | None => false end = true ->
  seq_reachable cf (use cf xs).
Proof. unfold use. destruct (acts cf xs seq0) as [q|] eqn:E; [|discriminate]. intros _. exists xs. exact E. Qed.

Definition u_running := [ok_call DPush; ok_call DPlay; AProgress good_turn].
Definition u_batch : answers nat := mkAnswers (Some 1, None) None 0 0 [good_turn] [(0%Z, [good_turn]); (0%Z, [])].
Definition u_workflow := [ok_call DPlay; ok_call DPause; ok_call DPlay; AProgress good_turn; ok_call DStop; ACall DBatch u_batch].
Definition u_ready := [ok_call DInit; ok_call DPush; ok_call DPush].

(** The state after a call. *)
Definition after_call (cf : cconf) (c : dcall) (a : answers nat) (q : seq_st nat) : seq_st nat :=
  match call_seq cf c a q with Some (q', _) => q' | None => q end.
