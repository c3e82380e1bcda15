(** The two models of the controller: what happens at call granularity is an execution of the code, so
    the witnesses found there are behaviours of the goroutines, and no client is bound to block. *)
From Coq Require Import List ZArith Bool.
From Verif Require Import Base.Num Model.Status Model.Finish Model.CtrlLang Model.CtrlCode Model.CtrlSeq Model.System
  Spec.CtrlSpec Spec.CtrlSeqSpec Spec.SimSpec Proofs.CtrlSeqEx Proofs.SimMain Proofs.SimSystem.
Import ListNotations.
Local Open Scope list_scope.

Theorem C101_executed : forall (C : Type) (cf : cconf), cf_notifier cf = None -> forall (xs : list (action C)) q, acts cf xs seq0 = Some q ->
  exists st, all_returned cf (calls_of xs) st /\
  sh_status (s_sh st) = q_status q /\ sh_model (s_sh st) = q_model q /\ unnumbered (sh_log (s_sh st)) = q_log q /\
  (q_locked q = true -> rw_holder (sh_lock_s (s_sh st)) = HLeaked).
Proof. exact @sim_main. Qed.
Print Assumptions C101_executed.

Theorem C101_session : forall (E C I D : Type) cf (im : implem E C I D) xs i0 q i, cf_notifier cf = None ->
  sys_acts cf im xs (seq0, i0) = Some (q, i) -> exists cs st, all_returned cf cs st /\
  sh_status (s_sh st) = q_status q /\ sh_model (s_sh st) = q_model q /\ unnumbered (sh_log (s_sh st)) = q_log q.
Proof. exact session_main. Qed.
Print Assumptions C101_session.

(** What holds at the end of every execution of one client holds at call granularity. *)
Theorem C101_transfer : forall (C : Type) (cf : cconf), cf_notifier cf = None -> forall P : oc_status -> model_st C -> list (event C) -> Prop,
  (forall cs st, all_returned cf cs st -> P (sh_status (s_sh st)) (sh_model (s_sh st)) (unnumbered (sh_log (s_sh st)))) ->
  forall xs q, acts cf xs seq0 = Some q -> P (q_status q) (q_model q) (q_log q).
Proof. exact @transfer_main. Qed.
Print Assumptions C101_transfer.

(** Init fails inside Play: the mutex stays locked; and a pause, a stop and a batch. *)
Example C101_case :
  match acts conf_free [ACall DPlay no_init; ok_call DModel] seq0 with
  | Some q => q_locked q = true /\ q_status q = new_status_error (ErrImpl 5)
  | None => False
  end /\
  match acts conf_budget u_workflow seq0 with
  | Some q => q_status q = new_status Finished /\ length (q_log q) = 20
  | None => False
  end /\ calls_of u_workflow = [DPlay; DPause; DPlay; DStop; DBatch].
Proof. vm_compute. repeat split. Qed.

Theorem C102_returns : forall (C : Type) (cf : cconf), cf_notifier cf = None -> forall (xs : list (action C)) q cs, acts cf xs seq0 = Some q ->
  q_locked q = false -> Forall bounded_wait cs -> exists st : state C, all_returned cf (calls_of xs ++ cs) st.
Proof. exact @returns_main. Qed.
Print Assumptions C102_returns.

(** After a pause, with a run goroutine waiting. *)
Example C102_case :
  match acts conf_free [ok_call DPlay; AProgress good_turn; ok_call DPause] seq0 with
  | Some q => q_locked q = false /\ q_run q = AtWait
  | None => False
  end /\ Forall bounded_wait [DPlay; DWait None 0; DBatch; DWait (Some (FStatus [Created] false)) 5; DPush].
Proof. split; [vm_compute; split; reflexivity|]. repeat constructor. Qed.
