(** Vocabulary of the statements about every interleaving of restricted sessions. *)
From Coq Require Import List ZArith Bool.
From Verif Require Import Base.Go Model.Status Model.Finish Model.CtrlLang Model.CtrlCode Spec.CtrlSpec.
Import ListNotations.
Local Open Scope list_scope.

Section Spec.
  Context {C : Type}.
  Variable cf : cconf.
  (** What the implementation may answer. *)
  Variable allowed : oracle C -> Prop.

  Definition allowed_move (m : move C) : Prop := match m with Solo _ o => allowed o | Comm _ _ => True end.
  (** [st] is reached by some interleaving, with allowed answers of the implementation. *)
  Definition reached (css : list (list dcall)) (st : state C) : Prop :=
    exists ms, Forall allowed_move ms /\ exec cf ms (start (map (client_code cf) css)) = Some st.

  (** The scheduler can lead the algorithm to a state of [P], whatever the implementation answers. *)
  Inductive leads (P : state C -> Prop) : state C -> Prop :=
  | leads_now st : P st -> leads P st
  | leads_solo t st : (forall o, allowed o -> exists st', do_move cf (Solo t o) st = Some st') ->
      (forall o st', allowed o -> do_move cf (Solo t o) st = Some st' -> leads P st') -> leads P st
  | leads_comm t r st st' : do_move cf (Comm t r) st = Some st' -> leads P st' -> leads P st.

  (** Client [t] is about to return from a call. *)
  Definition returning (t : nat) (st : state C) : Prop := exists b, about_to st t (IReturn b).
End Spec.

(** A configuration whose runs end only when they are stopped: no iteration budget, no finishing condition, no timeout;
    without a notifier, and without runs started by Push. *)
Definition endless (cf : cconf) : Prop :=
  cf_iter cf = 0%Z /\ cf_ipd cf = 0%Z /\ cf_fin cf = None /\ cf_timeout cf = false /\ (cf_dpi cf <= 0)%Z /\ cf_notifier cf = None.
(** The same with a notifier that reads the centroids or the figures at each notification. *)
Definition endless_listened (cf : cconf) : Prop :=
  cf_iter cf = 0%Z /\ cf_ipd cf = 0%Z /\ cf_fin cf = None /\ cf_timeout cf = false /\ (cf_dpi cf <= 0)%Z /\ cf_notifier cf = Some (call_code cf DModel).
(** The same with runs started by Push. *)
Definition endless_started (cf : cconf) : Prop :=
  cf_iter cf = 0%Z /\ cf_ipd cf = 0%Z /\ cf_fin cf = None /\ cf_timeout cf = false /\ cf_notifier cf = None.
(** A configuration whose runs may end by themselves: it has an iteration budget or a finishing condition. *)
Definition budgeted (cf : cconf) : Prop :=
  (cf_iter cf <> 0%Z \/ cf_ipd cf <> 0%Z \/ cf_fin cf <> None) /\ cf_timeout cf = false /\ (cf_dpi cf <= 0)%Z /\ cf_notifier cf = None.
(** Init succeeds; Iterate may fail or panic, Push may fail. *)
Definition initializing {C : Type} (o : oracle C) : Prop := snd (o_init o) = None.
(** Init and Iterate succeed; Push may fail. *)
Definition obliging {C : Type} (o : oracle C) : Prop := snd (o_init o) = None /\ exists c f, o_iter o = IterRes c f None.
(** Init succeeds; Iterate fails or panics. *)
Definition failing {C : Type} (o : oracle C) : Prop := snd (o_init o) = None /\ forall c f, o_iter o <> IterRes c f None.

(** The controller as its documentation has it, for a run that ends only when it is stopped: the status after a call and the
    error returned; the error of Push is that of the implementation, the accessors return none. *)
Definition answer (s : clust_status) (c : dcall) : clust_status * option (option algo_error) :=
  match c with
  | DInit => match s with Created | Finished => (Ready, Some None) | _ => (s, Some (Some ErrAlreadyCreated)) end
  | DPlay => match s with Running => (s, Some (Some ErrRunning)) | _ => (Running, Some None) end
  | DPause => match s with Running => (Idle, Some None) | _ => (s, Some (Some ErrNotRunning)) end
  | DStop => match s with Created | Finished => (s, Some (Some ErrNotAlive)) | _ => (Finished, Some None) end
  | DWait _ _ =>
      match s with
      | Running => (s, Some (Some ErrNeverFinish))
      | Idle => (s, Some (Some ErrIdle))
      | Ready | Finished => (s, Some None)
      | _ => (s, Some (Some ErrNotRunning))
      end
  | DBatch => (Running, Some (Some ErrNeverFinish))
  | DPush | DStatus | DModel => (s, None)
  end.
Definition after (cs : list dcall) : clust_status * option (option algo_error) := fold_left (fun x c => answer (fst x) c) cs (Created, None).
(** A paused run has been stopped: its goroutine may still be ending. *)
Definition stopped_idle (before : list dcall) : Prop := exists b r, before = b ++ DStop :: r /\ fst (after b) = Idle.
(** The sessions in question: a Wait has no condition and no deadline; once a paused run has been stopped there is no Init, Play,
    Push or Batch; there is no Batch while a run is paused, for it would stop it. *)
Definition calm (before : list dcall) (c : dcall) : Prop :=
  match c with
  | DInit | DPlay | DPush => ~ stopped_idle before
  | DBatch => ~ stopped_idle before /\ fst (after before) <> Idle
  | DWait f d => f = None /\ (d <= 0)%Z
  | DPause | DStop | DStatus | DModel => True
  end.
Definition calm_session (cs : list dcall) : Prop := forall before c rest, cs = before ++ c :: rest -> calm before c.
(** No Push is called between Init and Play. *)
Definition no_push_ready (cs : list dcall) : Prop := forall before rest, cs = before ++ DPush :: rest -> fst (after before) <> Ready.

(** The sessions with one run: after Play or Batch, only Wait without condition nor deadline and accessors. *)
Definition once_session (cs : list dcall) : Prop :=
  forall before c rest, cs = before ++ c :: rest ->
  match c with
  | DWait f d => f = None /\ (d <= 0)%Z
  | DStatus | DModel => True
  | DInit | DPlay | DPause | DStop | DPush | DBatch => ~ In DPlay before /\ ~ In DBatch before
  end.
