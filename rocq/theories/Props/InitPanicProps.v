(** C121: a panic of the initializer that the client recovers leaves the algorithm usable. It does
    not. *)
From Coq Require Import List ZArith Bool Lia String.
From Verif Require Import Base.Go Base.Num Model.Status Model.Finish Model.CtrlLang Model.CtrlCode Model.InitPanic
  Spec.CtrlSpec Spec.InitPanicSpec Proofs.CtrlTraces Proofs.InitPanicProofs.
Import ListNotations.
Local Open Scope list_scope.

(** C121 refuted for Play and Batch: whatever happens afterwards, in any interleaving, the status
    mutex stays locked and the status is Initializing; who waits for the mutex waits for ever, and
    the client never returns from its next call, unless that call only reads the model. *)
Theorem C121_play_refuted : forall {C : Type} cf css t c cs ms (st st1 st' : state C),
  plain_notifier cf -> reachable cf css st -> (forall m, ~ reads st m t) ->
  play_panics cf t c cs st st1 -> exec cf ms st1 = Some st' ->
  leaked st' MStatus /\ st_value (sh_status (s_sh st')) = Initializing /\
  (forall u i, i = ILock MStatus \/ i = IRLock MStatus -> about_to st1 u i -> about_to st' u i) /\
  (forall d ds, cs = d :: ds -> d <> DModel ->
    returned t (sh_log (s_sh st')) = returned t (sh_log (s_sh st))).
Proof. exact @play_panic_main. Qed.
Print Assumptions C121_play_refuted.

(** Play panics and the client calls Status: it is blocked and so is everybody. *)
Example C121_play_example :
  let st := st_of t_play_panic in let st1 := after_play_panic [DStatus] st in let st' := gone st1 in
  plain_notifier conf1 /\ reachable conf1 [[DPlay; DStatus]] st /\ (forall m, ~ reads st m 0) /\
  play_panics conf1 0 DPlay [DStatus] st st1 /\ exec conf1 (then_go st1) st1 = Some st' /\
  returned 0 (sh_log (s_sh st')) = [] /\ about_to st' 0 (IRLock MStatus) /\ all_blocked conf1 st'.
Proof.
  cbv zeta. split; [exact I|]. split; [apply st_of_reachable; calc|].
  split; [intros []; vm_compute; intros []|].
  split; [split; [left; reflexivity|eexists; split; [split; calc|calc]]|].
  split; [calc|]. split; [calc|]. split; [here|dead].
Qed.

(** Batch panics; the client may still read the model, and is blocked in Stop. *)
Example C121_batch_example :
  let st := st_of t_batch_panic in let st1 := after_play_panic [DModel; DStop] st in let st' := gone st1 in
  plain_notifier conf1 /\ reachable conf1 [[DBatch; DModel; DStop]] st /\ (forall m, ~ reads st m 0) /\
  play_panics conf1 0 DBatch [DModel; DStop] st st1 /\ exec conf1 (then_go st1) st1 = Some st' /\
  returned 0 (sh_log (s_sh st')) = [None] /\ about_to st' 0 (ILock MStatus) /\ all_blocked conf1 st'.
Proof.
  cbv zeta. split; [exact I|]. split; [apply st_of_reachable; calc|].
  split; [intros []; vm_compute; intros []|].
  split; [split; [right; reflexivity|eexists; split; [split; calc|calc]]|].
  split; [calc|]. split; [calc|]. split; [here|dead].
Qed.

(** C121 refuted for Init: no goroutine is ever started again, the status stays Initializing, the
    centroids and the number of iterations stay what they are, whatever the clients call. *)
Theorem C121_init_refuted : forall {C : Type} cf css t cs ms (st st1 st' : state C),
  plain_notifier cf -> reachable cf css st -> others_inert t st ->
  init_panics cf t cs st st1 -> exec cf ms st1 = Some st' ->
  st_value (sh_status (s_sh st')) = Initializing /\
  List.length (s_th st') = List.length (s_th st) /\
  m_centroids (sh_model (s_sh st')) = m_centroids (sh_model (s_sh st)) /\
  m_iter (sh_model (s_sh st')) = m_iter (sh_model (s_sh st)).
Proof. exact @init_panic_main. Qed.
Print Assumptions C121_init_refuted.

(** The calls of a client, whichever they are, and the notification loop are inert. *)
Theorem C121_inert_partial : forall cf, plain_notifier cf ->
  (forall cs, inert (client_code cf cs) = true) /\ inert (notification_loop (cf_notifier cf)) = true.
Proof. exact @inert_calls. Qed.
Print Assumptions C121_inert_partial.

(** Init panics while a second client is about to call Stop and Play. A run is not inert. *)
Example C121_init_example :
  let st := st_of t_init_two in let st1 := after_init_panic [DPlay] st in
  plain_notifier conf1 /\ reachable conf1 [[DInit; DPlay]; [DStop; DPlay]] st /\ others_inert 0 st /\
  init_panics conf1 0 [DPlay] st st1 /\ exec conf1 (then_go st1) st1 = Some (gone st1) /\
  returned 0 (sh_log (s_sh (gone st1))) = [None] /\
  inert (@run_code) = false /\ inert [IIf (CStatus Initializing) [ISpawn KRunner []] []] = false.
Proof.
  cbv zeta. split; [exact I|]. split; [apply st_of_reachable; calc|].
  split.
  { intros u th Hu N. destruct u as [|[|[|u]]]; [destruct Hu; reflexivity|..].
    - vm_compute in N. injection N as <-. split; reflexivity.
    - vm_compute in N. injection N as <-. split; reflexivity.
    - assert (E : List.length (s_th (st_of t_init_two)) = 3) by calc.
      assert (nth_error (s_th (st_of t_init_two)) (S (S (S u))) <> None) as Hn by congruence.
      apply nth_error_Some in Hn. lia. }
  split; [eexists; split; [split; calc|calc]|].
  split; [calc|]. split; [calc|]. split; reflexivity.
Qed.

(** C121 refuted: after the panic of Init, Play returns nil although it has started no run, and
    leaves the status mutex locked: the client is blocked in Status. *)
Theorem C121_nil_refuted :
  exists (st st1 st' : state nat) ms, reachable conf1 [[DInit; DPlay; DStatus]] st /\
  init_panics conf1 0 [DPlay; DStatus] st st1 /\ exec conf1 ms st1 = Some st' /\
  returned 0 (sh_log (s_sh st')) = [None] /\ st_value (sh_status (s_sh st')) = Initializing /\
  (forall u, kind_of st' u <> Some KRunner) /\ leaked st' MStatus /\
  about_to st' 0 (IRLock MStatus) /\ all_blocked conf1 st'.
Proof. exact play_nil. Qed.
Print Assumptions C121_nil_refuted.

(** C121 for Push: impl.Push is called without any mutex, so that a panic of it leaves none locked.
    impl.Init is always called with the status mutex locked and the status Initializing. *)
Theorem C121_push_partial : forall {C : Type} cf css (st : state C), plain_notifier cf -> reachable cf css st ->
  (forall t, about_to st t IImplPush -> forall m, ~ holds st m t /\ ~ reads st m t) /\
  (forall t, about_to st t IImplInit ->
    holds st MStatus t /\ ~ holds st MModel t /\ st_value (sh_status (s_sh st)) = Initializing).
Proof. exact @impl_calls. Qed.
Print Assumptions C121_push_partial.

Example C121_push_example :
  reachable conf1 [[DPush]] (st_of t_push) /\ about_to (st_of t_push) 0 IImplPush /\
  reachable conf1 [[DInit; DPlay; DStatus]] (st_of t_init_panic) /\ about_to (st_of t_init_panic) 0 IImplInit.
Proof.
  split; [apply st_of_reachable; calc|]. split; [here|]. split; [apply st_of_reachable; calc|here].
Qed.
