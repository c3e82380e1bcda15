(** C26-C29: the data buffer. *)
From Coq Require Import List ZArith Bool.
From Verif Require Import Base.Go Model.Buffer Spec.BufferSpec Proofs.BufferProofs.
Import ListNotations.

Theorem C26_unbounded : forall E (initial : list E) size rounds last b0,
  (size <= 0)%Z -> Forall no_apply rounds -> no_apply last ->
  new_data_buffer initial size = Ok b0 ->
  forall b, bsteps b0 (history rounds last) b ->
  bdata b = stored initial rounds last /\ bpipe b = async_pushed last.
Proof. exact @unbounded_main. Qed.
Print Assumptions C26_unbounded.

(** Histories with at most 2000 asynchronous pushes per round do run, without panic. *)
Theorem C26_histories_run : forall E (initial : list E) size rounds last,
  Forall (fun r => no_apply r /\ (Z.of_nat (length (async_pushed r)) <= 2000)%Z) (last :: rounds) ->
  exists b0 b, new_data_buffer initial size = Ok b0 /\ bsteps b0 (history rounds last) b.
Proof. exact @history_runs. Qed.
Print Assumptions C26_histories_run.

(** The receiving loop of Apply may interleave with asynchronous pushes of other goroutines. *)
Theorem C26_concurrent : forall E (initial : list E) size b0 acts b,
  (size <= 0)%Z -> new_data_buffer initial size = Ok b0 -> bacts b0 acts b ->
  (forall x, ~ In (AStore x) acts) ->
  bdata b ++ bpipe b = initial ++ sent acts /\ exists n, bdata b = initial ++ firstn n (sent acts).
Proof. exact @fine_grain_main. Qed.
Print Assumptions C26_concurrent.

Example C26_case : exists b0 b,
  new_data_buffer [1; 2]%Z 0 = Ok b0 /\
  bsteps b0 (history [[PushAsync 3%Z; PushSync 4%Z; PushAsync 5%Z]] [PushSync 6%Z; PushAsync 7%Z]) b /\
  bdata b = [1; 2; 4; 3; 5; 6]%Z /\ bpipe b = [7%Z] /\
  stored [1; 2]%Z [[PushAsync 3%Z; PushSync 4%Z; PushAsync 5%Z]] [PushSync 6%Z; PushAsync 7%Z] = bdata b.
Proof.
  do 2 eexists. split; [reflexivity|]. split.
  { cbn. repeat (econstructor; [reflexivity|]). constructor. }
  repeat split.
Qed.

Theorem C27_frame : forall E (initial : list E) size rounds last b0,
  (0 < size)%Z -> Forall no_apply rounds -> no_apply last ->
  new_data_buffer initial size = Ok b0 ->
  forall b, bsteps b0 (history rounds last) b ->
  rotation (bdata b) (last_n (Z.to_nat size) (stored initial rounds last)) /\
  Z.of_nat (length (bdata b)) = Z.min size (Z.of_nat (length (stored initial rounds last))) /\
  (forall x b', bstep b (PushSync x) = Some (Ok b') ->
     (Z.of_nat (length (bdata b)) = size ->
      rotation (bdata b') (tl (last_n (Z.to_nat size) (stored initial rounds last)) ++ [x])) /\
     ((Z.of_nat (length (bdata b)) < size)%Z -> bdata b' = bdata b ++ [x])).
Proof. exact @frame_main. Qed.
Print Assumptions C27_frame.

Example C27_case : exists b0 b,
  new_data_buffer [1; 2; 3; 4]%Z 3 = Ok b0 /\
  bsteps b0 (history [[PushAsync 5%Z; PushSync 6%Z]] [PushSync 7%Z; PushSync 8%Z]) b /\
  bdata b = [8; 5; 7]%Z /\ last_n 3 (stored [1; 2; 3; 4]%Z [[PushAsync 5%Z; PushSync 6%Z]] [PushSync 7%Z; PushSync 8%Z]) = [5; 7; 8]%Z.
Proof.
  do 2 eexists. split; [reflexivity|]. split.
  { cbn. repeat (econstructor; [reflexivity|]). constructor. }
  repeat split.
Qed.

Theorem C28_staging : forall E (initial : list E) size rounds last b0 b x,
  Forall no_apply rounds -> no_apply last -> new_data_buffer initial size = Ok b0 ->
  bsteps b0 (history rounds last) b ->
  (bstep b (PushAsync x) = None <-> length (async_pushed last) = Z.to_nat 2000) /\
  (bstep b (PushAsync x) <> None -> exists b', bstep b (PushAsync x) = Some (Ok b')) /\
  (exists b', bstep b (PushSync x) = Some (Ok b')) /\
  (exists b', bstep b Apply = Some (Ok b') /\ bpipe b' = []).
Proof. exact @staging_reachable. Qed.
Print Assumptions C28_staging.

Example C28_case : exists b0 b,
  new_data_buffer [1%Z] 0 = Ok b0 /\ no_apply [PushAsync 2%Z; PushSync 3%Z] /\
  bsteps b0 (history [[PushAsync 5%Z]] [PushAsync 2%Z; PushSync 3%Z]) b /\ bpipe b = [2%Z].
Proof.
  do 2 eexists. split; [reflexivity|]. split; [intros [H|[H|[]]]; discriminate|]. split.
  { cbn. repeat (econstructor; [reflexivity|]). constructor. }
  repeat split.
Qed.

(** Without staged data, and for an unbounded buffer or a frame that has never overflowed. *)
Theorem C29_copy_partial : forall E (initial : list E) size rounds last b0 b,
  Forall no_apply rounds -> no_apply last -> async_pushed last = [] ->
  new_data_buffer initial size = Ok b0 -> bsteps b0 (history rounds last) b ->
  ((size <= 0)%Z \/ (Z.of_nat (length (stored initial rounds last)) <= size)%Z) ->
  exists c, copy_buffer b size = Ok c /\ bdata c = bdata b /\
    forall ops b' c', bsteps b ops b' -> bsteps c ops c' -> bdata c' = bdata b' /\ bpipe c' = bpipe b'.
Proof. exact @copy_main. Qed.
Print Assumptions C29_copy_partial.

(** The eviction order of a frame buffer is lost: the copy evicts a recent element. *)
Theorem C29_copy_frame_refuted : exists (b0 b c b' c' : buffer Z),
  new_data_buffer [1%Z] 2 = Ok b0 /\
  bsteps b0 (history [] [PushSync 2%Z; PushSync 3%Z]) b /\
  copy_buffer b 2 = Ok c /\
  bsteps b [PushSync 4%Z] b' /\ bsteps c [PushSync 4%Z] c' /\
  In 3%Z (bdata b') /\ ~ In 3%Z (bdata c').
Proof. exact copy_frame_refuted. Qed.
Print Assumptions C29_copy_frame_refuted.

(** Staged data is lost by the copy. *)
Theorem C29_copy_staged_refuted : exists (b0 b c b' c' : buffer Z),
  new_data_buffer [1%Z] 0 = Ok b0 /\
  bsteps b0 (history [] [PushAsync 2%Z]) b /\
  copy_buffer b 0 = Ok c /\
  bsteps b [Apply] b' /\ bsteps c [Apply] c' /\
  In 2%Z (bdata b') /\ ~ In 2%Z (bdata c').
Proof. exact copy_staged_refuted. Qed.
Print Assumptions C29_copy_staged_refuted.

Example C29_case : exists b0 b,
  new_data_buffer [1%Z] 3 = Ok b0 /\ async_pushed [PushSync 3%Z] = [] /\
  bsteps b0 (history [[PushAsync 5%Z]] [PushSync 3%Z]) b /\
  (Z.of_nat (length (stored [1%Z] [[PushAsync 5%Z]] [PushSync 3%Z])) <= 3)%Z.
Proof.
  do 2 eexists. split; [reflexivity|]. split; [reflexivity|]. split; [|discriminate].
  cbn. repeat (econstructor; [reflexivity|]). constructor.
Qed.
