(** C118: goroutines that share a data buffer. *)
From Coq Require Import List ZArith Lia Permutation.
From Verif Require Import Base.Go Model.Buffer Model.Heap Model.HeapBuffer Model.RaceBuffer Spec.BufferSpec Spec.RaceBufferSpec Proofs.RaceBufferProofs.
Import ListNotations.
Local Open Scope nat_scope.

(** Two clients push before the first Init: both calls return, one element is lost. *)
Theorem C118_lost_refuted : forall grow, exists w : world nat,
  wrun grow (wstart [] 0 false [[JPush (Some 1)]; [JPush (Some 2)]]) lost_acts = Some w /\ all_done w /\ staged_in w = [] /\ stored_in w = [Some 1].
Proof. exact lost_witness. Qed.
Print Assumptions C118_lost_refuted.

(** One client pushes after the end of a run, another one plays again: an element staged during the run is lost. *)
Theorem C118_init_refuted : forall grow, exists w : world nat,
  wrun grow (wstart [] 0 true [[JPush (Some 1); JPush (Some 2)]; [JApply]]) init_acts = Some w /\ all_done w /\ staged_in w = [] /\ stored_in w = [Some 2].
Proof. exact init_witness. Qed.
Print Assumptions C118_init_refuted.

(** Two clients push to a full frame: one of them panics. *)
Theorem C118_panic_refuted : forall grow, exists w : world nat,
  wrun grow (wstart [Some 0] 1 false [[JPush (Some 1)]; [JPush (Some 2)]]) dead_acts = Some w /\ map t_pc (w_threads w) = [PDead; PReady].
Proof. exact dead_witness. Qed.
Print Assumptions C118_panic_refuted.

(** Or no one does, and the frame of size 1 keeps everything pushed from then on. *)
Theorem C118_frame_refuted : forall grow (xs : list nat), exists acts w,
  wrun grow (wstart [Some 0] 1 false [[JPush (Some 1)]; [JPush (Some 2)]; map (fun x => JPush (Some x)) xs]) acts = Some w /\ all_done w /\
  length (stored_in w) = 1 + length xs.
Proof. exact grows_witness. Qed.
Print Assumptions C118_frame_refuted.

(** Or a late increment takes the position back: of four pushes to a frame of three, the third is lost and an element older
    than all of them is kept. *)
Theorem C118_position_refuted : forall grow, exists w : world nat,
  wrun grow (wstart [Some 7; Some 8; Some 9] 3 false [[JPush (Some 1)]; [JPush (Some 2); JPush (Some 3); JPush (Some 4)]]) back_acts = Some w /\
  all_done w /\ staged_in w = [] /\ stored_in w = [Some 2; Some 4; Some 9].
Proof. exact back_witness. Qed.
Print Assumptions C118_position_refuted.

(** As long as no two goroutines are between a load of b.data and the following store to it, every element is kept, in
    an order that respects that of each goroutine. *)
Theorem C118_exclusive_partial : forall E grow (l : list (option E)) size jobs alive acts w,
  wrun grow (wstart l size alive jobs) acts = Some w -> always grow exclusive (wstart l size alive jobs) acts ->
  Forall (fun t => t_pc t <> PDead) (w_threads w) /\
  (resting w -> exists log st, accounts jobs w log /\ Permutation (st ++ staged_in w) (map snd log) /\
    ((size <= 0)%Z -> stored_in w = l ++ st) /\
    ((0 < size)%Z -> rotation (stored_in w) (last_n (Z.to_nat size) (l ++ st)) /\ (Z.of_nat (length (stored_in w)) <= size)%Z)).
Proof. exact @exclusive_main. Qed.
Print Assumptions C118_exclusive_partial.

Example C118_exclusive_case :
  let w0 := wstart [Some 0; Some 5] 2 false [[JPush (Some 1); JPush (Some 3)]; [JPush (Some 2)]; [JApply]] in
  let acts := turns 0 9 ++ [Status true] ++ turns 1 2 ++ turns 2 2 ++ turns 0 2 ++ turns 2 17 in
  always (fun n => n) exclusive w0 acts /\
  match wrun (fun n => n) w0 acts with
  | Some w => all_done w /\ stored_in w = [Some 3; Some 2] /\ staged_in w = []
  | None => False
  end.
Proof. split; [apply checks_always; vm_compute; reflexivity|]. vm_compute. repeat constructor. Qed.

(** While the algorithm is alive, any number of clients and one run: the elements are stored in the order of the pushes. *)
Theorem C118_alive_partial : forall E grow (l : list (option E)) size jobs acts w,
  (forall i j a b, nth_error jobs i = Some a -> nth_error jobs j = Some b -> In JApply a -> In JApply b -> i = j) ->
  wrun grow (wstart l size true jobs) acts = Some w -> ~ In (Status false) acts ->
  Forall (fun t => t_pc t <> PDead) (w_threads w) /\
  (resting w -> exists log st, accounts jobs w log /\ st ++ staged_in w = map snd log /\
    ((size <= 0)%Z -> stored_in w = l ++ st) /\
    ((0 < size)%Z -> rotation (stored_in w) (last_n (Z.to_nat size) (l ++ st)) /\ (Z.of_nat (length (stored_in w)) <= size)%Z)).
Proof. exact @alive_main. Qed.
Print Assumptions C118_alive_partial.

Example C118_alive_case :
  let jobs := [[JPush (Some 1); JPush (Some 3)]; [JPush (Some 2)]; [JApply]] in
  match wrun (fun n => n) (wstart [Some 0] 0 true jobs) (turns 0 2 ++ turns 2 4 ++ turns 1 2 ++ turns 0 2 ++ turns 2 5) with
  | Some w => resting w /\ stored_in w = [Some 0; Some 1; Some 2] /\ staged_in w = [Some 3]
  | None => False
  end.
Proof. vm_compute. split; [repeat constructor; exact (fun H => H)|]. split; reflexivity. Qed.
