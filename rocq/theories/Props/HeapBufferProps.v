(** C109, C110: the memory of the data buffers. *)
From Coq Require Import List ZArith Bool.
From Verif Require Import Base.Go Model.Buffer Model.Heap Model.HeapBuffer Spec.HeapBufferSpec Proofs.HeapBufferProofs.
Import ListNotations.

(** Whatever a client does with its slices, its buffers and the buffers made from Data() of another one (Copy), and however
    append allocates: every slice and every buffer holds what it would hold if nothing were shared, and a panic or a wait
    occurs for the one exactly when it occurs for the other. *)
Theorem C109_values : forall (E : Type) (grow : nat -> nat) (l : list (hact E)), seen (hacts grow hp0 l) = vacts ([], []) l.
Proof. exact @buffer_values. Qed.
Print Assumptions C109_values.

(** A slice obtained from Data() keeps its elements while the buffer has room for what it is given. *)
Theorem C110_data_partial : forall (E : Type) (grow : nat -> nat) (l1 : list (hact E)) p1 b x l2 p2, hacts grow hp0 l1 = Some (Ok p1) -> nth_error (hp_bufs p1) b = Some x ->
  has_room x (list_sum (map (given_to b) l2)) -> hacts grow p1 l2 = Some (Ok p2) -> read (hp_mem p2) (hb_data x) = read (hp_mem p1) (hb_data x).
Proof. exact @data_stays. Qed.
Print Assumptions C110_data_partial.

(** It does not once a full frame overwrites its elements. *)
Theorem C110_data_refuted : forall grow, exists p1 x p2, hacts grow hp0 frame_new = Some (Ok p1) /\ nth_error (hp_bufs p1) 0 = Some x /\ hacts grow p1 frame_push = Some (Ok p2) /\
  read (hp_mem p1) (hb_data x) = [Some 1%Z; Some 2%Z] /\ read (hp_mem p2) (hb_data x) = [Some 3%Z; Some 2%Z] /\ fst (contents p2) = [[Some 1%Z; Some 2%Z]].
Proof. exact data_changes. Qed.
Print Assumptions C110_data_refuted.

(** A slice, two buffers on it, a copy of the first; pushes to all and a store of the client in between. *)
Example C109_case : let l1 : list (hact Z) := [OwnNew [Some 1; Some 2; Some 3]; BufNew 0 0; BufNew 0 2; BufCopy 0 4]%Z in
  let l2 : list (hact Z) := [BufOp 0 (PushSync (Some 4)); OwnSet 0 0 (Some 9); BufOp 1 (PushAsync (Some 5)); BufOp 2 (PushSync (Some 6)); BufOp 1 Apply; BufOp 0 (PushSync None)]%Z in
  (match hacts S hp0 l1 with
   | Some (Ok p1) =>
       Forall (fun b => match nth_error (hp_bufs p1) b with Some x => has_room x (list_sum (map (given_to b) l2)) | None => False end) [0; 2] /\
       exists p2, hacts S p1 l2 = Some (Ok p2)
   | _ => False
   end) /\
  seen (hacts S hp0 (l1 ++ l2)) = Some (Ok ([[Some 9; Some 2; Some 3]],
    [mkBuffer [] [Some 1; Some 2; Some 3; Some 4; None] InfiniteSize; mkBuffer [] [Some 5; Some 3] (FixedSize 2 1); mkBuffer [] [Some 1; Some 2; Some 3; Some 6] (FixedSize 4 4)]))%Z.
Proof.
  cbv zeta. split; [|reflexivity]. cbn. split; [|eexists; reflexivity]. constructor; [exact I|]. constructor; [|constructor]. split; [reflexivity|]. discriminate.
Qed.
