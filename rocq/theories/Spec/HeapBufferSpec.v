(** The same programs with slices and buffers that are plain values. *)
From Coq Require Import List ZArith Bool.
From Verif Require Import Base.Go Model.Buffer Model.Heap Model.HeapBuffer.
Import ListNotations.
Local Open Scope Z_scope.

Section Values.
Context {E : Type}.

(** Slices of the client and buffers; nothing is shared. *)
Definition vprog : Type := list (list (option E)) * list (buffer (option E)).

Definition vact_step (p : vprog) (a : hact E) : option (outcome vprog) :=
  let '(own, bufs) := p in
  match a with
  | OwnNew l => Some (Ok (own ++ [l], bufs))
  | OwnSet c i x => match nth_error own c with None => None | Some l => Some (let* l := sset l i x in Ok (upd own c l, bufs)) end
  | BufNew c size => match nth_error own c with None => None | Some l => Some (let* b := new_data_buffer l size in Ok (own, bufs ++ [b])) end
  | BufCopy c size => match nth_error bufs c with None => None | Some b => Some (let* b := copy_buffer b size in Ok (own, bufs ++ [b])) end
  | BufOp c o =>
      match nth_error bufs c with
      | None => None
      | Some b => match bstep b o with None => None | Some r => Some (let* b := r in Ok (own, upd bufs c b)) end
      end
  end.
Fixpoint vacts (p : vprog) (l : list (hact E)) : option (outcome vprog) :=
  match l with
  | [] => Some (Ok p)
  | a :: l => match vact_step p a with Some (Ok p) => vacts p l | r => r end
  end.

(** What the slices and buffers hold. *)
Definition contents (p : hprog E) : vprog :=
  (map (read (hp_mem p)) (hp_own p),
   map (fun b => mkBuffer (hb_pipe b) (read (hp_mem p) (hb_data b)) (hb_strategy b)) (hp_bufs p)).
Definition seen (r : option (outcome (hprog E))) : option (outcome vprog) :=
  match r with Some (Ok p) => Some (Ok (contents p)) | Some Panic => Some Panic | None => None end.

(** Elements given to the b-th buffer. *)
Definition given_to (b : nat) (a : hact E) : nat :=
  match a with BufOp c (PushSync _) | BufOp c (PushAsync _) => if Nat.eqb c b then 1 else 0 | _ => 0 end.
(** A buffer that overwrites nothing when it stores [n] elements more than those staged. *)
Definition has_room (x : hbuffer E) (n : nat) : Prop :=
  match hb_strategy x with
  | InfiniteSize => True
  | FixedSize size position =>
      position = Z.of_nat (sl_len (hb_data x)) /\ Z.of_nat (sl_len (hb_data x)) + slen (hb_pipe x) + Z.of_nat n <= size
  end.
End Values.
