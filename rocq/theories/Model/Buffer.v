(** Model of core/buffer.go. *)
From Coq Require Import List ZArith Bool.
From Verif Require Import Base.Go.
Import ListNotations.
Local Open Scope Z_scope.

(** core/buffer.go:97-100 and 119-120. *)
Inductive strategy : Type :=
| FixedSize (size position : Z)
| InfiniteSize.

(** core/buffer.go:14-18: the channel [pipe] is the queue of staged elements, first received
    first. *)
Record buffer (E : Type) : Type := mkBuffer {
  bpipe : list E;
  bdata : list E;
  bstrategy : strategy
}.
Arguments mkBuffer {E}. Arguments bpipe {E}. Arguments bdata {E}. Arguments bstrategy {E}.

(** core/buffer.go:21 *)
Definition pipe_size : Z := 2000.

Section Buffer.
Context {E : Type}.

(** core/buffer.go:25-51. The slice expression [data[len(data)-size:]] of the second case cannot
    panic because 0 < size <= len(data). *)
Definition new_data_buffer (data : list E) (size : Z) : outcome (buffer E) :=
  if slen data <? size then Ok (mkBuffer [] data (FixedSize size (slen data)))
  else if 0 <? size then
    let* tail := sslice data (slen data - size) (slen data) in
    Ok (mkBuffer [] tail (FixedSize size size))
  else Ok (mkBuffer [] data InfiniteSize).

(** core/buffer.go:102-116 and 122-124. A store at a negative position would panic. *)
Definition strategy_push (s : strategy) (data : list E) (elemt : E) : outcome (strategy * list E) :=
  match s with
  | InfiniteSize => Ok (InfiniteSize, data ++ [elemt])
  | FixedSize size position =>
      let position := if position =? size then 0 else position in
      if position <? slen data then
        let* data := sset data position elemt in
        Ok (FixedSize size (position + 1), data)
      else Ok (FixedSize size (position + 1), data ++ [elemt])
  end.

Definition store (b : buffer E) (elemt : E) : outcome (buffer E) :=
  let* r := strategy_push (bstrategy b) (bdata b) elemt in
  let '(s, data) := r in Ok (mkBuffer (bpipe b) data s).

(** core/buffer.go:54-61. A send on the full channel waits: None. *)
Definition buffer_push (b : buffer E) (elemt : E) (running : bool) : option (outcome (buffer E)) :=
  if running then
    if slen (bpipe b) <? pipe_size
    then Some (Ok (mkBuffer (bpipe b ++ [elemt]) (bdata b) (bstrategy b)))
    else None
  else Some (store b elemt).

(** core/buffer.go:77-89: receives the next staged element if there is one; false when empty. *)
Definition apply_next (b : buffer E) : outcome (buffer E * bool) :=
  match bpipe b with
  | [] => Ok (b, false)
  | x :: pipe => let* b' := store (mkBuffer pipe (bdata b) (bstrategy b)) x in Ok (b', true)
  end.

(** core/buffer.go:69-73 when no push occurs during the loop; the interleaving of the loop with
    concurrent pushes is [steps] below. *)
Definition buffer_apply (b : buffer E) : outcome (buffer E) :=
  ofold store (bpipe b) (mkBuffer [] (bdata b) (bstrategy b)).

(** Client operations. *)
Inductive bop : Type :=
| PushSync (x : E)     (* Push(x, false) *)
| PushAsync (x : E)    (* Push(x, true) *)
| Apply.

(** One completed operation; no transition when the call waits. *)
Definition bstep (b : buffer E) (o : bop) : option (outcome (buffer E)) :=
  match o with
  | PushSync x => buffer_push b x false
  | PushAsync x => buffer_push b x true
  | Apply => Some (buffer_apply b)
  end.

Inductive bsteps : buffer E -> list bop -> buffer E -> Prop :=
| bs_nil : forall b, bsteps b [] b
| bs_cons : forall b o b1 ops b2,
    bstep b o = Some (Ok b1) -> bsteps b1 ops b2 -> bsteps b (o :: ops) b2.

(** Finer grain: the receiving loop of Apply is cut in its single receives, so that pushes of other
    goroutines may occur between two of them. *)
Inductive bact : Type :=
| ASend (x : E)        (* a completed send of Push(x, true) *)
| AStore (x : E)       (* Push(x, false) *)
| ARecv.               (* one call of applyNext *)

Definition bact_step (b : buffer E) (a : bact) : option (outcome (buffer E)) :=
  match a with
  | ASend x => buffer_push b x true
  | AStore x => buffer_push b x false
  | ARecv => Some (let* r := apply_next b in Ok (fst r))
  end.

Inductive bacts : buffer E -> list bact -> buffer E -> Prop :=
| ba_nil : forall b, bacts b [] b
| ba_cons : forall b a b1 acts b2,
    bact_step b a = Some (Ok b1) -> bacts b1 acts b2 -> bacts b (a :: acts) b2.

(** kmeans/impl.go:39-43 and mcmc/impl.go:30-34 restricted to the buffer: the copied implementation
    is built by NewAlgo from [impl.buffer.Data()] and the same FrameSize (kmeans/seq.go:10). *)
Definition copy_buffer (b : buffer E) (frame_size : Z) : outcome (buffer E) :=
  new_data_buffer (bdata b) frame_size.

End Buffer.
Arguments bop : clear implicits.
Arguments bact : clear implicits.
