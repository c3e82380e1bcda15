(** core/buffer.go in memory: which arrays of elements a DataBuffer reads and writes. *)
From Coq Require Import List ZArith Bool Arith.
From Verif Require Import Base.Go Model.Buffer Model.Heap.
Import ListNotations.
Local Open Scope Z_scope.

Section HeapBuffer.
(** [grow] is the policy of append of the Go runtime; elements are interfaces, None is nil. *)
Context {E : Type} (grow : nat -> nat).

(** core/buffer.go:14-18 with data a slice *)
Record hbuffer : Type := mkHBuffer { hb_pipe : list (option E); hb_data : slice; hb_strategy : strategy }.

(** make([]Elemt, n, cap) *)
Definition make_slice (m : mem E) (n cap : nat) : mem E * slice := (m ++ [repeat None cap], mkSlice (length m) n).
(** copy(dst, src) with [src] the elements of the source, in another array *)
Definition copy_into (m : mem E) (dst : slice) (src : list (option E)) : mem E :=
  let n := Nat.min (sl_len dst) (length src) in
  upd m (sl_arr dst) (firstn n src ++ skipn n (array m (sl_arr dst))).

(** core/buffer.go:25-51; the slice expressions of lines 35 and 41 are in range. *)
Definition new_hbuffer (m : mem E) (data : slice) (size : Z) : mem E * hbuffer :=
  let len := sl_len data in
  if Z.of_nat len <? size then
    let (m, s) := make_slice m len (Z.to_nat size) in
    (copy_into m s (read m data), mkHBuffer [] s (FixedSize size (Z.of_nat len)))
  else if 0 <? size then
    let (m, s) := make_slice m (Z.to_nat size) (Z.to_nat size) in
    (copy_into m s (skipn (len - Z.to_nat size) (read m data)), mkHBuffer [] s (FixedSize size size))
  else
    let (m, s) := make_slice m len len in
    (copy_into m s (read m data), mkHBuffer [] s InfiniteSize).

(** core/buffer.go:102-116 and 122-124 *)
Definition hstrategy_push (st : strategy) (m : mem E) (data : slice) (x : option E) : outcome (strategy * mem E * slice) :=
  match st with
  | InfiniteSize => let '(m, s) := append grow m data x in Ok (InfiniteSize, m, s)
  | FixedSize size position =>
      let position := if position =? size then 0 else position in
      if position <? Z.of_nat (sl_len data) then
        let* m := Heap.store m data position x in Ok (FixedSize size (position + 1), m, data)
      else let '(m, s) := append grow m data x in Ok (FixedSize size (position + 1), m, s)
  end.

Definition hstore (mb : mem E * hbuffer) (x : option E) : outcome (mem E * hbuffer) :=
  let '(m, b) := mb in
  let* r := hstrategy_push (hb_strategy b) m (hb_data b) x in
  let '(st, m, s) := r in Ok (m, mkHBuffer (hb_pipe b) s st).

(** core/buffer.go:54-61 and 69-89 (Apply as in [buffer_apply]); None: the send waits. *)
Definition hbstep (m : mem E) (b : hbuffer) (o : bop (option E)) : option (outcome (mem E * hbuffer)) :=
  match o with
  | PushSync x => Some (hstore (m, b) x)
  | PushAsync x =>
      if slen (hb_pipe b) <? pipe_size then Some (Ok (m, mkHBuffer (hb_pipe b ++ [x]) (hb_data b) (hb_strategy b))) else None
  | Apply => Some (ofold hstore (hb_pipe b) (m, mkHBuffer [] (hb_data b) (hb_strategy b)))
  end.

(** A program with slices of its own and buffers. *)
Record hprog : Type := mkHProg { hp_mem : mem E; hp_own : list slice; hp_bufs : list hbuffer }.
Inductive hact : Type :=
| OwnNew (l : list (option E))                (* a slice literal of the client *)
| OwnSet (c : nat) (i : Z) (x : option E)     (* the client stores to its c-th slice *)
| BufNew (c : nat) (size : Z)                 (* NewDataBuffer on the c-th slice *)
| BufCopy (b : nat) (size : Z)                (* NewDataBuffer on Data() of the b-th buffer (kmeans/impl.go:41, mcmc/impl.go:32) *)
| BufOp (b : nat) (o : bop (option E)).
Definition hp0 : hprog := mkHProg [] [] [].

(** One action; None: it waits, or the slice or the buffer does not exist. *)
Definition hact_step (p : hprog) (a : hact) : option (outcome hprog) :=
  let m := hp_mem p in
  match a with
  | OwnNew l => Some (Ok (mkHProg (m ++ [l]) (hp_own p ++ [mkSlice (length m) (length l)]) (hp_bufs p)))
  | OwnSet c i x =>
      match nth_error (hp_own p) c with
      | None => None
      | Some s => Some (let* m := Heap.store m s i x in Ok (mkHProg m (hp_own p) (hp_bufs p)))
      end
  | BufNew c size =>
      match nth_error (hp_own p) c with
      | None => None
      | Some s => let (m, b) := new_hbuffer m s size in Some (Ok (mkHProg m (hp_own p) (hp_bufs p ++ [b])))
      end
  | BufCopy c size =>
      match nth_error (hp_bufs p) c with
      | None => None
      | Some b => let (m, b) := new_hbuffer m (hb_data b) size in Some (Ok (mkHProg m (hp_own p) (hp_bufs p ++ [b])))
      end
  | BufOp c o =>
      match nth_error (hp_bufs p) c with
      | None => None
      | Some b =>
          match hbstep m b o with
          | None => None
          | Some r => Some (let* mb := r in Ok (mkHProg (fst mb) (hp_own p) (upd (hp_bufs p) c (snd mb))))
          end
      end
  end.
Fixpoint hacts (p : hprog) (l : list hact) : option (outcome hprog) :=
  match l with
  | [] => Some (Ok p)
  | a :: l =>
      match hact_step p a with
      | Some (Ok p) => hacts p l
      | r => r
      end
  end.
End HeapBuffer.
Arguments hbuffer : clear implicits.
Arguments hprog : clear implicits.
Arguments hact : clear implicits.
