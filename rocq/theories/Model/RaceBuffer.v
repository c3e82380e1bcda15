(** core/buffer.go used by several goroutines: a DataBuffer has no lock, and core/ctrl.go calls Push, Init and Iterate of the
    implementation from the goroutines of the clients and of the run without one. *)
From Coq Require Import List ZArith Bool Arith.
From Verif Require Import Base.Go Model.Buffer Model.Heap Model.HeapBuffer.
Import ListNotations.
Local Open Scope Z_scope.

Section Race.
Context {E : Type} (grow : nat -> nat).

(** What a goroutine does with the buffer, one after the other.
    [JPush x]: Push(x) of k-means or mcmc, whose implementation calls buffer.Push(x, model.Status().Alive())
    (kmeans/impl.go:34-36, mcmc/impl.go:79-81). [JApply]: buffer.Apply() in Init and after each Iterate (kmeans/impl.go:20-31). *)
Inductive job : Type := JPush (x : option E) | JApply.

(** The statement to which a goroutine has come; it is executed in one step. The loads and stores of b.data and
    s.position are single steps, and so is the store to an element. append is one step too (its new array is the
    goroutine's own). [k]: whether a Push or Apply executes the statement. *)
Inductive kont : Type := KPush | KApply.
Inductive pc : Type :=
| PReady                                      (* before the next job *)
| PSend (x : option E)                        (* b.pipe <- elmt (core/buffer.go:56) *)
| PRecv                                       (* the select of applyNext (core/buffer.go:80-86) *)
| PData (k : kont) (x : option E)             (* load of b.data (core/buffer.go:58, :83) *)
| PAppend (k : kont) (x : option E) (d : slice)   (* append of the infinite strategy (:123) *)
| PWrap (k : kont) (x : option E) (d : slice)     (* if s.position == s.size (:103) *)
| PReset (k : kont) (x : option E) (d : slice)    (* s.position = 0 (:104) *)
| PTest (k : kont) (x : option E) (d : slice)     (* if s.position < len(data) (:107) *)
| PCell (k : kont) (x : option E) (d : slice)     (* data[s.position] = elemt (:108), with a load of s.position *)
| PGrow (k : kont) (x : option E) (d : slice)     (* data = append(data, elemt) (:110) *)
| PLoad (k : kont) (d : slice)                    (* s.position++: its load (:113) *)
| PInc (k : kont) (d : slice) (position : Z)      (* and its store *)
| PStore (k : kont) (d : slice)                   (* store to b.data (:58, :83) *)
| PDead.                                          (* index out of range *)

Record thread : Type := mkThread { t_pc : pc; t_jobs : list job }.
(** Memory, buffer, what Status().Alive() gives, goroutines. *)
Record world : Type := mkWorld { w_mem : mem E; w_buf : hbuffer E; w_alive : bool; w_threads : list thread }.

Definition set_data (b : hbuffer E) (d : slice) : hbuffer E := mkHBuffer (hb_pipe b) d (hb_strategy b).
Definition set_position (b : hbuffer E) (p : Z) : hbuffer E :=
  mkHBuffer (hb_pipe b) (hb_data b) (match hb_strategy b with FixedSize size _ => FixedSize size p | InfiniteSize => InfiniteSize end).
Definition position_of (b : hbuffer E) : Z := match hb_strategy b with FixedSize _ p => p | InfiniteSize => 0 end.
Definition size_of (b : hbuffer E) : Z := match hb_strategy b with FixedSize s _ => s | InfiniteSize => 0 end.
Definition set_pipe (b : hbuffer E) (p : list (option E)) : hbuffer E := mkHBuffer p (hb_data b) (hb_strategy b).

(** One step of a goroutine; None: it waits, or has nothing left to do. A job stays at the head until it is done. *)
Definition tstep (m : mem E) (b : hbuffer E) (alive : bool) (t : thread) : option (mem E * hbuffer E * thread) :=
  let js := t_jobs t in
  let go pc := Some (m, b, mkThread pc js) in
  match t_pc t with
  | PReady =>
      match js with
      | [] => None
      | JPush x :: _ => if alive then go (PSend x) else go (PData KPush x)
      | JApply :: _ => go PRecv
      end
  | PSend x =>
      if slen (hb_pipe b) <? pipe_size then Some (m, set_pipe b (hb_pipe b ++ [x]), mkThread PReady (tl js)) else None
  | PRecv =>
      match hb_pipe b with
      | [] => Some (m, b, mkThread PReady (tl js))
      | x :: p => Some (m, set_pipe b p, mkThread (PData KApply x) js)
      end
  | PData k x => match hb_strategy b with InfiniteSize => go (PAppend k x (hb_data b)) | FixedSize _ _ => go (PWrap k x (hb_data b)) end
  | PAppend k x d => let (m, d) := append grow m d x in Some (m, b, mkThread (PStore k d) js)
  | PWrap k x d => if position_of b =? size_of b then go (PReset k x d) else go (PTest k x d)
  | PReset k x d => Some (m, set_position b 0, mkThread (PTest k x d) js)
  | PTest k x d => if position_of b <? Z.of_nat (sl_len d) then go (PCell k x d) else go (PGrow k x d)
  | PCell k x d =>
      match Heap.store m d (position_of b) x with
      | Ok m => Some (m, b, mkThread (PLoad k d) js)
      | Panic => go PDead
      end
  | PGrow k x d => let (m, d) := append grow m d x in Some (m, b, mkThread (PLoad k d) js)
  | PLoad k d => go (PInc k d (position_of b))
  | PInc k d p => Some (m, set_position b (p + 1), mkThread (PStore k d) js)
  | PStore k d => Some (m, set_data b d, match k with KPush => mkThread PReady (tl js) | KApply => mkThread PRecv js end)
  | PDead => None
  end.

(** A step: of the goroutine with this number, or a change of the status by the controller. *)
Inductive act : Type := Go (i : nat) | Status (alive : bool).
Definition wstep (w : world) (a : act) : option world :=
  match a with
  | Status alive => Some (mkWorld (w_mem w) (w_buf w) alive (w_threads w))
  | Go i =>
      match nth_error (w_threads w) i with
      | None => None
      | Some t =>
          match tstep (w_mem w) (w_buf w) (w_alive w) t with
          | None => None
          | Some (m, b, t') => Some (mkWorld m b (w_alive w) (upd (w_threads w) i t'))
          end
      end
  end.
Fixpoint wrun (w : world) (l : list act) : option world :=
  match l with
  | [] => Some w
  | a :: l => match wstep w a with None => None | Some w => wrun w l end
  end.

(** A new buffer on the slice [l] of the client (core/buffer.go:25-51), and goroutines with their jobs. *)
Definition wstart (l : list (option E)) (size : Z) (alive : bool) (jobs : list (list job)) : world :=
  let (m, b) := new_hbuffer [l] (mkSlice 0 (length l)) size in mkWorld m b alive (map (mkThread PReady) jobs).
End Race.
Arguments job : clear implicits. Arguments pc : clear implicits. Arguments thread : clear implicits. Arguments world : clear implicits.
