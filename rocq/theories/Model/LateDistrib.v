(** Model of mcmc/latedistrib.go: goroutines calling Sample or Pdf on a shared LateDistrib.
    Memory is sequentially consistent; a goroutine executes one memory access, lock operation or
    builder call per step. See the data race of C70 for what this leaves out. *)
From Coq Require Import List ZArith Bool Arith.
From Verif Require Import Base.Go.
Import ListNotations.

Section Late.
(** [Dist] are the distributions; a goroutine calls with an element in [E]. *)
Context {E Dist : Type}.

(** Program points of one call Sample(mu, _) or Pdf(_, mu, _). *)
Inductive pc : Type :=
| AtCheck      (* latedistrib.go:42: about to read d.initialized without the lock *)
| AtLock       (* latedistrib.go:48: about to lock d.mu *)
| AtRecheck    (* latedistrib.go:50: lock held, about to read d.initialized *)
| AtBuild      (* latedistrib.go:51: lock held, about to call d.initializer(elemt) *)
| AtStore (dist : Dist)   (* latedistrib.go:51: lock held, about to write d.distrib *)
| AtSet        (* latedistrib.go:52: lock held, about to write d.initialized *)
| AtUnlock     (* latedistrib.go:49: about to run the deferred unlock, then return *)
| AtUnlockPanic (* latedistrib.go:49: the builder panicked, about to run the deferred unlock *)
| AtUse        (* latedistrib.go:32, 38: about to read d.distrib and to call it *)
| Returned (dist : Dist)  (* the call used [dist] and returned *)
| Crashed      (* the call panicked in the builder *)
| NilPanic.    (* the call panicked on the nil d.distrib *)

Record goroutine : Type := mkGo { g_elemt : E; g_pc : pc }.

(** The fields of LateDistrib (latedistrib.go:14-19); [l_owner] is the goroutine holding the lock;
    [l_started] and [l_built] are ghost logs of the calls of the builder and of the distributions it
    returned. *)
Record late : Type := mkLate {
  l_initialized : bool; l_distrib : option Dist; l_owner : option nat;
  l_started : list E; l_built : list Dist
}.

Definition new_late : late := mkLate false None None [] [].

Record lstate : Type := mkLState { s_late : late; s_gos : list goroutine }.

(** One step of goroutine [t], which is at [p] with element [x]; [build] is what the call of the
    builder gives if it happens now: it may depend on anything, and may panic. None when the
    goroutine waits for the lock or has finished. *)
Definition go_step (t : nat) (x : E) (build : outcome Dist) (l : late) (p : pc) : option (late * pc) :=
  match p with
  | AtCheck => Some (l, if l_initialized l then AtUse else AtLock)
  | AtLock =>
      match l_owner l with
      | None => Some (mkLate (l_initialized l) (l_distrib l) (Some t) (l_started l) (l_built l), AtRecheck)
      | Some _ => None
      end
  | AtRecheck => Some (l, if l_initialized l then AtUnlock else AtBuild)
  | AtBuild =>
      match build with
      | Ok d => Some (mkLate (l_initialized l) (l_distrib l) (l_owner l) (x :: l_started l) (d :: l_built l), AtStore d)
      | Panic => Some (mkLate (l_initialized l) (l_distrib l) (l_owner l) (x :: l_started l) (l_built l), AtUnlockPanic)
      end
  | AtStore d => Some (mkLate (l_initialized l) (Some d) (l_owner l) (l_started l) (l_built l), AtSet)
  | AtSet => Some (mkLate true (l_distrib l) (l_owner l) (l_started l) (l_built l), AtUnlock)
  | AtUnlock => Some (mkLate (l_initialized l) (l_distrib l) None (l_started l) (l_built l), AtUse)
  | AtUnlockPanic => Some (mkLate (l_initialized l) (l_distrib l) None (l_started l) (l_built l), Crashed)
  | AtUse => Some (l, match l_distrib l with Some d => Returned d | None => NilPanic end)
  | Returned _ | Crashed | NilPanic => None
  end.

(** One step of the system: some goroutine makes a step, or a new call starts. *)
Inductive lstep : lstate -> lstate -> Prop :=
| ls_go : forall s t g build l' p',
    nth_error (s_gos s) t = Some g ->
    go_step t (g_elemt g) build (s_late s) (g_pc g) = Some (l', p') ->
    lstep s (mkLState l' (upd (s_gos s) t (mkGo (g_elemt g) p')))
| ls_call : forall s x, lstep s (mkLState (s_late s) (s_gos s ++ [mkGo x AtCheck])).

Inductive lsteps : lstate -> lstate -> Prop :=
| lss_nil : forall s, lsteps s s
| lss_cons : forall s1 s2 s3, lstep s1 s2 -> lsteps s2 s3 -> lsteps s1 s3.

Definition late_start : lstate := mkLState new_late [].

(** ** Memory accesses, for the data race of C70: the access that a program point is about to make,
    to which field, and whether it writes. *)
Inductive field : Type := FInitialized | FDistrib.
Definition access (p : pc) : option (field * bool) :=
  match p with
  | AtCheck | AtRecheck => Some (FInitialized, false)
  | AtStore _ => Some (FDistrib, true)
  | AtSet => Some (FInitialized, true)
  | AtUse => Some (FDistrib, false)
  | _ => None
  end.

End Late.
Arguments pc : clear implicits. Arguments goroutine : clear implicits.
Arguments late : clear implicits. Arguments lstate : clear implicits.
