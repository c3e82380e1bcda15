(** Model of core/status.go and core/error.go. *)
From Coq Require Import Bool.

(** core/status.go:7-14 *)
Inductive clust_status : Type := Created | Initializing | Ready | Running | Idle | Finished.

Definition status_eqb (a b : clust_status) : bool :=
  match a, b with
  | Created, Created | Initializing, Initializing | Ready, Ready
  | Running, Running | Idle, Idle | Finished, Finished => true
  | _, _ => false
  end.

(** core/error.go; [ErrImpl n] stands for the errors returned by the implementation, by the
    initializer, and for the recovered panics (core/ctrl.go). *)
Inductive algo_error : Type :=
| ErrNotRunning | ErrRunning | ErrInitializing | ErrSleeping | ErrAlreadyCreated | ErrNotIdle
| ErrIdle | ErrReconfiguring | ErrTimeout | ErrElapsedIter | ErrNeverFinish | ErrFinished
| ErrNotIterate | ErrNotAlive
| ErrImpl (n : nat).

(** core/status.go:31-34 *)
Record oc_status : Type := mkStatus { st_value : clust_status; st_error : option algo_error }.

(** core/status.go:42-44 *)
Definition st_running (s : oc_status) : bool :=
  status_eqb (st_value s) Running || status_eqb (st_value s) Idle.

(** core/status.go:37-39 *)
Definition st_alive (s : oc_status) : bool :=
  status_eqb (st_value s) Ready || st_running s.

(** core/status.go:47-57 *)
Definition new_status (v : clust_status) : oc_status := mkStatus v None.
Definition new_status_error (e : algo_error) : oc_status := mkStatus Finished (Some e).
