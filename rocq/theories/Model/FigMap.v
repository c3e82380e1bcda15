(** The runtime figures as a Go map, which is a reference: RuntimeFigures() (core/model.go:28-32)
    returns the map the algorithm goes on writing to, and the client may write to it. In
    Model/CtrlLang.v the figures are a value; here the maps live in memory. *)
From Coq Require Import List ZArith Bool String.
From Verif Require Import Base.Go Base.Num Model.Status Model.Finish Model.CtrlLang.
Import ListNotations.
Local Open Scope Z_scope.

(** The maps made so far, the one held by the field runtimeFigures, and the counters of Algo
    (core/algo.go:22, :27-32). *)
Record fig_state : Type := mkFig {
  fg_maps : list figures;
  fg_cur : nat;
  fg_iter : Z;
  fg_pushed : Z;
  fg_duration : Z;
  fg_last : Z
}.

Definition map_at (st : fig_state) (p : nat) : figures := nth p (fg_maps st) [].
(** core/model.go:28-32: the client gets the map itself. *)
Definition runtime_figures (st : fig_state) : nat := fg_cur st.
Definition set_maps (st : fig_state) (l : list figures) : fig_state :=
  mkFig l (fg_cur st) (fg_iter st) (fg_pushed st) (fg_duration st) (fg_last st).
(** m[key] = v *)
Definition write (st : fig_state) (p : nat) (key : string) (v : b64) : fig_state :=
  set_maps st (upd (fg_maps st) p (set_figure (map_at st p) key v)).
(** make(RuntimeFigures) or the map an implementation returns, assigned to runtimeFigures. Each
    Iterate of the package returns a new map (mcmc/impl.go:176-184, streaming/impl.go:72-74) or nil
    (kmeans/impl.go:27). *)
Definition new_map (st : fig_state) (rf : figures) : fig_state :=
  mkFig (fg_maps st ++ [rf]) (List.length (fg_maps st)) (fg_iter st) (fg_pushed st) (fg_duration st) (fg_last st).

(** core/ctrl.go:313-317 *)
Definition store_counters (st : fig_state) : fig_state :=
  let st := write st (fg_cur st) "iterations" (b64_of_Z (fg_iter st)) in
  let st := write st (fg_cur st) "pushedData" (b64_of_Z (fg_pushed st)) in
  write st (fg_cur st) "lastDataTime" (b64_of_Z (fg_last st)).

(** What writes to the figures: Push (core/ctrl.go:26-34), an iteration saved (:289-292, :319-327),
    the end of a run (:220-222), Init of a finished algorithm (:70-75), and the client. *)
Inductive fig_op : Type :=
| OpPush (now : Z)
| OpSave (rf : option figures) (d : Z)
| OpEnd (d : Z)
| OpReset
| OpClient (p : nat) (key : string) (v : b64).

Definition fig_step (st : fig_state) (op : fig_op) : fig_state :=
  match op with
  | OpPush now =>
      store_counters (mkFig (fg_maps st) (fg_cur st) (fg_iter st) (fg_pushed st + 1) (fg_duration st) now)
  | OpSave rf d =>
      let st := mkFig (fg_maps st) (fg_cur st) (fg_iter st + 1) (fg_pushed st) (fg_duration st) (fg_last st) in
      let st := new_map st (match rf with None => [] | Some rf => rf end) in
      store_counters (write st (fg_cur st) "duration" (b64_of_Z (fg_duration st + d)))
  | OpEnd d =>
      let st := mkFig (fg_maps st) (fg_cur st) (fg_iter st) (fg_pushed st) (fg_duration st + d) (fg_last st) in
      write st (fg_cur st) "duration" (b64_of_Z (fg_duration st))
  | OpReset => store_counters (new_map (mkFig (fg_maps st) (fg_cur st) 0 0 0 0) [])
  | OpClient p key v => write st p key v
  end.
Definition fig_run (st : fig_state) (ops : list fig_op) : fig_state := fold_left fig_step ops st.

(** core/algo.go:41-55 *)
Definition fig0 : fig_state := mkFig [[]] 0 0 0 0 0.
