(** C122: the map returned by RuntimeFigures() is a snapshot that belongs to the client. It is the
    map of the algorithm. *)
From Coq Require Import List ZArith Bool String Lia.
From Verif Require Import Base.Go Base.Num Model.Status Model.Finish Model.CtrlLang Model.FigMap
  Spec.FigMapSpec Proofs.FigMapProofs.
Import ListNotations.
Local Open Scope Z_scope.

(** C122 refuted: the map a client has obtained changes when an element is pushed. *)
Theorem C122_live_refuted : exists ops1 ops2,
  let st := fig_run fig0 ops1 in let p := runtime_figures st in
  Forall (fun op => is_client op = false) (ops1 ++ ops2) /\
  int_of_b64 (figure (map_at st p) "pushedData") = 1 /\
  int_of_b64 (figure (map_at (fig_run st ops2) p) "pushedData") = 2.
Proof. exact live_main. Qed.
Print Assumptions C122_live_refuted.

(** C122 refuted: a client that writes to the map it has obtained changes the algorithm; the budget
    of five iterations is then used up before the first. *)
Theorem C122_write_refuted : exists ops1,
  let st := fig_run fig0 ops1 in let p := runtime_figures st in
  let st1 := fig_step st (OpClient p "iterations" (b64_of_Z 5)) in
  let ocm := fun s => mkFinModel (new_status Running) (map_at s (runtime_figures s)) in
  fg_iter st1 = 0 /\
  is_finished (Some (FIter 5 0)) (ocm st) = false /\ is_finished (Some (FIter 5 0)) (ocm st1) = true.
Proof. exact write_main. Qed.
Print Assumptions C122_write_refuted.

(** C122 for maps that have been replaced, by an iteration or by a new Init: the algorithm never
    writes to them again nor returns them again. In the map in use the algorithm writes the four
    figures of the controller only. *)
Theorem C122_old_partial : forall ops1 ops2 p,
  let st := fig_run fig0 ops1 in
  (p < List.length (fg_maps st))%nat -> Forall (leaves p) ops2 ->
  (p <> runtime_figures st -> map_at (fig_run st ops2) p = map_at st p /\ runtime_figures (fig_run st ops2) <> p) /\
  forall k, ~ In k controller_keys -> figure (map_at (fig_run st ops2) p) k = figure (map_at st p) k.
Proof. exact old_main. Qed.
Print Assumptions C122_old_partial.

(** A push, an iteration with a figure of its own, a push: map 0 was replaced. *)
Example C122_old_example :
  let ops1 := [OpPush 10; OpSave (Some [("rho"%string, b64_of_Z 7)]) 3] in
  let ops2 := [OpPush 11; OpClient 1 "rho" (b64_of_Z 0); OpEnd 4; OpReset] in
  let st := fig_run fig0 ops1 in
  (0 < List.length (fg_maps st))%nat /\ Forall (leaves 0) ops2 /\ runtime_figures st = 1%nat /\
  ~ In "rho"%string controller_keys /\
  int_of_b64 (figure (map_at (fig_run st ops2) 0) "pushedData") = 1 /\
  int_of_b64 (figure (map_at st 1) "rho") = 7 /\
  int_of_b64 (figure (map_at (fig_run st [OpPush 11; OpEnd 4]) 1) "rho") = 7 /\
  runtime_figures (fig_run st ops2) = 2%nat.
Proof.
  cbv zeta. split; [cbn; lia|]. split; [repeat constructor; cbn; discriminate|]. split; [reflexivity|].
  split; [cbn; intuition discriminate|]. repeat split; vm_compute; reflexivity.
Qed.

(** C122: what the client has written to the counters lasts until the next push, iteration or Init,
    and never reaches the counters themselves. *)
Theorem C122_repair_partial : forall ops op,
  match op with OpPush _ | OpSave _ _ | OpReset => True | _ => False end ->
  let st := fig_run fig0 (ops ++ [op]) in
  figure (map_at st (runtime_figures st)) "iterations" = b64_of_Z (fg_iter st) /\
  figure (map_at st (runtime_figures st)) "pushedData" = b64_of_Z (fg_pushed st) /\
  figure (map_at st (runtime_figures st)) "lastDataTime" = b64_of_Z (fg_last st) /\
  counters st = counters (fig_run fig0 (filter (fun o => negb (is_client o)) ops ++ [op])).
Proof. exact repair_main. Qed.
Print Assumptions C122_repair_partial.

Example C122_repair_example :
  let ops := [OpPush 10; OpClient 0 "pushedData" (b64_of_Z 9); OpClient 0 "iterations" (b64_of_Z 5)] in
  int_of_b64 (figure (map_at (fig_run fig0 ops) 0) "pushedData") = 9 /\
  int_of_b64 (figure (map_at (fig_run fig0 (ops ++ [OpPush 11])) 0) "pushedData") = 2 /\
  counters (fig_run fig0 (ops ++ [OpPush 11])) = (0, 2, 0, 11).
Proof. cbv zeta. split; [vm_compute; reflexivity|]. split; [vm_compute; reflexivity|reflexivity]. Qed.

(** C122: as long as the client writes to no map, the figures are those of the model in which they
    are a value (Model/CtrlLang.v). *)
Theorem C122_values_partial : forall C ops (m : model_st C), m = mkModel None [] 0 0 0 0 0 ->
  Forall (fun op => is_client op = false) ops ->
  agrees (fig_run fig0 ops) (fold_left model_step ops m).
Proof. exact agrees_main. Qed.
Print Assumptions C122_values_partial.

Example C122_values_example :
  let ops := [OpPush 10; OpSave None 3; OpEnd 5; OpPush 12] in
  let m := fold_left model_step ops (@mkModel nat None [] 0 0 0 0 0) in
  Forall (fun op => is_client op = false) ops /\
  (m_iter m, m_pushed m, m_duration m, m_last m) = (1, 2, 5, 12) /\
  int_of_b64 (figure (m_figs m) "duration") = 5.
Proof. cbv zeta. split; [repeat constructor|]. split; [reflexivity|vm_compute; reflexivity]. Qed.
