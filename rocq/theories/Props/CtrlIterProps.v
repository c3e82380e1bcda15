(** C56, C57, C58 in every interleaving: when iterations begin, what is saved, what failures do. *)
From Coq Require Import List ZArith Bool.
From Verif Require Import Base.Go Base.Num Model.Status Model.Finish Model.CtrlLang Model.CtrlCode
  Spec.CtrlSpec Spec.CtrlIterSpec Proofs.CtrlTraces Proofs.CtrlIter.
Import ListNotations.
Local Open Scope list_scope.

(** C56: Iterate is called by runs only, each time just after a test that found neither the budget
    nor the finishing condition of the configuration reached. *)
Theorem C56_tested : forall (C : Type) (cf : cconf) css ms (st : state C) t l1 r l2, plain_notifier cf ->
  exec cf ms (start (map (client_code cf) css)) = Some st ->
  events cf t ms (start (map (client_code cf) css)) = l1 ++ TIter r :: l2 ->
  kind_of st t = Some KRunner /\ exists l0 m, l1 = l0 ++ [TTest m] /\ goes_on cf m.
Proof. exact @iterations_tested. Qed.
Print Assumptions C56_tested.

(** C57: what is counted as an iteration is a successful call of Iterate that returned centroids,
    and each of them is counted, once, with its centroids and figures. *)
Theorem C57_saved_once : forall (C : Type) (cf : cconf) css ms (st : state C) t l1 l2, plain_notifier cf ->
  exec cf ms (start (map (client_code cf) css)) = Some st ->
  (forall c f, events cf t ms (start (map (client_code cf) css)) = l1 ++ TSave c f :: l2 ->
     exists l0 c', l1 = l0 ++ [TIter (IterRes (Some c') f None)] /\ c = Some c') /\
  (forall c f, events cf t ms (start (map (client_code cf) css)) = l1 ++ TIter (IterRes (Some c) f None) :: l2 ->
     match l2 with [] => ~ ended st t | e :: _ => e = TSave (Some c) f end).
Proof. exact @iterations_saved_once. Qed.
Print Assumptions C57_saved_once.

Example C57_saved_case : let '(cf, o, css, ds) := t_figures in
  plain_notifier cf /\ reachable cf css (st_of t_figures) /\
  match events cf 2 (moves cf o css ds) (start (map (client_code cf) css)) with
  | [TStatus s; TTest m1; TIter r; TSave c f; TTest m2; TStatus s'] =>
      s = new_status Running /\ is_finished (Some (FIter 1 0)) m1 = false /\
      r = IterRes (Some 2) None None /\ c = Some 2 /\ f = None /\
      is_finished (Some (FIter 1 0)) m2 = true /\ s' = new_status Ready
  | _ => False
  end.
Proof.
  cbn -[moves start events st_of]. split; [exact I|]. split; [apply st_of_reachable; vm_compute; reflexivity|].
  vm_compute. repeat split; reflexivity.
Qed.

(** C58: after a call of Iterate that returns an error or panics, the next thing the run does is to
    set the status to Finished with this error; the program goes on. *)
Theorem C58_failures : forall (C : Type) (cf : cconf) css ms (st : state C) t l1 r e l2, plain_notifier cf ->
  exec cf ms (start (map (client_code cf) css)) = Some st ->
  events cf t ms (start (map (client_code cf) css)) = l1 ++ TIter r :: l2 -> failure r = Some e ->
  sh_crashed (s_sh st) = false /\
  match l2 with [] => ~ ended st t | x :: _ => x = TStatus (mkStatus Finished (Some e)) end.
Proof. exact @failures_finish. Qed.
Print Assumptions C58_failures.

Example C58_failures_case :
  let o := mkOracle (Some 1, None) (IterPanic 7) None 0%Z in
  let ms := moves conf5 o [[DPlay]] (d_play ++ [Go 2; Send 2 1; Go 1; Go 2]) in
  plain_notifier conf5 /\
  match exec conf5 ms (start (map (client_code conf5) [[DPlay]])),
        events conf5 2 ms (start (map (client_code conf5) [[DPlay]])) with
  | Some st, [TStatus s; TTest m; TIter r; TStatus s'] =>
      s = new_status Running /\ is_finished (Some (FIter 5 0)) m = false /\ r = IterPanic 7 /\
      s' = new_status_error (ErrImpl 7) /\ sh_status (s_sh st) = new_status_error (ErrImpl 7) /\
      option_map th_code (nth_error (s_th st) 2) = Some []
  | _, _ => False
  end.
Proof. cbv zeta. split; [exact I|]. vm_compute. repeat split; reflexivity. Qed.
