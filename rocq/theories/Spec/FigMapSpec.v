(** Vocabulary of the statements about maps of figures. *)
From Coq Require Import List ZArith Bool String.
From Verif Require Import Base.Go Base.Num Model.Status Model.Finish Model.CtrlLang Model.FigMap.
Import ListNotations.
Local Open Scope Z_scope.

Definition is_client (op : fig_op) : bool := match op with OpClient _ _ _ => true | _ => false end.
(** The client does not write to map [p]. *)
Definition leaves (p : nat) (op : fig_op) : Prop := match op with OpClient q _ _ => q <> p | _ => True end.
(** The maps the client writes to have been made. *)
Definition made (n : nat) (op : fig_op) : Prop := match op with OpClient q _ _ => (q < n)%nat | _ => True end.
(** The figures the controller writes. *)
Definition controller_keys : list string := ["iterations"; "pushedData"; "lastDataTime"; "duration"]%string.

Definition counters (st : fig_state) : Z * Z * Z * Z := (fg_iter st, fg_pushed st, fg_duration st, fg_last st).

(** What the model of Model/CtrlLang.v does for an operation of the controller. *)
Definition model_step {C : Type} (m : model_st C) (op : fig_op) : model_st C :=
  match op with
  | OpPush now => model_figures (model_pushed m now)
  | OpSave rf d => model_save m (m_centroids m) rf d
  | OpEnd d => model_duration m d
  | OpReset => model_reset m
  | OpClient _ _ _ => m
  end.
(** The same counters and, in the current map, the same figures. *)
Definition agrees {C : Type} (st : fig_state) (m : model_st C) : Prop :=
  map_at st (fg_cur st) = m_figs m /\ counters st = (m_iter m, m_pushed m, m_duration m, m_last m).
