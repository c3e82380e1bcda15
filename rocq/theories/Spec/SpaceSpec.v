(** Specification vocabulary for spaces. *)
From Coq Require Import List ZArith.
From Verif Require Import Model.Clustering.
Local Open Scope Z_scope.

(** [Combine] is a weighted average on the elements satisfying [P] (e.g. vectors of a given
    dimension): grouping the elements differently gives the same average. *)
Record mean_space {E F : Type} (Sp : Space E F) (P : E -> Prop) : Prop := {
  ms_closed : forall a wa b wb, P a -> P b -> 0 < wa -> 0 < wb -> P (scombine Sp a wa b wb);
  ms_copy_closed : forall a, P a -> P (scopy Sp a);
  ms_copy : forall a wa b wb, P a -> P b -> 0 < wa -> 0 < wb ->
    scombine Sp a wa (scopy Sp b) wb = scombine Sp a wa b wb;
  ms_assoc : forall a wa b wb c wc, P a -> P b -> P c -> 0 < wa -> 0 < wb -> 0 < wc ->
    scombine Sp (scombine Sp a wa b wb) (wa + wb) c wc
    = scombine Sp a wa (scombine Sp b wb c wc) (wb + wc)
}.
Arguments ms_closed {E F Sp P}. Arguments ms_copy_closed {E F Sp P}.
Arguments ms_copy {E F Sp P}. Arguments ms_assoc {E F Sp P}.
