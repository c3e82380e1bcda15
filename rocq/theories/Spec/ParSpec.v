(** Specification vocabulary for the partition of work between goroutines. *)
From Coq Require Import List ZArith.
Import ListNotations.
Local Open Scope Z_scope.

(** [(start, end, rank)] ranges, in rank order, that cut [0..size) in consecutive pieces. *)
Record even_partition (size degree : Z) (ranges : list (Z * Z * Z)) : Prop := {
  ep_count : Z.of_nat (length ranges) = degree;
  ep_rank : forall i s e r, nth_error ranges i = Some (s, e, r) -> r = Z.of_nat i;
  ep_bounds : forall s e r, In (s, e, r) ranges -> 0 <= s <= e /\ e <= size;
  ep_first : forall s e r, nth_error ranges 0 = Some (s, e, r) -> s = 0;
  ep_next : forall i s e r s' e' r',
    nth_error ranges i = Some (s, e, r) -> nth_error ranges (S i) = Some (s', e', r') -> s' = e;
  ep_last : forall s e r, nth_error ranges (length ranges - 1) = Some (s, e, r) -> e = size;
  ep_cover : forall j, 0 <= j < size ->
    exists i, (exists s e r, nth_error ranges i = Some (s, e, r) /\ s <= j < e) /\
      forall i' s e r, nth_error ranges i' = Some (s, e, r) -> s <= j < e -> i' = i;
  ep_even : forall s e r s' e' r',
    In (s, e, r) ranges -> In (s', e', r') ranges -> (e - s) - (e' - s') <= 1
}.
