(** Specification vocabulary for configurations and finishing conditions. *)
From Coq Require Import List ZArith.
From Verif Require Import Base.Num Model.Conf.
Local Open Scope Z_scope.

Definition ctrl_valid (c : ctrl_conf) : Prop :=
  0 <= cc_iter_per_data c /\ 0 <= cc_data_per_iter c /\ b64_ltb (cc_iter_freq c) (b64_of_Z 0) = false /\
  0 <= cc_timeout c /\ 0 <= cc_iter c.

Definition kmeans_valid {G} (c : kmeans_conf G) : Prop := ctrl_valid (km_ctrl c) /\ 1 <= km_k c.

Definition mcmc_valid {G} (c : mcmc_conf G) : Prop :=
  ctrl_valid (mc_ctrl c) /\ 1 <= mc_init_k c /\
  ((mc_max_k c = 0 /\ mc_init_k c <= 16) \/ (mc_max_k c <> 0 /\ mc_init_k c <= mc_max_k c)).

Definition streaming_valid {G E} (c : streaming_conf G) (data : list E) : Prop :=
  ctrl_valid (sc_ctrl c) /\ (sc_out_after c = 0 \/ 2 <= sc_out_after c) /\
  ((sc_buffer_size c = 0 /\ Z.of_nat (length data) <= 100) \/
   (sc_buffer_size c <> 0 /\ Z.of_nat (length data) <= sc_buffer_size c)).
