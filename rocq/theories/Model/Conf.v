(** Model of core/conf.go, kmeans/conf.go, mcmc/conf.go, streaming/conf.go and of the constructors
    kmeans/algo.go, mcmc/algo.go, streaming/algo.go and core/algo.go:37-56. *)
From Coq Require Import List ZArith Bool.
From Flocq Require Import IEEE754.BinarySingleNaN.
From Verif Require Import Base.Go Base.Num Model.Finish Model.Buffer.
Import ListNotations.
Local Open Scope Z_scope.

Inductive conf_error : Type :=
| EIterPerData | EDataPerIter | EIterFreq | ETimeout | EIter   (* core/conf.go *)
| EK                                                            (* kmeans, mcmc *)
| EMaxK                                                         (* mcmc *)
| EOutAfter.                                                    (* streaming *)

(** core/conf.go:16-24 without the StatusNotifier. *)
Record ctrl_conf : Type := mkCtrl {
  cc_iter : Z; cc_iter_freq : b64; cc_timeout : Z; cc_data_per_iter : Z; cc_iter_per_data : Z;
  cc_finishing : option finishing
}.

(** core/conf.go:27-45: [err] is only overwritten while nil. SetDefaultValues (lines 53-54) does
    nothing. *)
Definition ctrl_verify (c : ctrl_conf) : option conf_error :=
  let err := if cc_iter_per_data c <? 0 then Some EIterPerData else None in
  let check (err : option conf_error) (b : bool) (e : conf_error) :=
    match err with None => if b then Some e else None | Some _ => err end in
  let err := check err (cc_data_per_iter c <? 0) EDataPerIter in
  let err := check err (b64_ltb (cc_iter_freq c) (b64_of_Z 0)) EIterFreq in
  let err := check err (cc_timeout c <? 0) ETimeout in
  let err := check err (cc_iter c <? 0) EIter in
  err.

(** core/conf.go:9-13 *)
Record conf_ops (C : Type) : Type := mkConfOps {
  co_verify : C -> C * option conf_error;
  co_ctrl : C -> ctrl_conf;
  co_set_defaults : C -> C
}.
Arguments mkConfOps {C}. Arguments co_verify {C}. Arguments co_ctrl {C}. Arguments co_set_defaults {C}.

(** core/conf.go:57-65 *)
Definition prepare_conf {C} (ops : conf_ops C) (c : C) : C * option conf_error :=
  let c := co_set_defaults ops c in
  let '(c, err) := co_verify ops c in
  match err with
  | None => (c, ctrl_verify (co_ctrl ops c))
  | Some e => (c, Some e)
  end.

(** core/algo.go:37-56: the configuration of the algorithm; panics on an error. *)
Definition core_new_algo {C} (ops : conf_ops C) (c : C) : outcome C :=
  let '(c, err) := prepare_conf ops c in
  match err with Some _ => Panic | None => Ok c end.

Section Defaults.
(** [G] is the type of the random generators, [rgen0] the one built from the clock, [cpus] is
    runtime.NumCPU(). *)
Context {G : Type} (rgen0 : G) (cpus : Z).

Definition default_rgen (r : option G) : option G := match r with None => Some rgen0 | Some _ => r end.
Definition default_int (z d : Z) : Z := if z =? 0 then d else z.
Definition default_float (x d : b64) : b64 := if b64_eqb x (b64_of_Z 0) then d else x.

(** kmeans/conf.go:14-21 *)
Record kmeans_conf : Type := mkKmeansConf {
  km_ctrl : ctrl_conf; km_par : bool; km_k : Z; km_frame_size : Z; km_rgen : option G; km_num_cpu : Z
}.

(** kmeans/conf.go:33-41 *)
Definition kmeans_set_defaults (c : kmeans_conf) : kmeans_conf :=
  mkKmeansConf (km_ctrl c) (km_par c) (km_k c) (km_frame_size c)
    (default_rgen (km_rgen c)) (default_int (km_num_cpu c) cpus).

(** kmeans/conf.go:24-30 *)
Definition kmeans_verify (c : kmeans_conf) : kmeans_conf * option conf_error :=
  let c := kmeans_set_defaults c in (c, if km_k c <? 1 then Some EK else None).

Definition kmeans_ops : conf_ops kmeans_conf := mkConfOps kmeans_verify km_ctrl kmeans_set_defaults.

(** kmeans/algo.go:7-26: the result of Verify is discarded, its default values are kept. The
    implementation is represented by its buffer. *)
Definition kmeans_new_algo {E} (c : kmeans_conf) (data : list E) : outcome (kmeans_conf * buffer E) :=
  let c := fst (kmeans_verify c) in
  let* b := new_data_buffer data (km_frame_size c) in
  let* c := core_new_algo kmeans_ops c in
  Ok (c, b).

(** mcmc/conf.go:14-26 without the unused private fields. *)
Record mcmc_conf : Type := mkMcmcConf {
  mc_ctrl : ctrl_conf; mc_par : bool; mc_init_k : Z; mc_rgen : option G;
  mc_b : b64; mc_amp : b64; mc_r : b64; mc_norm : b64; mc_max_k : Z; mc_proba_k : list b64;
  mc_frame_size : Z; mc_num_cpu : Z
}.

(** mcmc/conf.go:29-49 *)
Definition mcmc_set_defaults (c : mcmc_conf) : mcmc_conf :=
  mkMcmcConf (mc_ctrl c) (mc_par c) (mc_init_k c) (default_rgen (mc_rgen c))
    (default_float (mc_b c) (b64_of_Z 1)) (mc_amp c) (mc_r c)
    (default_float (mc_norm c) (b64_of_Z 2)) (default_int (mc_max_k c) 16)
    (match mc_proba_k c with [] => [b64_of_Z 1; b64_of_Z 8; b64_of_Z 1] | l => l end)
    (mc_frame_size c) (default_int (mc_num_cpu c) cpus).

(** mcmc/conf.go:52-61 *)
Definition mcmc_verify (c : mcmc_conf) : mcmc_conf * option conf_error :=
  let c := mcmc_set_defaults c in
  (c, if mc_init_k c <? 1 then Some EK
      else if (mc_max_k c <? mc_init_k c) && negb (mc_max_k c =? 0) then Some EMaxK
      else None).

Definition mcmc_ops : conf_ops mcmc_conf := mkConfOps mcmc_verify mc_ctrl mcmc_set_defaults.

(** mcmc/algo.go:7-22, mcmc/seq.go:11-20 *)
Definition mcmc_new_algo {E} (c : mcmc_conf) (data : list E) : outcome (mcmc_conf * buffer E) :=
  let c := fst (mcmc_verify c) in
  let* b := new_data_buffer data (mc_frame_size c) in
  let* c := core_new_algo mcmc_ops c in
  Ok (c, b).

(** streaming/conf.go:13-21 *)
Record streaming_conf : Type := mkStreamingConf {
  sc_ctrl : ctrl_conf; sc_buffer_size : Z; sc_mu : b64; sc_sigma : b64; sc_out_ratio : b64;
  sc_out_after : Z; sc_rgen : option G
}.

(** streaming/conf.go:24-43 *)
Definition streaming_set_defaults (c : streaming_conf) : streaming_conf :=
  mkStreamingConf (sc_ctrl c) (default_int (sc_buffer_size c) 100)
    (default_float (sc_mu c) (b64_div (b64_of_Z 1) (b64_of_Z 2)))
    (default_float (sc_sigma c) (b64_div (b64_of_Z 1) (b64_of_Z 10)))
    (default_float (sc_out_ratio c) (b64_of_Z 2))
    (default_int (sc_out_after c) 5) (default_rgen (sc_rgen c)).

(** streaming/conf.go:46-52 *)
Definition streaming_verify (c : streaming_conf) : streaming_conf * option conf_error :=
  let c := streaming_set_defaults c in (c, if sc_out_after c <? 2 then Some EOutAfter else None).

Definition streaming_ops : conf_ops streaming_conf :=
  mkConfOps streaming_verify sc_ctrl streaming_set_defaults.

(** streaming/algo.go:6-13, streaming/impl.go:30-44: the implementation is represented by the queue
    of its channel. A channel of negative size panics; the sends do not wait because there are at
    most BufferSize of them. *)
Definition streaming_new_algo {E} (c : streaming_conf) (data : list E) : outcome (streaming_conf * list E) :=
  let c := fst (streaming_verify c) in
  if sc_buffer_size c <? slen data then Panic
  else
    let* q := (if sc_buffer_size c <? 0 then Panic else Ok data) in
    let* c := core_new_algo streaming_ops c in
    Ok (c, q).

End Defaults.
Arguments kmeans_conf : clear implicits.
Arguments mcmc_conf : clear implicits.
Arguments streaming_conf : clear implicits.
