(** The controller together with an implementation: core/ctrl.go used by one client at call
    granularity (Model/CtrlSeq.v), where the results of Init, Iterate and Push are computed by the
    implementation instead of being arbitrary; and the two implementations kmeans/impl.go and
    streaming/impl.go as such implementations. *)
From Coq Require Import String List ZArith Bool.
From Verif Require Import Base.Go Base.Num Model.Clustering Model.Par Model.Buffer Model.Kmeans Model.KmeansInit Model.Streaming
  Model.Status Model.Finish Model.CtrlLang Model.CtrlCode Model.CtrlSeq.
Import ListNotations.
Local Open Scope list_scope.

(** core/impl.go:4-12. [I]: the state of the implementation; [D]: the random values a call draws.
    Init and Iterate get the centroids of the model, Push whether its status is alive. None: the call
    does not return (it waits, or panics in the goroutine of the client). *)
Record implem (E C I D : Type) : Type := mkImplem {
  im_init : D -> I -> option (I * (option C * option nat));
  im_iterate : D -> I -> option C -> I * iter_result C;
  im_push : I -> E -> bool -> option (I * option nat)
}.
Arguments mkImplem {E C I D}.
Arguments im_init {E C I D}. Arguments im_iterate {E C I D}. Arguments im_push {E C I D}.

Section System.
  Context {E C I D : Type}.
  Variable cf : cconf.
  Variable im : implem E C I D.

  (** The fields of the controller and the state of the implementation. *)
  Definition sys_st : Type := seq_st C * I.

  (** core/ctrl.go:281-283: an iteration is given the current centroids. *)
  Inductive sys_progress : Type := STurn (d : D) (duration now : Z) | STimer (now : Z).
  Definition sys_advance (p : sys_progress) (s : sys_st) : sys_st :=
    let (q, i) := s in
    match p with
    | STurn d duration now =>
        match q_run q with
        | AtSelect =>
            let (i', r) := im_iterate im d i (m_centroids (q_model q)) in
            (advance cf (PTurn r duration now) q, i')
        | _ => (q, i)
        end
    | STimer now => (advance cf (PTimer now) q, i)
    end.
  Definition sys_advances (l : list sys_progress) (s : sys_st) : sys_st :=
    fold_left (fun s p => sys_advance p s) l s.

  (** core/ctrl.go:67-98: Init of the implementation is called in status Created or Finished. *)
  Definition inits (q : seq_st C) : bool :=
    match st_value (q_status q) with Created | Finished => true | _ => false end.
  Definition impl_result (d : D) (s : sys_st) : option (I * (option C * option nat)) :=
    if inits (fst s) then im_init im d (snd s) else Some (snd s, (None, None)).

  Definition sys_init (d : D) (s : sys_st) : option (sys_st * option algo_error) :=
    match impl_result d s with
    | None => None
    | Some (i, r) => let (q, e) := init_seq r (fst s) in Some ((q, i), e)
    end.
  Definition sys_play (d : D) (s : sys_st) : option (sys_st * option algo_error) :=
    match impl_result d s with
    | None => None
    | Some (i, r) => match play_seq cf r (fst s) with None => None | Some (q, e) => Some ((q, i), e) end
    end.
  Definition lift (i : I) (o : option (seq_st C * option algo_error)) : option (sys_st * option algo_error) :=
    match o with None => None | Some (q, e) => Some ((q, i), e) end.

  (** core/ctrl.go:22-44. The status is alive or not when the implementation gets the element; the
      automatic Play happens in status Ready, where nothing is initialized. *)
  Definition sys_push (x : E) (now : Z) (s : sys_st) : option (sys_st * option algo_error) :=
    let (q, i) := s in
    match im_push im i x (st_alive (q_status q)) with
    | None => None
    | Some (i', err) => lift i' (push_seq cf err (None, None) now q)
    end.

  (** core/ctrl.go:156-173 *)
  Definition sys_wait (f : option finishing) (d start : Z) (ps : list (Z * list sys_progress)) (s : sys_st)
    : option (sys_st * option algo_error) :=
    match st_value (q_status (fst s)) with
    | Running =>
        if never_finish cf f d then Some (s, Some ErrNeverFinish)
        else wait_timeout (fun s => q_fin (fst s)) sys_advances f d start ps s
    | Idle => Some (s, Some ErrIdle)
    | Ready | Finished => Some (s, None)
    | _ => Some (s, Some ErrNotRunning)
    end.

  (** core/ctrl.go:47-57 *)
  Definition sys_batch (d : D) (start now : Z) (mid : list sys_progress) (ps : list (Z * list sys_progress)) (s : sys_st)
    : option (sys_st * option algo_error) :=
    match interrupt None now (fst s) with
    | None => None
    | Some (q, _) =>
        match sys_play d (settle cf now q, snd s) with
        | None => None
        | Some (s, Some e) => Some (s, Some e)
        | Some (s, None) =>
            match sys_wait None 0 start ps (sys_advances mid (settle cf now (fst s), snd s)) with
            | None => None
            | Some (s, Some e) => Some (s, Some e)
            | Some (s, None) =>
                match interrupt None now (fst s) with None => None | Some (q, _) => Some ((q, snd s), None) end
            end
        end
    end.

  (** A call with its element, the draws of the initialization, the clock and the schedule; [now] is the
      time at which it ends. *)
  Inductive sys_call : Type :=
  | YInit (d : D) | YPlay (d : D) | YPause | YStop
  | YWait (f : option finishing) (timeout start : Z) (polls : list (Z * list sys_progress))
  | YPush (x : E) (now : Z)
  | YBatch (d : D) (start : Z) (mid : list sys_progress) (polls : list (Z * list sys_progress)).
  Definition sys_do (c : sys_call) (now : Z) (s : sys_st) : option (sys_st * option algo_error) :=
    if q_locked (fst s) then None else
    match c with
    | YInit d => sys_init d s
    | YPlay d => sys_play d s
    | YPause => lift (snd s) (pause_seq (fst s))
    | YStop => lift (snd s) (interrupt None now (fst s))
    | YWait f d start ps => sys_wait f d start ps s
    | YPush x time => sys_push x time s
    | YBatch d start mid ps => sys_batch d start now mid ps s
    end.

  (** As [act] of Model/CtrlSeq.v: after a call the run goroutine goes to the select of its loop, to
      receiveStatus or to its end. *)
  Inductive sys_action : Type := YCall (c : sys_call) (now : Z) | YProgress (p : sys_progress).
  Definition sys_act (x : sys_action) (s : sys_st) : option sys_st :=
    match x with
    | YCall c now =>
        match sys_do c now s with
        | None => None
        | Some ((q, i), e) => Some (settle cf now (q_event q (EvReturn 0 e)), i)
        end
    | YProgress p => Some (sys_advance p s)
    end.
  Fixpoint sys_acts (xs : list sys_action) (s : sys_st) : option sys_st :=
    match xs with
    | [] => Some s
    | x :: xs' => match sys_act x s with None => None | Some s' => sys_acts xs' s' end
    end.
End System.
Arguments sys_st : clear implicits.
Arguments sys_progress : clear implicits.
Arguments sys_call : clear implicits.
Arguments sys_action : clear implicits.

Section Kmeans.
  Context {E F : Type} (N : Num F) (Sp : Space E F).
  (** Draws, and the initializer on draws and data: None when it panics or draws for ever; else
      centroids and error (kmeans/init.go; Model/KmeansInit.v). *)
  Context {D : Type} (initializer : D -> list E -> option (option (list E) * option nat)).
  Variable par : option Z.

  (** A Clust without nil elements. *)
  Fixpoint all_some (l : list (option E)) : option (list E) :=
    match l with
    | [] => Some []
    | None :: _ => None
    | Some x :: l' => option_map (cons x) (all_some l')
    end.

  (** kmeans/impl.go:20-43. The iterations are given an empty list for a nil Clust; results with nil
      elements are taken for panics (there are none: C18). A panic of the parallel strategy would
      kill the process instead of being recovered (there is none: C03, C18). *)
  Definition kmeans_implem : implem E (list E) (buffer E) D :=
    mkImplem
      (fun d b =>
         match buffer_apply b with
         | Panic => None
         | Ok b => match initializer d (bdata b) with None => None | Some r => Some (b, r) end
         end)
      (fun _ b c =>
         match strategy_iterate N Sp par (match c with Some c => c | None => [] end) (bdata b), buffer_apply b with
         | Ok l, Ok b' => match all_some l with Some c' => (b', IterRes (Some c') None None) | None => (b', IterPanic 0) end
         | _, _ => (b, IterPanic 0)
         end)
      (fun b x alive => match buffer_push b x alive with
                        | None => None
                        | Some Panic => None
                        | Some (Ok b') => Some (b', None)
                        end).
End Kmeans.

Section Initializers.
  Context {E F : Type} (N : Num F) (Sp : Space E F).

  (** The error of an initialization. *)
  Definition error_code (e : init_error) : nat := match e with ErrKLow => 1 | ErrFewElemts => 2 | ErrNullSet => 3 end.
  (** With an error the Clust, nil or holding nil elements, is taken for nil. *)
  Definition init_result_of (r : outcome (list (option E) * option init_error)) : option (option (list E) * option nat) :=
    match r with
    | Panic => None
    | Ok (l, e) => Some (all_some l, option_map error_code e)
    end.

  (** kmeans/init.go:36, :77 and :50 as initializers of an implementation. The draws of RandInitializer
      are the values of Intn; those of PPInitializer a value of Intn and the values of Float64. *)
  Definition with_given (k : Z) (_ : unit) (data : list E) : option (option (list E) * option nat) :=
    init_result_of (given_initializer Sp k data).
  Definition with_rand (k : Z) (draws : list Z) (data : list E) : option (option (list E) * option nat) :=
    match rand_initializer Sp k data draws with None => None | Some r => init_result_of r end.
  Definition with_pp (degree k : Z) (d : Z * (nat -> F)) (data : list E) : option (option (list E) * option nat) :=
    init_result_of (pp_initializer N Sp degree k data (fst d) (snd d)).
End Initializers.

Section StreamingImpl.
  Context {E F : Type} (N : Num F) (Sp : Space E F).
  Variables (buffer_size out_after : Z) (out_ratio : F).
  (** The float64 of a number. *)
  Variable to64 : F -> b64.

  (** streaming/impl.go:47-84; the draw of an iteration is its threshold. *)
  Definition streaming_implem : implem E (list E) (streaming E F) F :=
    mkImplem
      (fun _ s => let (s', c) := streaming_init N s in
                  Some (s', match c with Some c => (Some c, None) | None => (None, Some 1) end))
      (fun t s _ => match streaming_iterate N Sp out_after out_ratio s t with
                    | Panic => (s, IterPanic 0)
                    | Ok (s', c) => (s', IterRes c (Some [("maxDistance"%string, to64 (s_max s'))]) None)
                    end)
      (fun s x _ => let (s', full) := streaming_push buffer_size s x in Some (s', if full then Some 2 else None)).
End StreamingImpl.
