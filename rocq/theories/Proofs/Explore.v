(** A finite account of the controller, for exploring all the interleavings of small sets of goroutines by
    computation: code as numbered places, locals and fields without the data. Proofs/ExploreSound.v
    shows that every execution of Model/CtrlLang.v is one of the account. *)
From Coq Require Import List ZArith Bool FMapPositive.
From Verif Require Import Base.Go Model.Status Model.Finish Model.CtrlLang Model.CtrlCode.
Import ListNotations.
Local Open Scope list_scope.

(** Code without the arguments of Wait: [any_fin] stands for any wait that is bounded or on a condition
    of the client. *)
Definition any_fin : option finishing := Some (FStatus [] false).
Definition plain_wait (f : option finishing) (d : Z) : bool :=
  match f with None => (d <=? 0)%Z | Some _ => false end.
Definition erase_g (g : getter) : getter :=
  match g with
  | GDeadline _ => GDeadline 0
  | GWait f d => if plain_wait f d then GWait None 0 else GWait any_fin 1
  | g => g
  end.
Definition erase_c (c : cond) : cond :=
  match c with CNever f d => if plain_wait f d then CNever None 0 else CNever any_fin 1 | c => c end.
Fixpoint erase (i : instr) : instr :=
  match i with
  | IGet g => IGet (erase_g g)
  | ITryAck p => ITryAck (map erase p)
  | ISpawn k p => ISpawn k (map erase p)
  | IIf c p q => IIf (erase_c c) (map erase p) (map erase q)
  | ILoop c p => ILoop (erase_c c) (map erase p)
  | IDefer p => IDefer (map erase p)
  | IStartTimer p => IStartTimer (map erase p)
  | i => i
  end.

(** Equality of erased code. *)
Definition err_eqb (a b : option algo_error) : bool :=
  if (fun x y : option algo_error => ltac:(repeat decide equality) : {x = y} + {x <> y}) a b then true else false.
Definition mutex_eqb (a b : mutex) : bool := match a, b with MStatus, MStatus | MModel, MModel => true | _, _ => false end.
Definition src_eqb (a b : err_src) : bool :=
  match a, b with SrcConst e, SrcConst e' => err_eqb e e' | SrcErr, SrcErr | SrcPanic, SrcPanic => true | _, _ => false end.
Definition stexp_eqb (a b : stexp) : bool :=
  match a, b with
  | XValue v, XValue v' => status_eqb v v' | XError s, XError s' => src_eqb s s' | XRecv, XRecv => true | _, _ => false
  end.
Definition fld_eqb (a b : chfield) : bool :=
  match a, b with FldStatus, FldStatus | FldAck, FldAck | FldNotif, FldNotif => true | _, _ => false end.
Definition mop_eqb (a b : mop) : bool :=
  match a, b with
  | MReset, MReset | MCentroids, MCentroids | MPushed, MPushed | MNewData, MNewData | MFigures, MFigures
  | MSave, MSave | MDuration, MDuration => true
  | _, _ => false
  end.
Definition fin_eqb (f g : option finishing) (d e : Z) : bool :=
  match f, g with
  | None, None => (d =? 0)%Z && (e =? 0)%Z
  | Some (FStatus [] false), Some (FStatus [] false) => (d =? 1)%Z && (e =? 1)%Z
  | _, _ => false
  end.
Definition getter_eqb (a b : getter) : bool :=
  match a, b with
  | GStatus, GStatus | GStatusErr, GStatusErr | GNewZero, GNewZero | GTest0, GTest0 | GTest1, GTest1
  | GTest2, GTest2 | GModel, GModel | GFigures, GFigures | GWaitErr, GWaitErr => true
  | GErr e, GErr e' => err_eqb e e'
  | GDeadline d, GDeadline e => (d =? e)%Z
  | GWait f d, GWait g e => fin_eqb f g d e
  | _, _ => false
  end.
Definition cond_eqb (a b : cond) : bool :=
  match a, b with
  | CStatus v, CStatus w | CVal v, CVal w => status_eqb v w
  | CErrNil, CErrNil | CInitFailed, CInitFailed | CSaved, CSaved | CPanic, CPanic | COk, COk | CGot, CGot
  | CGotIdle, CGotIdle | CGo, CGo | CNewZero, CNewZero | CAckNo, CAckNo | CHasTimeout, CHasTimeout
  | CConfTimeout, CConfTimeout | CEnabled, CEnabled | CNotifier, CNotifier | CLoop, CLoop => true
  | CNever f d, CNever g e => fin_eqb f g d e
  | _, _ => false
  end.
Definition kind_eqb (a b : kind) : bool :=
  match a, b with KClient, KClient | KRunner, KRunner | KNotifier, KNotifier | KTimer, KTimer => true | _, _ => false end.
Fixpoint instr_eqb (a b : instr) {struct a} : bool :=
  let code_eqb := fix code_eqb (p q : list instr) {struct p} : bool :=
    match p, q with [], [] => true | x :: p', y :: q' => instr_eqb x y && code_eqb p' q' | _, _ => false end in
  match a, b with
  | ILock m, ILock n | IUnlock m, IUnlock n | IRLock m, IRLock n | IRUnlock m, IRUnlock n
  | ILeak m, ILeak n => mutex_eqb m n
  | ISetStatus e, ISetStatus e' => stexp_eqb e e'
  | IModel o, IModel o' => mop_eqb o o'
  | IGet g, IGet g' => getter_eqb g g'
  | ISend f e, ISend f' e' => fld_eqb f f' && stexp_eqb e e'
  | IRecv f, IRecv f' => fld_eqb f f'
  | ITryAck p, ITryAck q => code_eqb p q
  | ITryStatus, ITryStatus | IMakeAck, IMakeAck | IMakeNotif, IMakeNotif | ICloseAck, ICloseAck
  | IImplInit, IImplInit | IIterBegin, IIterBegin | IImplIterate, IImplIterate | IImplPush, IImplPush
  | IEndDefer, IEndDefer | IDisable, IDisable => true
  | ISpawn k p, ISpawn k' q => kind_eqb k k' && code_eqb p q
  | IIf c p q, IIf c' p' q' => cond_eqb c c' && code_eqb p p' && code_eqb q q'
  | ILoop c p, ILoop c' q => cond_eqb c c' && code_eqb p q
  | IDefer p, IDefer q | IStartTimer p, IStartTimer q => code_eqb p q
  | IReturn b, IReturn b' => Bool.eqb b b'
  | _, _ => false
  end.
Fixpoint code_eqb (p q : list instr) {struct p} : bool :=
  match p, q with [], [] => true | x :: p', y :: q' => instr_eqb x y && code_eqb p' q' | _, _ => false end.

(** The places a goroutine may go to from a place. *)
Definition nexts (c : list instr) : list (list instr) :=
  match c with
  | [] => []
  | i :: k =>
      k :: match i with
           | IIf _ p q => [p ++ k; q ++ k]
           | ILoop _ p => [p ++ c]
           | ITryAck p => [p ++ k]
           | ISpawn _ p | IDefer p => [p]
           | _ => []
           end
  end.
Fixpoint places (fuel : nat) (todo table : list (list instr)) : list (list instr) :=
  match fuel, todo with
  | S n, c :: todo' => if existsb (code_eqb c) table then places n todo' table else places n (nexts c ++ todo') (c :: table)
  | _, _ => table
  end.

(** Locals that the code reads before it writes them. *)
Record live : Type := mkLive { v_recv : bool; v_val : bool; v_got : bool; v_ok : bool; v_go : bool; v_zero : bool; v_err : bool; v_panic : bool; v_cent : bool }.
Definition dead : live := mkLive false false false false false false false false false.
Definition live_or (a b : live) : live :=
  mkLive (v_recv a || v_recv b) (v_val a || v_val b) (v_got a || v_got b) (v_ok a || v_ok b) (v_go a || v_go b)
    (v_zero a || v_zero b) (v_err a || v_err b) (v_panic a || v_panic b) (v_cent a || v_cent b).
Definition needs_e (e : stexp) : live :=
  match e with
  | XRecv => mkLive true false false false false false false false false
  | XError SrcErr => mkLive false false false false false false true false false
  | XError SrcPanic => mkLive false false false false false false false true false
  | _ => dead
  end.
Definition needs_c (c : cond) : live :=
  match c with
  | CVal _ => mkLive false true false false false false false false false
  | CErrNil | CInitFailed => mkLive false false false false false false true false false
  | CSaved => mkLive false false false false false false true false true
  | CPanic => mkLive false false false false false false false true false
  | COk => mkLive false false true false false false false true false
  | CGot => mkLive false false true false false false false false false
  | CGotIdle => mkLive true false false false false false false false false
  | CGo => mkLive false false false false true false false false false
  | CNewZero => mkLive false false false false false true false false false
  | CAckNo => mkLive false false false true false false false false false
  | _ => dead
  end.
Fixpoint live_i (i : instr) (v : live) {struct i} : live :=
  let live_l := fix live_l (p : list instr) (v : live) {struct p} : live := match p with [] => v | x :: p' => live_i x (live_l p' v) end in
  match i with
  | ISetStatus e | ISend _ e => live_or (needs_e e) v
  | IModel MNewData => live_or (mkLive false true false false false false false false false) v
  | IGet GStatus => mkLive (v_recv v) false (v_got v) (v_ok v) (v_go v) (v_zero v) (v_err v) (v_panic v) (v_cent v)
  | IGet GStatusErr | IGet (GErr _) => mkLive (v_recv v) (v_val v) (v_got v) (v_ok v) (v_go v) (v_zero v) false (v_panic v) (v_cent v)
  | IGet GNewZero => mkLive (v_recv v) (v_val v) (v_got v) (v_ok v) (v_go v) false (v_err v) (v_panic v) (v_cent v)
  | IGet GTest0 => mkLive (v_recv v) (v_val v) (v_got v) (v_ok v) false (v_zero v) true (v_panic v) (v_cent v)
  | IGet GTest1 | IGet GTest2 => mkLive (v_recv v) (v_val v) (v_got v) (v_ok v) true (v_zero v) (v_err v) (v_panic v) (v_cent v)
  | IGet (GWait _ _) => mkLive (v_recv v) true (v_got v) (v_ok v) false (v_zero v) (v_err v) (v_panic v) (v_cent v)
  | IGet GWaitErr => mkLive (v_recv v) true (v_got v) (v_ok v) (v_go v) (v_zero v) true (v_panic v) (v_cent v)
  | IRecv FldStatus => mkLive false (v_val v) false (v_ok v) (v_go v) (v_zero v) (v_err v) (v_panic v) (v_cent v)
  | IRecv FldAck => mkLive (v_recv v) (v_val v) (v_got v) false (v_go v) (v_zero v) (v_err v) (v_panic v) (v_cent v)
  | ITryStatus => mkLive (v_recv v) (v_val v) false (v_ok v) (v_go v) (v_zero v) (v_err v) (v_panic v) (v_cent v)
  | IIf c p q => live_or (needs_c c) (live_or (live_l p v) (live_l q v))
  | ILoop c p => let w := live_or (needs_c c) v in live_or w (live_l p w)
  | ITryAck p => live_or v (live_l p v)
  | IImplInit => mkLive (v_recv v) (v_val v) (v_got v) (v_ok v) (v_go v) (v_zero v) false (v_panic v) false
  | IImplIterate => mkLive (v_recv v) (v_val v) (v_got v) (v_ok v) (v_go v) (v_zero v) false true false
  | IImplPush => mkLive (v_recv v) (v_val v) (v_got v) (v_ok v) (v_go v) (v_zero v) false (v_panic v) (v_cent v)
  | IDefer p => live_or v (live_l p v)
  | IReturn true => mkLive (v_recv v) (v_val v) (v_got v) (v_ok v) (v_go v) (v_zero v) true (v_panic v) (v_cent v)
  | _ => v
  end.
Fixpoint live_code (p : list instr) : live := match p with [] => dead | x :: p' => live_i x (live_code p') end.

(** A numbered place: its statement, the places after it, and the locals kept there. [n_a], [n_b]: the places of
    the branches, of the body, of the default branch, or of the code spawned or deferred. *)
Record node : Type := mkNode { n_instr : instr; n_next : positive; n_a : positive; n_b : positive; n_live : live }.
Record program : Type := mkProgram { g_codes : PositiveMap.t (list instr); g_nodes : PositiveMap.t node }.

Fixpoint number {A} (n : positive) (l : list A) (m : PositiveMap.t A) : PositiveMap.t A :=
  match l with [] => m | x :: l' => number (Pos.succ n) l' (PositiveMap.add n x m) end.
Fixpoint index (c : list instr) (n : positive) (l : list (list instr)) : positive :=
  match l with [] => 1 | x :: l' => if code_eqb c x then n else index c (Pos.succ n) l' end.
Definition dummy : node := mkNode IDisable 1 1 1 dead.
Definition node_of (table : list (list instr)) (c : list instr) : node :=
  let ix c := index c 1 table in
  match c with
  | [] => dummy
  | i :: k =>
      let v := live_code c in
      match i with
      | IIf _ p q => mkNode i (ix k) (ix (p ++ k)) (ix (q ++ k)) v
      | ILoop _ p => mkNode i (ix k) (ix (p ++ c)) 1 v
      | ITryAck p => mkNode i (ix k) (ix (p ++ k)) 1 v
      | ISpawn _ p | IDefer p => mkNode i (ix k) (ix p) 1 v
      | _ => mkNode i (ix k) 1 1 v
      end
  end.
Definition make_program (entries : list (list instr)) : program * list positive :=
  let table := places 5000 entries [] in
  (mkProgram (number 1 table (PositiveMap.empty _)) (number 1 (map (node_of table) table) (PositiveMap.empty _)), map (fun c => index c 1 table) entries).

(** Errors: none, one of those of the controller, another one. *)
Inductive aerr : Type := ANone | AAlready | ANotRunning | ARunning | AIdling | ATimeout | ANever | ANotAlive | AOther.
Definition abs_err (e : option algo_error) : aerr :=
  match e with
  | None => ANone
  | Some ErrAlreadyCreated => AAlready | Some ErrNotRunning => ANotRunning | Some ErrRunning => ARunning | Some ErrIdle => AIdling
  | Some ErrTimeout => ATimeout | Some ErrNeverFinish => ANever | Some ErrNotAlive => ANotAlive | Some _ => AOther
  end.
Definition astatus : Type := clust_status * aerr.
Definition abs_st (s : oc_status) : astatus := (st_value s, abs_err (st_error s)).
Definition aerr_eqb (a b : aerr) : bool := 
  match a, b with
  | ANone, ANone | AAlready, AAlready | ANotRunning, ANotRunning | ARunning, ARunning | AIdling, AIdling | ATimeout, ATimeout | ANever, ANever
  | ANotAlive, ANotAlive | AOther, AOther => true
  | _, _ => false
  end.
Definition astatus_eqb (a b : astatus) : bool := status_eqb (fst a) (fst b) && aerr_eqb (snd a) (snd b).

(** Locals; None: forgotten. *)
Record aloc : Type := mkAloc {
  x_recv : option astatus; x_val : option astatus; x_got : option bool; x_ok : option bool; x_go : option bool;
  x_zero : option bool; x_err : option aerr; x_panic : option bool; x_cent : option bool }.
Definition aloc0 : aloc :=
  mkAloc (Some (Running, ANone)) (Some (Created, ANone)) (Some false) (Some false) (Some false) (Some false) (Some ANone) (Some false) (Some false).
Definition keep {A} (b : bool) (x : option A) : option A := if b then x else None.
Definition keep_live (v : live) (l : aloc) : aloc :=
  mkAloc (keep (v_recv v) (x_recv l)) (keep (v_val v) (x_val l)) (keep (v_got v) (x_got l)) (keep (v_ok v) (x_ok l)) (keep (v_go v) (x_go l))
    (keep (v_zero v) (x_zero l)) (keep (v_err v) (x_err l)) (keep (v_panic v) (x_panic l)) (keep (v_cent v) (x_cent l)).
Definition aset_recv l x := mkAloc x (x_val l) (x_got l) (x_ok l) (x_go l) (x_zero l) (x_err l) (x_panic l) (x_cent l).
Definition aset_val l x := mkAloc (x_recv l) x (x_got l) (x_ok l) (x_go l) (x_zero l) (x_err l) (x_panic l) (x_cent l).
Definition aset_got l x := mkAloc (x_recv l) (x_val l) x (x_ok l) (x_go l) (x_zero l) (x_err l) (x_panic l) (x_cent l).
Definition aset_ok l x := mkAloc (x_recv l) (x_val l) (x_got l) x (x_go l) (x_zero l) (x_err l) (x_panic l) (x_cent l).
Definition aset_go l x := mkAloc (x_recv l) (x_val l) (x_got l) (x_ok l) x (x_zero l) (x_err l) (x_panic l) (x_cent l).
Definition aset_zero l x := mkAloc (x_recv l) (x_val l) (x_got l) (x_ok l) (x_go l) x (x_err l) (x_panic l) (x_cent l).
Definition aset_err l x := mkAloc (x_recv l) (x_val l) (x_got l) (x_ok l) (x_go l) (x_zero l) x (x_panic l) (x_cent l).
Definition aset_panic l x := mkAloc (x_recv l) (x_val l) (x_got l) (x_ok l) (x_go l) (x_zero l) (x_err l) x (x_cent l).
Definition aset_cent l x := mkAloc (x_recv l) (x_val l) (x_got l) (x_ok l) (x_go l) (x_zero l) (x_err l) (x_panic l) x.

(** Where a goroutine is within a statement. Ack channels have numbers of their own. *)
Inductive achan : Type := AStatus | ANotif | AAck (n : nat).
Definition achan_eqb (a b : achan) : bool :=
  match a, b with AStatus, AStatus | ANotif, ANotif => true | AAck n, AAck m => Nat.eqb n m | _, _ => false end.
Inductive amode : Type := AAt | AAcquire (m : mutex) | ASending (c : achan) (v : astatus) | AReceiving (c : achan).
(** [t_phase]: what a client may call next. *)
Record athread : Type := mkAthread { t_kind : kind; t_phase : nat; t_pc : positive; t_mode : amode; t_loc : aloc; t_defer : option positive }.
Inductive aholder : Type := AFree | ABy (i : nat) | ALeaked.
Record alock : Type := mkAlock { k_holder : aholder; k_pending : option nat; k_readers : list nat }.
Record astate : Type := mkAstate {
  a_status : astatus; a_ls : alock; a_lm : alock; a_new : bool; a_notif : bool; a_ack : nat; a_closed : list nat;
  a_th : list (option athread) }.

(** What the data may do: values of the finishing condition of the runs, results of the implementation (a
    panic is [None]), whether a Wait without argument is refused, whether DataPerIter is positive; the calls of
    the clients in each phase with the phase that follows; whether the code of a place is over. *)
Record setting : Type := mkSetting {
  z_prog : program;
  z_fin : list bool;
  z_init : list (bool * bool);
  z_iter : list (option (bool * bool));
  z_push : list bool;
  z_never : bool;
  z_dpi : bool;
  z_calls : nat -> list (positive * nat)
}.

Section Steps.
  Variable z : setting.
  Definition node_at (pc : positive) : node := match PositiveMap.find pc (g_nodes (z_prog z)) with Some n => n | None => dummy end.
  Definition over (pc : positive) : bool := match PositiveMap.find pc (g_codes (z_prog z)) with Some [] => true | _ => false end.

  Definition alock_of (m : mutex) (a : astate) : alock := match m with MStatus => a_ls a | MModel => a_lm a end.
  Definition aset_lock (m : mutex) (l : alock) (a : astate) : astate :=
    match m with
    | MStatus => mkAstate (a_status a) l (a_lm a) (a_new a) (a_notif a) (a_ack a) (a_closed a) (a_th a)
    | MModel => mkAstate (a_status a) (a_ls a) l (a_new a) (a_notif a) (a_ack a) (a_closed a) (a_th a)
    end.
  Definition aset_status s a := mkAstate s (a_ls a) (a_lm a) (a_new a) (a_notif a) (a_ack a) (a_closed a) (a_th a).
  Definition aset_new b a := mkAstate (a_status a) (a_ls a) (a_lm a) b (a_notif a) (a_ack a) (a_closed a) (a_th a).
  Definition aset_notif b a := mkAstate (a_status a) (a_ls a) (a_lm a) (a_new a) b (a_ack a) (a_closed a) (a_th a).
  Definition aset_ack n c a := mkAstate (a_status a) (a_ls a) (a_lm a) (a_new a) (a_notif a) n c (a_th a).
  Definition aset_th ths a := mkAstate (a_status a) (a_ls a) (a_lm a) (a_new a) (a_notif a) (a_ack a) (a_closed a) ths.

  Definition lock_refers (i : nat) (l : alock) : bool :=
    match k_holder l with ABy j => Nat.eqb i j | _ => false end || match k_pending l with Some j => Nat.eqb i j | None => false end
    || existsb (Nat.eqb i) (k_readers l).
  Definition refers (i : nat) (a : astate) : bool := lock_refers i (a_ls a) || lock_refers i (a_lm a).

  Definition at_place (th : athread) (pc : positive) (l : aloc) : athread :=
    mkAthread (t_kind th) (t_phase th) pc AAt (keep_live (n_live (node_at pc)) l) (t_defer th).
  Definition enter (th : athread) (e : positive * nat) : athread :=
    mkAthread (t_kind th) (snd e) (fst e) AAt (keep_live (n_live (node_at (fst e))) (t_loc th)) (t_defer th).
  (** Goroutine [i] goes to a place. At the end of its code it disappears, or makes its next call. *)
  Definition go_to (i : nat) (th : athread) (pc : positive) (l : aloc) (a : astate) : option (list astate) :=
    let th' := at_place th pc l in
    if over pc then
      match t_kind th with
      | KClient => Some (map (fun th => aset_th (upd (a_th a) i (Some th)) a) (th' :: map (enter th') (z_calls z (t_phase th))))
      | _ => if refers i a then None else Some [aset_th (upd (a_th a) i None) a]
      end
    else Some [aset_th (upd (a_th a) i (Some th')) a].
  Definition in_mode (i : nat) (th : athread) (m : amode) (a : astate) : option (list astate) :=
    Some [aset_th (upd (a_th a) i (Some (mkAthread (t_kind th) (t_phase th) (t_pc th) m (t_loc th) (t_defer th)))) a].

  Fixpoint free_slot (n : nat) (ths : list (option athread)) : nat :=
    match ths with [] => n | None :: _ => n | Some _ :: ths' => free_slot (S n) ths' end.
  Definition add_thread (th : athread) (a : astate) : astate :=
    let i := free_slot 0 (a_th a) in
    aset_th (if Nat.ltb i (length (a_th a)) then upd (a_th a) i (Some th) else a_th a ++ [Some th]) a.

  Definition mode_acks (m : amode) : list nat := match m with ASending (AAck n) _ | AReceiving (AAck n) => [n] | _ => [] end.
  Definition acks (ths : list (option athread)) : list nat := flat_map (fun o => match o with Some th => mode_acks (t_mode th) | None => [] end) ths.
  Fixpoint fresh (fuel n : nat) (l : list nat) : nat :=
    match fuel with O => n | S f => if existsb (Nat.eqb n) l then fresh f (S n) l else n end.

  Definition aclosed (c : achan) (a : astate) : bool := match c with AAck n => existsb (Nat.eqb n) (a_closed a) | _ => false end.
  Definition achan_of (f : chfield) (a : astate) : option achan :=
    match f with FldStatus => Some AStatus | FldAck => Some (AAck (a_ack a)) | FldNotif => if a_notif a then Some ANotif else None end.
  Definition aparked (c : achan) (ths : list (option athread)) : bool :=
    existsb (fun o => match o with Some th => match t_mode th with ASending c' _ => achan_eqb c c' | _ => false end | None => false end) ths.

  Definition aeval_st (e : stexp) (l : aloc) : option astatus :=
    match e with
    | XValue v => Some (v, ANone)
    | XError (SrcConst e) => Some (Finished, abs_err e)
    | XError SrcErr => option_map (fun e => (Finished, e)) (x_err l)
    | XError SrcPanic => match x_panic l with Some true => Some (Finished, AOther) | Some false => Some (Finished, ANone) | None => None end
    | XRecv => x_recv l
    end.
  Definition is_none (e : aerr) : bool := match e with ANone => true | _ => false end.
  Definition aeval_cond (c : cond) (a : astate) (l : aloc) : option bool :=
    match c with
    | CStatus v => Some (status_eqb (fst (a_status a)) v)
    | CVal v => option_map (fun s => status_eqb (fst s) v) (x_val l)
    | CErrNil => option_map is_none (x_err l)
    | CInitFailed => option_map (fun e => match e with ANone | AAlready => false | _ => true end) (x_err l)
    | CSaved => match x_err l, x_cent l with Some e, Some b => Some (is_none e && b) | _, _ => None end
    | CPanic => x_panic l
    | COk => match x_got l, x_panic l with Some g, Some p => Some (g && negb p) | _, _ => None end
    | CGot => x_got l
    | CGotIdle => option_map (fun s => status_eqb (fst s) Idle) (x_recv l)
    | CGo => x_go l
    | CNewZero => x_zero l
    | CAckNo => option_map negb (x_ok l)
    | CHasTimeout | CConfTimeout => Some false
    | CNever None _ => Some (z_never z)
    | CNever (Some _) _ => Some false
    | CLoop => Some true
    | CEnabled | CNotifier => None
    end.
  Definition waited (v : astatus) : bool :=
    negb (is_none (snd v)) || match fst v with Ready | Idle | Finished => true | _ => false end.
  (** The possible values of the locals after a read. *)
  Definition aeval_get (g : getter) (a : astate) (l : aloc) : option (list aloc) :=
    match g with
    | GStatus => Some [aset_val l (Some (a_status a))]
    | GStatusErr => Some [aset_err l (Some (snd (a_status a)))]
    | GErr e => Some [aset_err l (Some (abs_err e))]
    | GNewZero => Some [aset_zero l (Some (a_new a))]
    | GTest0 => option_map (fun e => [aset_go l (Some (is_none e))]) (x_err l)
    | GTest1 => option_map (fun g => [aset_go l (Some (g && status_eqb (fst (a_status a)) Running))]) (x_go l)
    | GTest2 => option_map (fun g => map (fun b => aset_go l (Some (g && negb b))) (z_fin z)) (x_go l)
    | GModel | GFigures | GDeadline _ => Some [l]
    | GWait None _ =>
        option_map (fun v => if waited v then [aset_err (aset_go l (Some false)) (Some ANone)] else [aset_go l (Some true)]) (x_val l)
    | GWait (Some _) _ =>
        Some [aset_err (aset_go l (Some false)) (Some ANone); aset_err (aset_go l (Some false)) (Some ATimeout); aset_go l (Some true)]
    | GWaitErr =>
        match x_err l, x_val l with
        | Some ANone, Some v => Some [aset_err l (Some (snd v))]
        | Some ANone, None | None, _ => None
        | Some _, _ => Some [l]
        end
    end.
  (** Whether newData is zero after the update. *)
  Definition amop (op : mop) (a : astate) (l : aloc) : option (list astate) :=
    match op with
    | MNewData =>
        match x_val l with
        | Some v => Some (if status_eqb (fst v) Ready && z_dpi z then [aset_new true a; aset_new false a] else [aset_new false a])
        | None => None
        end
    | _ => Some [a]
    end.

  Fixpoint each {A} (f : A -> option (list astate)) (l : list A) : option (list astate) :=
    match l with
    | [] => Some []
    | x :: l' => match f x, each f l' with Some r, Some r' => Some (r ++ r') | _, _ => None end
    end.

  Definition apanic (i : nat) (th : athread) (a : astate) : option (list astate) :=
    match t_defer th with
    | Some d => go_to i (mkAthread (t_kind th) (t_phase th) d AAt (t_loc th) None) d (aset_panic (t_loc th) (Some true)) a
    | None => None
    end.
  Definition err_of (b : bool) : aerr := if b then AOther else ANone.

  (** One step of goroutine [i], alone; [None]: out of the account. *)
  Definition asolo (i : nat) (a : astate) : option (list astate) :=
    match nth_error (a_th a) i with
    | Some (Some th) =>
        let l := t_loc th in
        let nd := node_at (t_pc th) in
        let next := go_to i th (n_next nd) in
        match t_mode th with
        | AAcquire m =>
            let r := alock_of m a in
            match k_holder r, k_pending r, k_readers r with
            | AFree, Some j, [] => if Nat.eqb i j then next l (aset_lock m (mkAlock (ABy i) None []) a) else Some []
            | _, _, _ => Some []
            end
        | ASending c v => if aclosed c a then apanic i th a else Some []
        | AReceiving c => if aclosed c a then next (aset_ok l (Some false)) a else Some []
        | AAt =>
            if over (t_pc th) then Some [] else
            match n_instr nd with
            | ILock m =>
                let r := alock_of m a in
                match k_holder r, k_pending r with
                | AFree, None => in_mode i th (AAcquire m) (aset_lock m (mkAlock AFree (Some i) (k_readers r)) a)
                | _, _ => Some []
                end
            | IUnlock m =>
                let r := alock_of m a in
                match k_holder r with
                | AFree => None
                | _ => next l (aset_lock m (mkAlock AFree (k_pending r) (k_readers r)) a)
                end
            | IRLock m =>
                let r := alock_of m a in
                match k_holder r, k_pending r with
                | AFree, None => next l (aset_lock m (mkAlock AFree None (i :: k_readers r)) a)
                | _, _ => Some []
                end
            | IRUnlock m =>
                let r := alock_of m a in
                if existsb (Nat.eqb i) (k_readers r)
                then next l (aset_lock m (mkAlock (k_holder r) (k_pending r) (remove1 i (k_readers r))) a) else None
            | ISetStatus e => match aeval_st e l with Some v => next l (aset_status v a) | None => None end
            | IModel op => match amop op a l with Some r => each (next l) r | None => None end
            | IGet g => match aeval_get g a l with Some r => each (fun l => next l a) r | None => None end
            | ISend f e =>
                match achan_of f a with
                | None => Some []
                | Some c =>
                    if aclosed c a then apanic i th a
                    else match aeval_st e l with Some v => in_mode i th (ASending c v) a | None => None end
                end
            | IRecv f => match achan_of f a with None => Some [] | Some c => in_mode i th (AReceiving c) a end
            | ITryStatus => if aparked AStatus (a_th a) then Some [] else next (aset_got l (Some false)) a
            | ITryAck _ =>
                let c := AAck (a_ack a) in
                if aclosed c a then next l a else if aparked c (a_th a) then Some [] else go_to i th (n_a nd) l a
            | IMakeAck =>
                let used := acks (a_th a) in
                let n := fresh (S (length used)) 0 used in
                if existsb (Nat.eqb n) used then None
                else next l (aset_ack n (filter (fun m => negb (Nat.eqb n m)) (a_closed a)) a)
            | IMakeNotif => next l (aset_notif true a)
            | ICloseAck =>
                if aclosed (AAck (a_ack a)) a then apanic i th a
                else next l (aset_ack (a_ack a) (a_ack a :: a_closed a) a)
            | ISpawn k _ =>
                if over (n_a nd) || kind_eqb k KClient then None
                else next l (add_thread (mkAthread k 0 (n_a nd) AAt (keep_live (n_live (node_at (n_a nd))) aloc0) None) a)
            | IIf c _ _ => match aeval_cond c a l with Some b => go_to i th (if b then n_a nd else n_b nd) l a | None => None end
            | ILoop c _ => match aeval_cond c a l with Some b => if b then go_to i th (n_a nd) l a else next l a | None => None end
            | IImplInit => each (fun r => next (aset_err (aset_cent l (Some (fst r))) (Some (err_of (snd r)))) a) (z_init z)
            | IIterBegin => next l a
            | IImplIterate =>
                each (fun r => match r with
                               | Some r => next (aset_err (aset_cent l (Some (fst r))) (Some (err_of (snd r)))) a
                               | None => apanic i th a
                               end) (z_iter z)
            | IImplPush => each (fun b => next (aset_err l (Some (err_of b))) a) (z_push z)
            | IDefer _ => if kind_eqb (t_kind th) KClient then None else go_to i (mkAthread (t_kind th) (t_phase th) (t_pc th) AAt l (Some (n_a nd))) (n_next nd) l a
            | IEndDefer => go_to i (mkAthread (t_kind th) (t_phase th) (t_pc th) AAt l None) (n_next nd) l a
            | IReturn _ => next l a
            | _ => None
            end
        end
    | _ => Some []
    end.

  Definition adeliver (c : achan) (v : astatus) (l : aloc) : aloc :=
    match c with
    | AStatus => aset_got (aset_recv l (Some v)) (Some true)
    | ANotif => l
    | AAck _ => aset_ok l (Some true)
    end.
  Definition areceives (c : achan) (a : astate) (th : athread) : bool :=
    match t_mode th with
    | AReceiving c' => achan_eqb c c'
    | AAt =>
        negb (over (t_pc th)) &&
        match n_instr (node_at (t_pc th)) with
        | ITryStatus => achan_eqb c AStatus
        | ITryAck _ => achan_eqb c (AAck (a_ack a))
        | _ => false
        end
    | _ => false
    end.
  Definition acomm (i j : nat) (a : astate) : option (list astate) :=
    if Nat.eqb i j then Some [] else
    match nth_error (a_th a) i, nth_error (a_th a) j with
    | Some (Some th), Some (Some thr) =>
        match t_mode th with
        | ASending c v =>
            if aclosed c a then Some []
            else if areceives c a thr then
              match go_to i th (n_next (node_at (t_pc th))) (t_loc th) a with
              | Some r => each (go_to j thr (n_next (node_at (t_pc thr))) (adeliver c v (t_loc thr))) r
              | None => None
              end
            else Some []
        | _ => Some []
        end
    | _, _ => Some []
    end.

  Inductive label : Type := LSolo (i : nat) | LComm (i j : nat).
  Definition amove (x : label) (a : astate) : option (list astate) :=
    match x with LSolo i => asolo i a | LComm i j => acomm i j a end.
  Definition labels (a : astate) : list label :=
    let n := seq 0 (length (a_th a)) in map LSolo n ++ flat_map (fun i => map (LComm i) n) n.
End Steps.
