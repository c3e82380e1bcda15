(** The exploration of the account of Proofs/Explore.v: the set of the states, closed under the moves. *)
From Coq Require Import List ZArith Bool FMapPositive.
From Verif Require Import Base.Go Model.Status Model.Finish Model.CtrlLang Model.CtrlCode Proofs.Explore.
Import ListNotations.
Local Open Scope list_scope.

(** A key for each state. Nothing is proved about it: states are compared when they are found. *)
Fixpoint key_pos (p acc : positive) : positive :=
  match p with xH => xO (xO acc) | xO p' => key_pos p' (xO (xI acc)) | xI p' => key_pos p' (xI (xI acc)) end.
Definition key_nat (n : nat) (acc : positive) : positive := key_pos (Pos.of_succ_nat n) acc.
Definition key_bool (b : bool) (acc : positive) : positive := if b then xI acc else xO acc.
Definition key_opt {A} (f : A -> positive -> positive) (x : option A) (acc : positive) : positive :=
  match x with None => xO acc | Some a => f a (xI acc) end.
Definition key_list {A} (f : A -> positive -> positive) (l : list A) (acc : positive) : positive :=
  fold_left (fun acc a => f a (xI acc)) l (xO acc).
Definition key_v (v : clust_status) (acc : positive) : positive :=
  match v with
  | Created => xO (xO (xO acc)) | Initializing => xO (xO (xI acc)) | Ready => xO (xI (xO acc))
  | Running => xO (xI (xI acc)) | Idle => xI (xO (xO acc)) | Finished => xI (xO (xI acc))
  end.
Definition key_e (e : aerr) (acc : positive) : positive := 
  match e with
  | ANone => xO (xO (xO (xO acc))) | AAlready => xO (xO (xO (xI acc))) | ANotRunning => xO (xO (xI (xO acc))) | ARunning => xO (xO (xI (xI acc)))
  | AIdling => xO (xI (xO (xO acc))) | ATimeout => xO (xI (xO (xI acc))) | ANever => xO (xI (xI (xO acc))) | ANotAlive => xO (xI (xI (xI acc)))
  | AOther => xI (xO (xO (xO acc)))
  end.
Definition key_st (s : astatus) (acc : positive) : positive := key_e (snd s) (key_v (fst s) acc).
Definition key_chan (c : achan) (acc : positive) : positive := match c with AStatus => xO (xO acc) | ANotif => xO (xI acc) | AAck n => key_nat n (xI acc) end.
Definition key_mode (m : amode) (acc : positive) : positive :=
  match m with
  | AAt => xO (xO acc)
  | AAcquire m => key_bool (match m with MStatus => true | MModel => false end) (xO (xI acc))
  | ASending c v => key_st v (key_chan c (xI (xO acc)))
  | AReceiving c => key_chan c (xI (xI acc))
  end.
Definition key_loc (l : aloc) (acc : positive) : positive :=
  key_opt key_bool (x_cent l) (key_opt key_bool (x_panic l) (key_opt key_e (x_err l) (key_opt key_bool (x_zero l) (key_opt key_bool (x_go l)
    (key_opt key_bool (x_ok l) (key_opt key_bool (x_got l) (key_opt key_st (x_val l) (key_opt key_st (x_recv l) acc)))))))).
Definition key_th (th : athread) (acc : positive) : positive :=
  key_loc (t_loc th) (key_mode (t_mode th) (key_opt key_pos (t_defer th) (key_pos (t_pc th) (key_nat (t_phase th)
    (match t_kind th with KClient => xO (xO acc) | KRunner => xO (xI acc) | KNotifier => xI (xO acc) | KTimer => xI (xI acc) end))))).
Definition key_lock (l : alock) (acc : positive) : positive :=
  key_list key_nat (k_readers l) (key_opt key_nat (k_pending l)
    (match k_holder l with AFree => xO (xO acc) | ABy i => key_nat i (xO (xI acc)) | ALeaked => xI (xO acc) end)).
Definition key (a : astate) : positive :=
  key_list (key_opt key_th) (a_th a) (key_list key_nat (a_closed a) (key_nat (a_ack a) (key_bool (a_notif a) (key_bool (a_new a)
    (key_lock (a_lm a) (key_lock (a_ls a) (key_st (a_status a) xH))))))).

Definition opt_eqb {A} (f : A -> A -> bool) (x y : option A) : bool := match x, y with Some a, Some b => f a b | None, None => true | _, _ => false end.
Fixpoint list_eqb {A} (f : A -> A -> bool) (x y : list A) : bool :=
  match x, y with [], [] => true | a :: x', b :: y' => f a b && list_eqb f x' y' | _, _ => false end.
Definition loc_eqb (a b : aloc) : bool :=
  opt_eqb astatus_eqb (x_recv a) (x_recv b) && opt_eqb astatus_eqb (x_val a) (x_val b) && opt_eqb Bool.eqb (x_got a) (x_got b)
  && opt_eqb Bool.eqb (x_ok a) (x_ok b) && opt_eqb Bool.eqb (x_go a) (x_go b) && opt_eqb Bool.eqb (x_zero a) (x_zero b)
  && opt_eqb aerr_eqb (x_err a) (x_err b) && opt_eqb Bool.eqb (x_panic a) (x_panic b) && opt_eqb Bool.eqb (x_cent a) (x_cent b).
Definition mode_eqb (a b : amode) : bool :=
  match a, b with
  | AAt, AAt => true
  | AAcquire m, AAcquire n => mutex_eqb m n
  | ASending c v, ASending d w => achan_eqb c d && astatus_eqb v w
  | AReceiving c, AReceiving d => achan_eqb c d
  | _, _ => false
  end.
Definition th_eqb (a b : athread) : bool :=
  kind_eqb (t_kind a) (t_kind b) && Nat.eqb (t_phase a) (t_phase b) && Pos.eqb (t_pc a) (t_pc b) && mode_eqb (t_mode a) (t_mode b)
  && loc_eqb (t_loc a) (t_loc b) && opt_eqb Pos.eqb (t_defer a) (t_defer b).
Definition holder_eqb (a b : aholder) : bool :=
  match a, b with AFree, AFree | ALeaked, ALeaked => true | ABy i, ABy j => Nat.eqb i j | _, _ => false end.
Definition lock_eqb (a b : alock) : bool :=
  holder_eqb (k_holder a) (k_holder b) && opt_eqb Nat.eqb (k_pending a) (k_pending b) && list_eqb Nat.eqb (k_readers a) (k_readers b).
Definition state_eqb (a b : astate) : bool :=
  astatus_eqb (a_status a) (a_status b) && lock_eqb (a_ls a) (a_ls b) && lock_eqb (a_lm a) (a_lm b) && Bool.eqb (a_new a) (a_new b)
  && Bool.eqb (a_notif a) (a_notif b) && Nat.eqb (a_ack a) (a_ack b) && list_eqb Nat.eqb (a_closed a) (a_closed b)
  && list_eqb (opt_eqb th_eqb) (a_th a) (a_th b).

(** The states, the last found first. Nothing is proved of this search: its result is checked. *)
Section Run.
  Variable z : setting.
  Definition seen (b : astate) (t : PositiveMap.t unit) : bool := match PositiveMap.find (key b) t with Some _ => true | None => false end.
  Definition discover (p : list astate * list astate * PositiveMap.t unit) (b : astate) : list astate * list astate * PositiveMap.t unit :=
    match p with (todo, found, t) => if seen b t then p else (b :: todo, b :: found, PositiveMap.add (key b) tt t) end.
  Fixpoint explore (fuel : nat) (todo found : list astate) (t : PositiveMap.t unit) : list astate :=
    match fuel, todo with
    | S n, a :: todo' =>
        match each (fun x => amove z x a) (labels a) with
        | Some r => match fold_left discover r (todo', found, t) with (todo, found, t) => explore n todo found t end
        | None => found
        end
    | _, _ => found
    end.
  Definition reach (fuel : nat) (starts : list astate) : list astate :=
    match fold_left discover starts ([], [], PositiveMap.empty _) with (todo, found, t) => explore fuel todo found t end.
End Run.

(** States by key, with an index. *)
Definition table : Type := PositiveMap.t (astate * positive).
Fixpoint tabulate (l : list astate) (n : positive) (t : table) : table :=
  match l with [] => t | a :: l' => tabulate l' (Pos.succ n) (PositiveMap.add (key a) (a, n) t) end.
Definition known (a : astate) (t : table) : bool := match PositiveMap.find (key a) t with Some (b, _) => state_eqb a b | None => false end.
Definition index_of (t : table) (a : astate) : positive := match PositiveMap.find (key a) t with Some (_, i) => i | None => xH end.
