(** A static check of the code of the controller: which mutexes a goroutine holds at each
    statement, which statuses are possible, whether a notification is owed, and whether the figures
    are up to date. Proofs/CtrlSound.v shows that code that passes the check keeps what the check
    says under every interleaving. *)
From Coq Require Import List ZArith Bool Lia.
From Verif Require Import Model.Status Model.Finish Model.CtrlLang Model.CtrlCode.
Import ListNotations.
Local Open Scope list_scope.

Definition stexp_eq_dec (a b : stexp) : {a = b} + {a <> b}.
Proof. repeat decide equality. Defined.

(** What is known at a statement: statusMutex and modelMutex held for writing, number of times they
    are held for reading, possible values of the status (when statusMutex is held for writing), the
    notification owed ([Some None]: parked on its send), figures not up to date, ackChannel open, a deferred call registered. *)
Record abs : Type := mkAbs {
  a_s : bool;
  a_m : bool;
  a_rs : nat;
  a_rm : nat;
  a_known : list clust_status;
  a_owe : option (option stexp);
  a_dirty : bool;
  a_open : bool;
  a_def : bool
}.
Definition abs0 : abs := mkAbs false false 0 0 [] None false false false.

Inductive res : Type := Fail | Dead | Cont (a : abs).

Definition in_st (v : clust_status) (l : list clust_status) : bool := existsb (status_eqb v) l.

Definition no_owe (A : abs) : bool := match a_owe A with None => true | Some _ => false end.
Definition no_lock (A : abs) : bool :=
  negb (a_s A) && negb (a_m A) && Nat.eqb (a_rs A) 0 && Nat.eqb (a_rm A) 0.

Definition same_shape (A B : abs) : bool :=
  eqb (a_s A) (a_s B) && eqb (a_m A) (a_m B) && Nat.eqb (a_rs A) (a_rs B) && Nat.eqb (a_rm A) (a_rm B)
  && no_owe A && no_owe B
  && eqb (a_dirty A) (a_dirty B) && negb (a_open A) && negb (a_open B) && eqb (a_def A) (a_def B).

Definition join (r r' : res) : res :=
  match r, r' with
  | Fail, _ | _, Fail => Fail
  | Dead, x | x, Dead => x
  | Cont A, Cont B =>
      if same_shape A B then
        Cont (mkAbs (a_s A) (a_m A) (a_rs A) (a_rm A) (a_known A ++ a_known B) (a_owe A) (a_dirty A) (a_open A) (a_def A))
      else Fail
  end.

(** Values of a status expression; a received status is one of Running, Idle, Finished. *)
Definition received : list clust_status := [Running; Idle; Finished].
Definition st_values (e : stexp) : list clust_status :=
  match e with XValue v => [v] | XError _ => [Finished] | XRecv => received end.

(** The status changes of all interleavings. *)
Definition change_ok (a b : clust_status) : bool :=
  match a, b with
  | _, Created => false
  | Created, Initializing | Finished, Initializing => true
  | _, Initializing => false
  | Created, _ => false
  | Initializing, Ready | Initializing, Finished => true
  | Initializing, _ => false
  | _, _ => true
  end.

Definition sub_st (l l' : list clust_status) : bool := forallb (fun v => in_st v l') l.

(** Possible statuses when statusMutex is free. *)
Definition free_known (alive : bool) : list clust_status :=
  (if alive then [] else [Created]) ++ [Ready; Running; Idle; Finished].

Definition ok_final (r : res) : bool :=
  match r with
  | Fail => false
  | Dead => true
  | Cont A => no_lock A && no_owe A && negb (a_dirty A) && negb (a_open A)
  end.

Definition wf_status (s : oc_status) : bool :=
  match st_error s with None => true | Some _ => status_eqb (st_value s) Finished end.

Definition check_list (ci : instr -> abs -> res) : list instr -> abs -> res :=
  fix check_list (p : list instr) (A : abs) : res :=
    match p with
    | [] => Cont A
    | i :: p' => match ci i A with Fail => Fail | Dead => Dead | Cont B => check_list p' B end
    end.

(** [alive]: the status is not Created, and never will be again. *)
Fixpoint check_i (alive : bool) (i : instr) (A : abs) {struct i} : res :=
  let owe := no_owe A in
  match i with
  | ILock MStatus | IAcquire MStatus =>
      if negb owe || a_s A then Fail
      else if Nat.eqb (a_rs A) 0 then
        Cont (mkAbs true (a_m A) (a_rs A) (a_rm A) (free_known alive) None (a_dirty A) false (a_def A))
      else Dead
  | ILock MModel | IAcquire MModel =>
      if negb owe || a_m A then Fail
      else if Nat.eqb (a_rm A) 0 then
        Cont (mkAbs (a_s A) true (a_rs A) (a_rm A) (a_known A) None false (a_open A) (a_def A))
      else Dead
  | IUnlock MStatus =>
      if a_s A && negb (in_st Initializing (a_known A)) && negb (a_open A)
      then Cont (mkAbs false (a_m A) (a_rs A) (a_rm A) [] (a_owe A) (a_dirty A) false (a_def A))
      else Fail
  | IUnlock MModel =>
      if a_m A && owe && negb (a_dirty A)
      then Cont (mkAbs (a_s A) false (a_rs A) (a_rm A) (a_known A) None false (a_open A) (a_def A))
      else Fail
  | IRLock MStatus =>
      if owe && negb (a_s A)
      then Cont (mkAbs (a_s A) (a_m A) (S (a_rs A)) (a_rm A) (a_known A) None (a_dirty A) (a_open A) (a_def A))
      else Fail
  | IRLock MModel =>
      if owe && negb (a_m A)
      then Cont (mkAbs (a_s A) (a_m A) (a_rs A) (S (a_rm A)) (a_known A) None (a_dirty A) (a_open A) (a_def A))
      else Fail
  | IRUnlock MStatus =>
      match a_rs A with
      | S n => if owe then Cont (mkAbs (a_s A) (a_m A) n (a_rm A) (a_known A) None (a_dirty A) (a_open A) (a_def A)) else Fail
      | O => Fail
      end
  | IRUnlock MModel =>
      match a_rm A with
      | S n => if owe then Cont (mkAbs (a_s A) (a_m A) (a_rs A) n (a_known A) None (a_dirty A) (a_open A) (a_def A)) else Fail
      | O => Fail
      end
  | ILeak MStatus =>
      if a_s A && owe && negb (in_st Initializing (a_known A)) && negb (a_open A)
      then Cont (mkAbs false (a_m A) (a_rs A) (a_rm A) [] None (a_dirty A) false (a_def A))
      else Fail
  | ILeak MModel => Fail
  | ISetStatus e =>
      if a_s A && owe && forallb (fun a => forallb (change_ok a) (st_values e)) (a_known A)
      then Cont (mkAbs true (a_m A) (a_rs A) (a_rm A) (st_values e) (Some (Some e)) (a_dirty A) (a_open A) (a_def A))
      else Fail
  | IModel op =>
      if a_m A && owe then
        let d := match op with
                 | MPushed => true
                 | MFigures | MReset | MSave => false
                 | _ => a_dirty A
                 end in
        Cont (mkAbs (a_s A) (a_m A) (a_rs A) (a_rm A) (a_known A) None d (a_open A) (a_def A))
      else Fail
  | IGet _ | IRecv _ | IReceiving _ | ITryStatus | IMakeAck | IIterBegin | IDisable =>
      if owe then Cont A else Fail
  | IImplInit =>
      if owe && a_s A && negb (a_m A) && sub_st (a_known A) [Initializing] then Cont A else Fail
  | IImplPush => if owe && no_lock A then Cont A else Fail
  | ISend FldNotif e =>
      match a_owe A with
      | Some (Some e') =>
          if stexp_eq_dec e e'
          then Cont (mkAbs (a_s A) (a_m A) (a_rs A) (a_rm A) (a_known A) None (a_dirty A) (a_open A) (a_def A))
          else Fail
      | _ => Fail
      end
  | ISend FldStatus e =>
      if owe && sub_st (st_values e) received then Cont A else Fail
  | ISend FldAck e =>
      if owe && no_lock A && a_def A && negb (a_dirty A) && negb (a_open A) then Cont A else Fail
  | ISending ChStatus v =>
      if owe && in_st (st_value v) received && wf_status v then Cont A else Fail
  | ISending ChNotif v =>
      match a_owe A with
      | Some None => Cont (mkAbs (a_s A) (a_m A) (a_rs A) (a_rm A) (a_known A) None (a_dirty A) (a_open A) (a_def A))
      | _ => Fail
      end
  | ISending (ChAck _) v =>
      if owe && no_lock A && a_def A && negb (a_dirty A) && negb (a_open A) then Cont A else Fail
  | ITryAck p =>
      if owe && a_s A && negb (a_open A) then
        join (Cont A)
          (check_list (check_i alive) p
             (mkAbs (a_s A) (a_m A) (a_rs A) (a_rm A) (a_known A) (a_owe A) (a_dirty A) true (a_def A)))
      else Fail
  | ICloseAck =>
      if owe && a_s A && a_open A
      then Cont (mkAbs (a_s A) (a_m A) (a_rs A) (a_rm A) (a_known A) None (a_dirty A) false (a_def A))
      else Fail
  | IMakeNotif =>
      if owe && a_s A && sub_st (a_known A) [Created] then Cont A else Fail
  | ISpawn KRunner p =>
      if owe && a_s A && negb (in_st Created (a_known A)) && ok_final (check_list (check_i true) p abs0)
      then Cont A else Fail
  | ISpawn _ p =>
      if owe && ok_final (check_list (check_i false) p abs0) then Cont A else Fail
  | IStartTimer p =>
      if owe && ok_final (check_list (check_i false) p abs0) then Cont A else Fail
  | IIf c p q =>
      if negb owe then Fail else
      match c, a_s A with
      | CStatus v, true =>
          let yes := filter (fun w => status_eqb w v) (a_known A) in
          let no := filter (fun w => negb (status_eqb w v)) (a_known A) in
          let with_known k := mkAbs (a_s A) (a_m A) (a_rs A) (a_rm A) k (a_owe A) (a_dirty A) (a_open A) (a_def A) in
          join (match yes with [] => Dead | _ => check_list (check_i alive) p (with_known yes) end)
               (match no with [] => Dead | _ => check_list (check_i alive) q (with_known no) end)
      | _, _ => join (check_list (check_i alive) p A) (check_list (check_i alive) q A)
      end
  | ILoop c p =>
      if negb owe || a_s A || a_open A then Fail else
      match check_list (check_i alive) p A with
      | Fail => Fail
      | Dead => Cont A
      | Cont B => if same_shape A B then Cont A else Fail
      end
  | IImplIterate =>
      if owe && no_lock A && a_def A && negb (a_dirty A) && negb (a_open A) then Cont A else Fail
  | IDefer p =>
      if owe && ok_final (check_list (check_i alive) p abs0)
      then Cont (mkAbs (a_s A) (a_m A) (a_rs A) (a_rm A) (a_known A) None (a_dirty A) (a_open A) true)
      else Fail
  | IEndDefer =>
      if owe then Cont (mkAbs (a_s A) (a_m A) (a_rs A) (a_rm A) (a_known A) None (a_dirty A) (a_open A) false)
      else Fail
  | IReturn _ => if owe && no_lock A && negb (a_dirty A) && negb (a_open A) then Cont A else Fail
  end.

Definition check (alive : bool) : list instr -> abs -> res := check_list (check_i alive).

(** The user code of a notifier: it may call anything of the algo. *)
Definition notifier_ok (p : option (list instr)) : bool :=
  match p with None => true | Some p => match check false p abs0 with Cont A => same_shape A abs0 | Dead => true | Fail => false end end.

