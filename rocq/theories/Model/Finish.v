(** Model of core/finish.go. *)
From Coq Require Import List ZArith Bool String.
From Flocq Require Import IEEE754.BinarySingleNaN.
From Verif Require Import Base.Num Model.Status.
Import ListNotations.
Local Open Scope Z_scope.

(** core/figures.go: a map from names to float64; a missing key reads as 0. *)
Definition figures : Type := list (string * b64).
Definition figure (rf : figures) (key : string) : b64 :=
  match find (fun kv => String.eqb (fst kv) key) rf with
  | Some kv => snd kv
  | None => b64_of_Z 0
  end.

(** Go's int(x) of a float64: truncation. Infinities, NaN and values out of the int range are
    implementation-defined in Go; here they give whatever Flocq's truncation gives. *)
Definition int_of_b64 (x : b64) : Z := Btrunc x.

(** The part of OCModel read by the finishings of the package. *)
Record fin_model : Type := mkFinModel { fm_status : oc_status; fm_figures : figures }.

(** The finishings of core/finish.go; None is a nil interface; [FUser] is any other implementation
    of the interface. *)
Inductive finishing : Type :=
| FAnd (l : list (option finishing))
| FOr (l : list (option finishing))
| FIter (iter iter_per_data : Z)
| FStatus (status : list clust_status) (error : bool)
| FUser (f : fin_model -> bool).

(** core/finish.go:63-72 *)
Definition iter_is_finished (iter iter_per_data : Z) (m : fin_model) : bool :=
  if (0 <? iter) || (0 <? iter_per_data) then
    let iterations := figure (fm_figures m) "iterations" in
    let pushed := figure (fm_figures m) "pushedData" in
    (iter + int_of_b64 pushed * iter_per_data) <=? int_of_b64 iterations
  else false.

(** core/finish.go:95-100: the loop over the statuses, [cond] being its current value. *)
Fixpoint status_loop (l : list clust_status) (value : clust_status) (cond : bool) : bool :=
  match l with
  | [] => cond
  | s :: l' => let cond := status_eqb s value in if cond then cond else status_loop l' value cond
  end.

(** core/finish.go:90-103 *)
Definition status_is_finished (status : list clust_status) (error : bool) (m : fin_model) : bool :=
  let cond := error && match st_error (fm_status m) with Some _ => true | None => false end in
  if negb cond && negb (match status with [] => true | _ => false end)
  then status_loop status (st_value (fm_status m)) cond
  else cond.

(** core/finish.go:34-53. The loops keep the last value of cond, initially false. *)
Fixpoint finishing_is_finished (f : finishing) (m : fin_model) {struct f} : bool :=
  match f with
  | FAnd l =>
      (fix loop (l : list (option finishing)) (cond : bool) : bool :=
         match l with
         | [] => cond
         | o :: l' =>
             let cond := match o with None => false | Some g => finishing_is_finished g m end in
             if negb cond then cond else loop l' cond
         end) l false
  | FOr l =>
      (fix loop (l : list (option finishing)) (cond : bool) : bool :=
         match l with
         | [] => cond
         | o :: l' =>
             let cond := match o with None => false | Some g => finishing_is_finished g m end in
             if cond then cond else loop l' cond
         end) l false
  | FIter iter ipd => iter_is_finished iter ipd m
  | FStatus status error => status_is_finished status error m
  | FUser u => u m
  end.

(** core/finish.go:29-31 *)
Definition is_finished (f : option finishing) (m : fin_model) : bool :=
  match f with None => false | Some g => finishing_is_finished g m end.
