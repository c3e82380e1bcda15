(** Model of kmeans/init.go. *)
From Coq Require Import List ZArith Bool.
From Verif Require Import Base.Go Base.Num Model.Clustering Model.Par.
Import ListNotations.
Local Open Scope Z_scope.

Inductive init_error : Type :=
| ErrKLow        (* "K is lower than 1" *)
| ErrFewElemts   (* "less elements than k" *)
| ErrNullSet.    (* kmeans/init.go:74 *)

(** kmeans/init.go:25-33 *)
Definition check {E : Type} (k : Z) (elemts : list E) : option init_error :=
  if k <? 1 then Some ErrKLow
  else if slen elemts <? k then Some ErrFewElemts
  else None.

Section Init.
Context {E F : Type} (N : Num F) (Sp : Space E F).

(** kmeans/init.go:41-43: [n] entries left, loop index [i]. *)
Fixpoint given_loop (n : nat) (i : Z) (elemts : list E) : outcome (list (option E)) :=
  match n with
  | O => Ok []
  | S n' =>
      let* e := sget elemts i in
      let* r := given_loop n' (i + 1) elemts in
      Ok (Some (scopy Sp e) :: r)
  end.

(** kmeans/init.go:36-47. Without error the centroids; with an error a nil Clust ([]). *)
Definition given_initializer (k : Z) (elemts : list E)
  : outcome (list (option E) * option init_error) :=
  match check k elemts with
  | Some e => Ok ([], Some e)
  | None => let* c := given_loop (Z.to_nat k) 0 elemts in Ok (c, None)
  end.

(** kmeans/init.go:105-107 *)
Definition weights_sum (weights : list F) : F := fold_left (nadd N) weights (nof N 0).

(** kmeans/init.go:114-117: [rest] holds the weights from index [idx] on; reading past the end
    panics. Returns the final idx. *)
Fixpoint cursor_loop (rest : list F) (idx : Z) (cursor : F) : outcome Z :=
  if nltb N (nof N 0) cursor then
    match rest with
    | [] => Panic
    | w :: rest' => cursor_loop rest' (idx + 1) (nsub N cursor w)
    end
  else Ok idx.

(** kmeans/init.go:101-120. [r] is the value of rand.Float64(). *)
Definition weighted_choice (weights : list F) (r : F) : outcome (Z * option init_error) :=
  let sum := weights_sum weights in
  if neqb N sum (nof N 0) then Ok (0, Some ErrNullSet)
  else
    let* idx := cursor_loop weights 0 (nmul N r sum) in
    Ok (idx - 1, None).

(** kmeans/init.go:67-71. [degree] is runtime.NumCPU(). *)
Definition pp_iter (degree : Z) (clust elemts : list E) (r : F)
  : outcome (E * option init_error) :=
  let* ld := par_map_label N Sp clust elemts degree in
  let* de := weighted_choice (snd ld) r in
  let '(draw, err) := de in
  let* e := sget elemts draw in
  Ok (scopy Sp e, err).

(** kmeans/init.go:58-60: [rs i] is the value of Float64() drawn by iteration [i]; [n] iterations
    are left; the centroids found so far are [found]. *)
Fixpoint pp_loop (degree : Z) (n i : nat) (found elemts : list E) (rs : nat -> F)
  : outcome (list E * option init_error) :=
  match n with
  | O => Ok (found, None)
  | S n' =>
      let* ce := pp_iter degree found elemts (rs i) in
      match snd ce with
      | None => pp_loop degree n' (S i) (found ++ [fst ce]) elemts rs
      | Some e => Ok (found ++ [fst ce], Some e)
      end
  end.

(** kmeans/init.go:50-64. [draw] is Intn(len(elemts)) and [rs] the values of Float64(). The
    result is padded with nil up to length k. [make(core.Clust, k)] panics for a negative k, also
    after a check error. *)
Definition pp_initializer (degree k : Z) (elemts : list E) (draw : Z) (rs : nat -> F)
  : outcome (list (option E) * option init_error) :=
  let* centroids := smake (@None E) k in
  match check k elemts with
  | Some e => Ok (centroids, Some e)
  | None =>
      let* c0 := sget elemts draw in
      let* fe := pp_loop degree (Z.to_nat k - 1) 1 [c0] elemts rs in
      let '(found, err) := fe in
      Ok (map Some found ++ repeat None (Z.to_nat k - length found), err)
  end.

(** kmeans/init.go:85-94: [draws] are the successive values of Intn(len(elemts)); [chosen] is the
    list of keys of the map, most recent first; [n] centroids are still to be found. None when the
    given draws are exhausted (the loop would draw again). *)
Fixpoint rand_loop (draws : list Z) (n : nat) (elemts : list E) (chosen : list Z)
  (centroids : list E) : option (outcome (list E)) :=
  match n with
  | O => Some (Ok centroids)
  | S n' =>
      match draws with
      | [] => None
      | choice :: draws' =>
          if existsb (Z.eqb choice) chosen then rand_loop draws' n elemts chosen centroids
          else match sget elemts choice with
               | Panic => Some Panic
               | Ok e => rand_loop draws' n' elemts (choice :: chosen) (centroids ++ [scopy Sp e])
               end
      end
  end.

(** kmeans/init.go:77-98 *)
Definition rand_initializer (k : Z) (elemts : list E) (draws : list Z)
  : option (outcome (list (option E) * option init_error)) :=
  match smake (@None E) k with
  | Panic => Some Panic
  | Ok centroids =>
      match check k elemts with
      | Some e => Some (Ok (centroids, Some e))
      | None =>
          match rand_loop draws (Z.to_nat k) elemts [] [] with
          | None => None
          | Some Panic => Some Panic
          | Some (Ok c) => Some (Ok (map Some c, None))
          end
      end
  end.

End Init.
