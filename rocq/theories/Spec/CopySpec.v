(** Vocabulary of the statements about copies (C108). *)
From Coq Require Import List ZArith.
From Verif Require Import Model.Status Model.CtrlLang Model.CtrlSeq Model.System.
Import ListNotations.

(** What Init and then iterations of an implementation answer for given draws, as far as the first failure. *)
Fixpoint answers {E C I D} (im : implem E C I D) (ds : list D) (i : I) (c : option C) : list (iter_result C) :=
  match ds with
  | [] => []
  | d :: ds' =>
      let (i', r) := im_iterate im d i c in
      r :: match r with IterRes c' _ None => answers im ds' i' c' | _ => [] end
  end.
Definition replay {E C I D} (im : implem E C I D) (d : D) (ds : list D) (i : I) : option (option C * option nat * list (iter_result C)) :=
  match im_init im d i with
  | None => None
  | Some (i', (c, e)) => Some (c, e, match e with None => answers im ds i' c | Some _ => [] end)
  end.
