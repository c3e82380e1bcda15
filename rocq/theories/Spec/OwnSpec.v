(** Vocabulary of the statements about who made an element (C107). *)
From Coq Require Import List ZArith Bool.
From Verif Require Import Base.Go Base.Num Model.Clustering Model.KmeansInit Model.Mcmc.
Import ListNotations.

(** [x] is the result of a Copy or of a Combine of the space. *)
Inductive made {E F} (Sp : Space E F) : E -> Prop :=
| made_copy x : made Sp (scopy Sp x)
| made_combine a n b m : made Sp (scombine Sp a n b m).

(** Or was sampled, perhaps several times, from such an element. *)
Inductive made_or_sampled {E F G} (Sp : Space E F) (D : distrib E F G) : E -> Prop :=
| ms_made x : made Sp x -> made_or_sampled Sp D x
| ms_sampled g mu t x : made_or_sampled Sp D mu -> dsample D g mu t = Ok x -> made_or_sampled Sp D x.

(** The space with elements that remember whether they are results of Copy or Combine; a client has the elements
    marked false. *)
Definition tracked {E F} (Sp : Space E F) : Space (bool * E) F :=
  mkSpace (fun a b => sdist Sp (snd a) (snd b)) (fun a n b m => (true, scombine Sp (snd a) n (snd b) m))
    (fun a => (true, scopy Sp (snd a))) (fun l => sdim Sp (map snd l)).

(** An initializer whose centroids are all made by the space. *)
Definition copies {E F D} (Sp : Space E F) (initializer : D -> list E -> option (option (list E) * option nat)) : Prop :=
  forall d data c e, initializer d data = Some (Some c, e) -> Forall (made Sp) c.
(** The same for an initializer of MCMC, which is given the number of centroids. *)
Definition copies_k {E F I} (Sp : Space E F) (initializer : I -> Z -> list E -> outcome (list (option E) * option init_error)) : Prop :=
  forall i k data c e, initializer i k data = Ok (map Some c, e) -> Forall (made Sp) c.
