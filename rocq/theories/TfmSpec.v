(** Vocabulary for spectral normalisation over a run and for pretrained transformers. *)
From Coq Require Import List Arith Bool String Reals.
From Verif Require Import Lib PredSpec LapSpec SngpSpec NestedModel NestedSpec FreezeSpec.
Import ListNotations.
Open Scope R_scope.

(** the stored vectors' estimate of the gain of a kernel: u . (v W) *)
Definition stored_estimate (n_in n_out : nat) (w : nat -> nat -> R) (u v : nat -> R) : R :=
  inner n_out u (fun j => rover n_in (fun i => v i * w i j)).
(** [a] and [b] are unit vectors exchanged by the kernel with the factor [s], which is the gain *)
Definition top_singular (n_in n_out : nat) (w : nat -> nat -> R) (s : R) (a b : nat -> R) : Prop :=
  norm n_in a = 1 /\ norm n_out b = 1 /\ gain_at_most n_in n_out w s /\
  (forall j, (j < n_out)%nat -> rover n_in (fun i => a i * w i j) = s * b j) /\
  (forall i, (i < n_in)%nat -> rover n_out (fun j => w i j * b j) = s * a i).
(** two matrices have the same entries *)
Definition same_matrix (k w : nat -> nat -> R) : Prop := forall i j, k i j = w i j.
(** the paths of the leaves of [t] *)
Definition leaf_path {V} (t : tree V) (q : path) : Prop := exists v, leaf_at t q v.
(** the leaves of freshly initialised variables, as transformers name them: parameters by their
    own path, spectral statistics below "spectral_stats" *)
Definition fresh_leaf {V} (stats params : tree V) (q : path) (v : V) : Prop :=
  leaf_at params q v \/ exists q', q = ("spectral_stats"%string :: q')%list /\ leaf_at stats q' v.
(** the value unless it is missing or an empty dictionary *)
Definition unless_empty {V} (t : option (tree V)) : option (tree V) :=
  match t with Some (Dict []) => None | _ => t end.
(** the first name of the list that some class has, with that class *)
Definition first_named {C} (name : C -> string) (cs : list C) (names : list string) (c : C) : Prop :=
  exists pre n post, names = (pre ++ n :: post)%list /\ In c cs /\ name c = n /\ (forall n' c', In n' pre -> In c' cs -> name c' <> n').
(** an architecture's accepted names, in order *)
Definition accepted (a : string) : list string := [a; String.append "TF" a; String.append "Flax" a].
