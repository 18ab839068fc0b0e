(** Parameters of which some are frozen. *)
From Coq Require Import List Bool String.
From Verif Require Import NestedModel FreezeModel.
Import ListNotations.
Open Scope list_scope.

(** the labels of the parameters *)
Definition labels_of {V} (f : path -> V -> string) (t : tree V) : list string := map (fun pv => f (fst pv) (snd pv)) (leaves t).
(** the values with a given label *)
Definition part {V} (label : string) (labels : list string) (vs : list V) : list V :=
  map snd (filter (fun lv => String.eqb (fst lv) label) (combine labels vs)).
(** [vs] with the values labelled trainable replaced by [new], in order *)
Fixpoint with_trainable {V} (labels : list string) (new vs : list V) : list V :=
  match labels, vs with
  | l :: ls, v :: r => if String.eqb l "trainable" then match new with n :: new => n :: with_trainable ls new r | [] => v :: with_trainable ls [] r end else v :: with_trainable ls new r
  | _, _ => []
  end.
