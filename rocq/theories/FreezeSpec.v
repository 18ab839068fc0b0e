(** Vocabulary for the statements about frozen parameters. *)
From Coq Require Import List Bool String.
From Verif Require Import NestedModel NestedSpec.
Import ListNotations.

(** the same dictionaries and leaves at the same places; only leaf values may differ *)
Definition same_structure {V} (t u : tree V) : Prop :=
  forall q, match at_path t q, at_path u q with
            | Some (Leaf _), Some (Leaf _) | Some (Dict _), Some (Dict _) | None, None => True
            | _, _ => False
            end.

(** the leaf of a tree at a path *)
Definition leaf_at {V} (t : tree V) (q : path) (v : V) : Prop := at_path t q = Some (Leaf v).
