(** Independent vocabulary for nested dictionaries: a dictionary seen as a partial
    map from paths to values. *)
From Coq Require Import List Bool String.
From Verif Require Import NestedModel.
Import ListNotations.

(** the value reached by following a path, if any *)
Fixpoint at_path {V} (t : tree V) (p : path) : option (tree V) :=
  match p with
  | [] => Some t
  | k :: ks =>
      match t with
      | Leaf _ => None
      | Dict kvs => match List.find (fun kv => String.eqb k (fst kv)) kvs with
                    | Some kv => at_path (snd kv) ks
                    | None => None
                    end
      end
  end.

Definition prefix_of (p q : path) : Prop := exists r, q = p ++ r.
Definition independent (p q : path) : Prop := ~ prefix_of p q /\ ~ prefix_of q p.

(** pairwise independent *)
Definition all_independent (ps : list path) : Prop := ForallOrdPairs independent ps.

(** Python dictionaries have each key at most once. *)
Fixpoint unique_keys {V} (t : tree V) : Prop :=
  match t with
  | Leaf _ => True
  | Dict kvs =>
      NoDup (map fst kvs) /\
      (fix all (kvs : list (string * tree V)) : Prop :=
         match kvs with [] => True | (_, v) :: r => unique_keys v /\ all r end) kvs
  end.

(** What a path reads after the assignments [pos], executed left to right: the last
    assignment to a prefix of the path decides, otherwise what was there before. *)
Fixpoint read_after {V} (pos : list (path * tree V)) (q : path) (before after : option (tree V)) : Prop :=
  match pos with
  | [] => after = before
  | (p, o) :: rest =>
      exists now, (forall s, q = p ++ s -> now = at_path o s) /\ (~ prefix_of p q -> now = before) /\
                  read_after rest q now after
  end.

(** [key] is a key of some dictionary inside the tree *)
Definition key_occurs {V} (t : tree V) (key : string) : Prop :=
  exists q v, at_path t (q ++ [key]) = Some v.
