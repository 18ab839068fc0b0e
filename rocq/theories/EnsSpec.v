(** What a run of training is, independently of the objects that carry optimizers. *)
From Coq Require Import List Arith Bool String.
From Verif Require Import Lib NestedModel NestedSpec FreezeSpec.
Import ListNotations.
Open Scope list_scope.

(** labels depend on paths only, and are the two allowed ones *)
Definition by_path {V} (f : path -> V -> string) : Prop := forall p v w, f p v = f p w.
Definition labelled {V} (f : path -> V -> string) (t : tree V) : Prop :=
  forall q v, leaf_at t q v -> f q v = "frozen"%string \/ f q v = "trainable"%string.
(** a dictionary of parameters *)
Definition parameters {V} (t : tree V) : Prop := unique_keys t /\ exists kvs, t = Dict kvs.

Section Descent.
Context {V M B OS L : Type}.
Variable update : tree V -> OS -> tree V -> result (tree V * OS).        (* of the optimizer *)
Variable clip : tree V -> tree V.
Variable diff : (tree V -> L) -> tree V -> tree V.
Variable objective : tree V -> option M -> B -> nat -> L * option M.
(** step counter, parameters, state of the optimizer, mutable variables *)
Definition point := (nat * tree V * OS * option M)%type.
(** one update for each batch, in order *)
Inductive descent : list B -> point -> point -> Prop :=
| descent_end s : descent [] s s
| descent_step b bs n p os m p' os' s :
    update (clip (diff (fun p => fst (objective p m b n)) p)) os p = Ok (p', os') ->
    descent bs (S n, p', os', snd (objective p m b n)) s -> descent (b :: bs) (n, p, os, m) s.
End Descent.

(** an optimizer keeps the structure of the parameters *)
Definition keeps_structure {V OS} (update : tree V -> OS -> tree V -> result (tree V * OS)) : Prop :=
  forall g os p p' os', update g os p = Ok (p', os') -> unique_keys p -> unique_keys p' /\ same_structure p p'.
(** a function on trees keeps it *)
Definition keeps {V} (f : tree V -> tree V) : Prop := forall t, same_structure t (f t).
(** addition of trees: refused exactly for different structures *)
Definition adds {V} (add : tree V -> tree V -> result (tree V)) : Prop :=
  forall a b, (same_structure a b -> exists c, add a b = Ok c /\ same_structure a c) /\ (~ same_structure a b -> add a b = Err ValueError).
