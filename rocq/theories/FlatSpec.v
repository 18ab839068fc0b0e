(** Vocabulary for flat vectors of parameters. *)
From Coq Require Import List Arith String.
From Verif Require Import Lib NestedModel NestedSpec FreezeSpec.
Import ListNotations.
Local Notation length := List.length.

(** the [i]-th of consecutive pieces of the given sizes *)
Definition slice {V} (sizes : list nat) (i : nat) (l : list V) : list V :=
  firstn (nth i sizes 0) (skipn (list_sum (firstn i sizes)) l).

(** [v] is [f] of [a], [b], [c], entry by entry *)
Definition pointwise {V} (f : V -> V -> V -> V) (a b c v : list V) : Prop :=
  length v = length a /\ length b = length a /\ length c = length a /\
  forall i x y z, nth_error a i = Some x -> nth_error b i = Some y -> nth_error c i = Some z -> nth_error v i = Some (f x y z).

(** [paths] lead to arrays of the given [sizes] *)
Definition arrays_at {V} (t : tree (list V)) (paths : list path) (sizes : list nat) : Prop :=
  NoDup paths /\ Forall2 (fun p n => p <> [] /\ exists v, leaf_at t p v /\ length v = n) paths sizes.

(** two trees have the same arrays except at the given paths *)
Definition same_outside {V} (paths : list path) (t u : tree (list V)) : Prop :=
  forall q w, ~ In q paths -> (leaf_at t q w <-> leaf_at u q w).

(** [t] and [u] have arrays of the same sizes at the same paths *)
Definition same_sizes {V} (t u : tree (list V)) : Prop :=
  forall q n, (exists v, leaf_at t q v /\ length v = n) <-> (exists v, leaf_at u q v /\ length v = n).
