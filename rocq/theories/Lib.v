(** Common vocabulary: results, list slicing, ranges.  Nothing here models a
    particular fortuna function; these are the Python/numpy primitives used by
    the models. *)
From Coq Require Import List Arith ZArith Lia Permutation Bool.
Import ListNotations.

(** Python exceptions as values. *)
Inductive error : Type :=
| ValueError | KeyError | TypeError | AttributeError | IndexError
| ZeroDivisionError | NotImplementedErr | StopIteration | RuntimeError
| NameError | NotFittedError | FileNotFoundErr | UnboundLocalErr | OSError.

Inductive result (A : Type) : Type :=
| Ok : A -> result A
| Err : error -> result A.
Arguments Ok {A} _.
Arguments Err {A} _.

Definition bind {A B} (x : result A) (f : A -> result B) : result B :=
  match x with Ok a => f a | Err e => Err e end.
Definition rmap {A B} (f : A -> B) (x : result A) : result B :=
  match x with Ok a => Ok (f a) | Err e => Err e end.
Definition is_ok {A} (x : result A) : bool :=
  match x with Ok _ => true | Err _ => false end.

(** sequential evaluation, first exception wins *)
Fixpoint mapM {A B} (f : A -> result B) (l : list A) : result (list B) :=
  match l with
  | [] => Ok []
  | x :: r => bind (f x) (fun y => bind (mapM f r) (fun ys => Ok (y :: ys)))
  end.

(** Python [l[i:j]] for non-negative [i], [j]. *)
Definition slice {A} (i j : nat) (l : list A) : list A := firstn (j - i) (skipn i l).

(** Python [l[:-r]] for [0 < r]. *)
Definition drop_last {A} (r : nat) (l : list A) : list A := firstn (length l - r) l.

(** number of elements of [range(start, stop, step)], [step >= 1] *)
Definition range_count (start stop step : nat) : nat := (stop - start + step - 1) / step.

(** Python [range(start, stop, step)] for [step >= 1]. *)
Definition range (start stop step : nat) : list nat :=
  map (fun i => start + i * step) (seq 0 (range_count start stop step)).

(** boolean-mask indexing [l[mask]] *)
Fixpoint mask_select {A} (m : list bool) (l : list A) : list A :=
  match m, l with
  | b :: m', x :: l' => if b then x :: mask_select m' l' else mask_select m' l'
  | _, _ => []
  end.

(** integer-array indexing [l[idx]]: out-of-range indices are an error in numpy *)
Definition gather {A} (idx : list nat) (l : list A) : result (list A) :=
  mapM (fun i => match nth_error l i with Some x => Ok x | None => Err IndexError end) idx.

Definition sum_nat (l : list nat) : nat := fold_right Nat.add 0 l.
Definition max_nat (l : list nat) : nat := fold_right Nat.max 0 l.
