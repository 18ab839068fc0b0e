(** Every fold held out in turn, the others being the folds of CV+. *)
From Coq Require Import List Arith QArith.
From Verif Require Import Lib QuantSpec ConfRegModel ConfRegSpec.
Import ListNotations.
Open Scope Q_scope.

(** [y k a]: target of point a of fold k; [pred k l a]: prediction at point a of fold k of the
    model trained on all folds but k and l.  K folds of m points. *)
Definition holdout_fold (y : nat -> nat -> Q) (pred : nat -> nat -> nat -> Q) (K m : nat) (error : Q) (h : nat) : list bool :=
  match cv_plus (map (fun k => map (pred k h) (seq 0 m)) (others K h)) (map (fun k => map (y k) (seq 0 m)) (others K h))
          (map (fun k => map (pred h k) (seq 0 m)) (others K h)) error with
  | Ok is => are_in (map (y h) (seq 0 m)) is
  | Err _ => repeat false m
  end.
(** points that are not in their interval, over all folds *)
Definition fold_misses (y : nat -> nat -> Q) (pred : nat -> nat -> nat -> Q) (K m : nat) (error : Q) : nat :=
  count negb (concat (map (holdout_fold y pred K m error) (seq 0 K))).
