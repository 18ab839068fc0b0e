(** Vocabulary for the probit corrections. *)
From Coq Require Import List Arith Bool Reals.
From Verif Require Import Lib TempSpec PredSpec LapSpec SngpSpec.
Import ListNotations.
Open Scope R_scope.

(** the linear combination of the first n rows with coefficients w, and g minus it *)
Definition combination (n : nat) (rows : nat -> nat -> R) (w : nat -> R) : nat -> R := fun p => rover n (fun l => w l * rows l p).
Definition residual (n : nat) (rows : nat -> nat -> R) (g w : nat -> R) : nat -> R := fun p => g p - combination n rows w p.
(** s is the squared distance of g from the span of the first n rows (vectors of size np) *)
Definition squared_distance (np n : nat) (rows : nat -> nat -> R) (g : nat -> R) (s : R) : Prop :=
  (exists w, s = inner np (residual n rows g w) (residual n rows g w)) /\
  forall v, s <= inner np (residual n rows g v) (residual n rows g v).
(** the first n rows are linearly independent, with margin c *)
Definition independent (np n : nat) (rows : nat -> nat -> R) (c : R) : Prop :=
  0 < c /\ forall v, c * inner n v v <= inner np (combination n rows v) (combination n rows v).
(** the product of X and Y is the identity *)
Definition inverse_of (n : nat) (X Y : nat -> nat -> R) : Prop :=
  forall i j, (i < n)%nat -> (j < n)%nat -> rover n (fun k => X i k * Y k j) = if (i =? j)%nat then 1 else 0.
(** inv inverts every invertible matrix of size n *)
Definition inverts (n : nat) (inv : (nat -> nat -> R) -> nat -> nat -> R) : Prop :=
  forall X, (exists Y, inverse_of n X Y) -> inverse_of n X (inv X).
(** the rows of consecutive tokens, B per token *)
Definition token_rows (B start : nat) (G : nat -> nat -> nat -> R) : nat -> nat -> R := fun l => G (start + l / B)%nat (l mod B)%nat.
