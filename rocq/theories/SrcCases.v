(** Toy data used by the examples of SrcProps.v. *)
From Coq Require Import List Arith.
From Verif Require Import Lib SrcModel.
Import ListNotations.

Definition toy_batches : list (batch nat) := [[(1, 0); (2, 1)]; [(3, 1); (4, 1)]; [(5, 0)]].
Definition toy_shape (b : batch nat) : nat := 7.
(** every other pass in reverse order *)
Definition toy_shuffled (k : nat) : list (batch nat) := if Nat.even k then toy_batches else rev toy_batches.
