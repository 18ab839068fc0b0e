(** Small objects for the examples of NoiseProps. *)
From Coq Require Import List Arith Bool QArith Reals String.
From Verif Require Import Lib NestedModel McmcModel DrawModel NoiseModel.
Import ListNotations.
Local Open Scope string_scope.
Local Open Scope nat_scope.

(** parameters of two layers, the keys not in order; each leaf holds its shape *)
Definition toy_params : tree nat := Dict [("w", Dict [("kernel", Leaf 4); ("bias", Leaf 2)]); ("a", Leaf 1)].
Definition same_label (n : nat) : nat := n.
