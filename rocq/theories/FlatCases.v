(** Toy parameters used by the examples. *)
From Coq Require Import List Arith String.
From Verif Require Import Lib NestedModel FlatModel.
Import ListNotations.
Open Scope list_scope.
Local Open Scope string_scope.

(** a network with a dense layer and a scale, keys not in alphabetical order *)
Definition net : tree (list nat) := Dict [("dense", Dict [("kernel", Leaf [1; 2; 3]); ("bias", Leaf [4])]); ("scale", Leaf [5; 6])].
Definition components : list (string * tree (list nat)) := [("model", net); ("lik_log_var", Leaf [0])].
Definition frozen_net : tree (list nat) := Dict [("model", Dict [("params", net)])].
(** the kernel and the scale are trainable *)
Definition two_paths : list path := [["model"; "params"; "scale"]; ["model"; "params"; "dense"; "kernel"]].
Definition affine (m s u : nat) : nat := m + s * u.
