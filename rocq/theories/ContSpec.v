(** Words for the properties of continued fits. *)
From Coq Require Import List Arith String.
From Verif Require Import Lib NestedModel NestedSpec FreezeModel FreezeSpec EnsModel ContModel.
Import ListNotations.

(** an optimizer without state, such as plain gradient descent with a constant learning rate *)
Definition stateless {V O OS} (o_init : O -> tree V -> OS) (o_update : O -> tree V -> OS -> tree V -> result (tree V * OS)) (o : O) : Prop :=
  (forall t u, o_init o t = o_init o u) /\ forall g os p p' os', o_update o g os p = Ok (p', os') -> os' = os.
(** whether a configuration trains the array at a path *)
Definition trains {V O} (cfg : fit_config V O) (q : path) (v : V) : Prop :=
  match fc_freeze cfg with None => True | Some f => f q v = "trainable"%string end.
(** the same fit from memory *)
Definition in_memory {V B O} (a : fit_args V B O) : fit_args V B O :=
  {| a_cfg := a_cfg a; a_run := a_run a; a_batches := a_batches a; a_file := false |}.
