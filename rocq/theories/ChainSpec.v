(** Vocabulary for runs of stochastic gradient samplers. *)
From Coq Require Import List Arith.
From Verif Require Import DescSpec.
Import ListNotations.
Open Scope list_scope.

(** the state after the first [k] updates of a run of [n] epochs that starts at step [j] *)
Definition after {St B} (upd : nat -> St -> B -> St) (j n : nat) (bs : list B) (s : St) (k : nat) : St :=
  descend upd j (firstn k (passes n bs)) s.
