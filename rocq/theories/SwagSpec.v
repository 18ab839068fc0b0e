(** Vocabulary for the statistics of SWAG. *)
From Coq Require Import List Arith ZArith QArith.
Import ListNotations.
Open Scope Q_scope.

(** sum of [f 0 ... f (n-1)] *)
Fixpoint sum_below (n : nat) (f : nat -> Q) : Q :=
  match n with O => 0 | S m => sum_below m f + f m end.
Definition natq (n : nat) : Q := inject_Z (Z.of_nat n).
(** weight of batch [i] of epoch [e] when an epoch has [B] batches *)
Definition swag_weight (B e i : nat) : Q := natq (e ^ (B - 1 - i) * (e + 1) ^ i).
(** weighted sum of the values [x e i] of all batches of the first [E] epochs *)
Definition weighted (B E : nat) (x : nat -> nat -> Q) : Q := sum_below E (fun e => sum_below B (fun i => swag_weight B e i * x e i)).
