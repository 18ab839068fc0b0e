(** Specification for the keys behind predictive quantities: which keys are related, and what a
    row's value is in terms of the posterior draws of a call. *)
From Coq Require Import List Arith Bool QArith.
From Verif Require Import Lib DrawModel PredSpec.
Import ListNotations.
Local Open Scope nat_scope.

(** a key derived from another one by splitting and folding in *)
Definition derived (k k' : key) : Prop := exists ms, k' = k ++ ms.
(** two keys of which none is derived from the other: jax's rule for independent streams *)
Definition apart (k k' : key) : Prop := ~ derived k k' /\ ~ derived k' k.
Definition independent (ks : list key) : Prop := ForallOrdPairs apart ks.

(** the key of a call: the one it is passed, else the next one of the generator *)
Definition key_of (label : nat -> nat) (rng : option key) (g : key) : key :=
  match rng with Some k => k | None => g ++ [Cut (label 2) 0] end.
(** the generator after the call *)
Definition generator_after (label : nat -> nat) (rng : option key) (g : key) : key :=
  match rng with Some _ => g | None => g ++ [Cut (label 2) 0] end.

(** i-th of n posterior draws of a call with key k *)
Definition draw {P} (label : nat -> nat) (post : key -> P) (k : key) (n i : nat) : P := post (k ++ [Cut (label n) i]).

(** batches that devices can share *)
Definition divisible {X} (distribute : bool) (d : nat) (loader : list (list X)) : Prop :=
  1 <= d /\ loader <> [] /\ (distribute = true -> Forall (fun b => length b mod d = 0) loader).

(** calls whose number of draws does not make their keys those of the generator *)
Definition clean (label : nat -> nat) (c : call) : Prop :=
  match c with
  | Average n | Samples n => label n <> label 2
  | Entropies n => label (1 + n) <> label 2
  | _ => True
  end.
(** no two variances in a row *)
Definition no_variances_twice (cs : list call) : Prop :=
  forall l1 n m l2, cs <> l1 ++ Variances n :: Variances m :: l2.
(** calls that draw something *)
Definition draws_something (c : call) : Prop :=
  match c with Average n | Entropies n | Samples n | Variances n | Training n => 1 <= n end.

Definition row_mean {P X Y} label (post : key -> P) (out : P -> X -> Y) (f : Y -> Q) (n : nat) (k : key) (x : X) : Q :=
  average n (fun i => f (out (draw label post k n i) x)).
Definition row_spread {P X Y} label (post : key -> P) (out : P -> X -> Y) (f : Y -> Q) (n : nat) (k : key) (x : X) : Q :=
  spread n (fun i => f (out (draw label post k n i) x)).
