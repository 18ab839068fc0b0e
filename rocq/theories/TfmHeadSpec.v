(** Words for the properties of the transformers of SNGP. *)
From Coq Require Import List Arith Bool Reals.
From Verif Require Import Lib SngpModel SngpSpec MetricSpec LapSpec TfmHeadModel.
Import ListNotations.
Open Scope R_scope.

(** the vector that stands for text [i]: that of its first token for DistilBERT, the pooled one otherwise *)
Definition stands_for (a : arch) (e : encoded) (i : nat) (x : nat -> R) : Prop :=
  match a with
  | DistilBert => exists more, nth_error (e_hidden e) i = Some (x :: more)
  | Bert | Roberta => nth_error (e_pooled e) i = Some x
  end.
Definition n_texts (a : arch) (e : encoded) : nat :=
  match a with DistilBert => length (e_hidden e) | Bert | Roberta => length (e_pooled e) end.
(** the nonlinearities: positive part, hyperbolic tangent *)
Definition squash (a : arch) (y : R) : R :=
  match a with
  | Roberta => (exp y - exp (- y)) / (exp y + exp (- y))
  | Bert | DistilBert => if Rlt_dec 0 y then y else 0
  end.
(** inputs written out: every entry of [m] is [v], and it has the shape of [ids] *)
Definition filled_with (v : nat) (ids m : list (list nat)) : Prop :=
  Forall2 (fun row r => length r = length row /\ Forall (eq v) r) ids m.
Definition numbered (ids m : list (list nat)) : Prop :=
  Forall2 (fun row r => length r = length row /\ forall k, (k < length row)%nat -> nth_error r k = Some k) ids m.
