(** Vocabulary used to state the values of EnbPI: predictions by the models that did not see a
    training point. *)
From Coq Require Import List Arith QArith.
Import ListNotations.
Open Scope Q_scope.

(** the bootstraps without point t *)
Definition unseen (idx : list (list nat)) (t : nat) : list nat :=
  filter (fun b => if in_dec Nat.eq_dec t (nth b idx []) then false else true) (seq 0 (length idx)).
(** aggregated output u of these; [outputs] has a row per bootstrap.  Zero if every bootstrap has t. *)
Definition left_out (agg : list Q -> Q) (idx : list (list nat)) (outputs : list (list Q)) (t u : nat) : Q :=
  match map (fun b => nth u (nth b outputs []) 0) (unseen idx t) with
  | [] => 0
  | l => agg l
  end.
