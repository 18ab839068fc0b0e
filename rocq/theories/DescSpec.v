(** Vocabulary used to state what a fit does: stochastic descent, update by update. *)
From Coq Require Import List Arith QArith.
Import ListNotations.
Open Scope list_scope.

(** the batches in order, the j-th update counting from [j] *)
Fixpoint descend {St B} (upd : nat -> St -> B -> St) (j : nat) (bs : list B) (s : St) : St :=
  match bs with
  | [] => s
  | b :: r => descend upd (S j) r (upd j s b)
  end.
(** all batches, n times over *)
Definition passes {B} (n : nat) (bs : list B) : list B := concat (repeat bs n).
(** the batches before batch [i] of epoch [e] *)
Definition before {B} (e i : nat) (bs : list B) : list B := passes e bs ++ firstn i bs.

(** a step down the gradient of [objective key _ mutable batch]; [change] is what the forward pass does to
    the mutable variables, [clip] what is done to the gradient *)
Definition gradient_update {P OS Mu B G K} (diff : (P -> Q) -> P -> G) (clip : G -> G) (opt : G -> OS -> P -> P * OS) (key : nat -> K)
    (objective : K -> P -> Mu -> B -> Q) (change : K -> P -> Mu -> B -> Mu) (j : nat) (s : P * OS * Mu) (b : B) : P * OS * Mu :=
  let '(p, o, m) := s in
  (opt (clip (diff (fun q => objective (key j) q m b) p)) o p, change (key j) p m b).

(** sum of a list *)
Definition total_of (l : list Q) : Q := fold_right Qplus 0%Q l.
