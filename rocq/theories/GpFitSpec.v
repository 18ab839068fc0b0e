(** Vocabulary for whole fits of SNGP posteriors. *)
From Coq Require Import List Arith Bool Reals.
From Verif Require Import TempSpec PredSpec LapSpec SngpSpec.
Import ListNotations.
Open Scope R_scope.

(** the precision matrix an epoch should end with, from the features of its batches *)
Definition epoch_precision (ridge : R) (momentum : option R) (batches : list (list (nat -> R))) (i j : nat) : R :=
  let delta := if (i =? j)%nat then 1 else 0 in
  match momentum with
  | None => ridge * delta + gram (concat batches) i j
  | Some m =>
      let B := length batches in
      m ^ B * (ridge * delta) + rover B (fun l => m ^ (B - 1 - l) * (1 - m) * (gram (nth l batches []) i j / INR (length (nth l batches []))))
  end.
(** [v] is the variance ridge * f' A^-1 f *)
Definition gp_variance (n : nat) (ridge : R) (A : nat -> nat -> R) (f : nat -> R) (v : R) : Prop :=
  exists w, solves n A w f /\ v = ridge * inner n f w.
(** the rows shown for features [phis] and their logits: each row divided by sqrt(1 + variance * factor) *)
Definition gp_rows (n : nat) (ridge factor : R) (A : nat -> nat -> R) (logits : (nat -> R) -> list R) (phis : list (nat -> R)) (rows : list (list R)) : Prop :=
  Forall2 (fun f row => exists v, gp_variance n ridge A f v /\ row = map (fun z => z / sqrt (1 + v * factor)) (logits f)) phis rows.
