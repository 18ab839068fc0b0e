(** Vocabulary for the calibration losses. *)
From Coq Require Import List Arith Reals.
From Verif Require Import TempSpec.
Import ListNotations.
Open Scope R_scope.

(** a non-empty batch with one label per row, each label being one of the classes *)
Definition labelled (rows : list (list R)) (ys : list nat) : Prop := rows <> [] /\ Forall2 (fun r y => (y < List.length r)%nat) rows ys.
Definition at_least_two_classes (rows : list (list R)) : Prop := Forall (fun r => (2 <= List.length r)%nat) rows.
(** the probabilities the rows give to their labels *)
Definition picked (probs : list (list R)) (ys : list nat) : list R := map (fun ry => nth (snd ry) (fst ry) 0) (combine probs ys).
Definition mean_of (f : R -> R) (ps : list R) : R := rtotal (map f ps) / INR (List.length ps).
