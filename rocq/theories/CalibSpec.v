(** Vocabulary for the calibration properties. *)
From Coq Require Import List Arith ZArith QArith Bool String Reals.
From Verif Require Import TempSpec PredSpec.
Import ListNotations.
Local Notation length := List.length.
Open Scope list_scope.

(** One pass over pairs of a batch and its outputs; the key of a step is the step number. *)
Definition calib_pass {S B O A} (step_no : S -> nat) (step : S -> B -> O -> nat -> S * A) (ps : list (B * O)) (s : S) : S :=
  fold_left (fun s p => fst (step s (fst p) (snd p) (step_no s))) ps s.
(** what the steps of a pass report, and the states after each step *)
Fixpoint calib_reports {S B O A} (step_no : S -> nat) (step : S -> B -> O -> nat -> S * A) (ps : list (B * O)) (s : S) : list A :=
  match ps with [] => [] | (b, o) :: r => snd (step s b o (step_no s)) :: calib_reports step_no step r (fst (step s b o (step_no s))) end.
Fixpoint calib_states {S B O A} (step_no : S -> nat) (step : S -> B -> O -> nat -> S * A) (ps : list (B * O)) (s : S) : list S :=
  match ps with [] => [] | (b, o) :: r => fst (step s b o (step_no s)) :: calib_states step_no step r (fst (step s b o (step_no s))) end.
(** a step that also records the keys it receives *)
Definition recording {S B O A} (step : S -> B -> O -> nat -> S * A) (x : S * list nat) (b : B) (o : O) (key : nat) : (S * list nat) * A :=
  ((fst (step (fst x) b o key), snd x ++ [key]), snd (step (fst x) b o key)).
(** the entries of a log that were or were not forced *)
Definition periodic_saves {S} (l : list (bool * S)) : list S := map snd (filter (fun p => negb (fst p)) l).
Definition forced_saves {S} (l : list (bool * S)) : list S := map snd (filter fst l).

(** the log of the average of numbers given by their logs *)
Definition log_average (l : list R) : R := ln (rtotal (map exp l) / INR (length l)).

(** only names of the list are requested *)
Definition known_aux (names return_aux : list string) : Prop := forall s, In s return_aux -> In s names.

(** log-likelihoods of a batch, rescaled to a data set of n points *)
Definition dataset_scaled (n : nat) (ll : list R) : R := (INR n / INR (length ll) * rtotal ll)%R.
(** the points of the batch one by one: sum over the points of the log of the average likelihood *)
Definition pointwise_log_average (lls : list (list R)) (points : nat) : R := rover points (fun j => log_average (map (fun ll => nth j ll 0%R) lls)).
