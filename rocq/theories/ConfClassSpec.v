(** Vocabulary for the statements about conformal classification. *)
From Coq Require Import List Arith ZArith QArith Bool Sorted.
From Verif Require Import QuantModel QuantSpec ConfRegModel ConfClassModel.
Import ListNotations.
Open Scope Q_scope.

(** labels ascending without repetition *)
Definition ascending_labels (l : list nat) : Prop := StronglySorted lt l.

(** number of calibration scores strictly above a score *)
Definition n_above (s : Q) (scores : list Q) : nat := count (fun v => Qlt_bool s v) scores.

(** probability vectors *)
Definition prob_vector (p : list Q) : Prop := (forall x, In x p -> 0 <= x) /\ qsum p == 1.

(** label j ranked at least as high as t: more probable, ties in favour of the larger label *)
Definition ranked_above (p : list Q) (t j : nat) : bool :=
  Qlt_bool (nth t p 0) (nth j p 0) || (Qeq_bool (nth t p 0) (nth j p 0) && (t <=? j)%nat).

(** hold out point i, calibrate on the others: is its label in the set? *)
Definition holdout_class (score : list Q -> nat -> Q) (data : list (list Q * nat)) (error : Q) (i : nat) : bool :=
  let rest := without i data in
  match nth_error data i with
  | Some (p, y) => match split_conformal_set score (map fst rest) (map snd rest) [p] error with
                   | [s] => set_is_in y s
                   | _ => false
                   end
  | None => false
  end.

(** points of a binary data set *)
Definition n_selected (b : Q -> bool) (probs : list Q) : nat := count b probs.
Definition n_correct (b : Q -> bool) (y : bool) (probs : list Q) (targets : list bool) : nat :=
  count (fun pt => b (fst pt) && Bool.eqb (snd pt) y) (combine probs targets).

(** temperature applied to confident positives / negatives only *)
Definition rescale_pos (tau p : Q) : Q := if Qlt_bool (1 # 2) p then (if Qlt_bool 1 (tau * p) then 1 else tau * p) else p.
Definition rescale_neg (tau p : Q) : Q := if Qlt_bool p (1 # 2) then tau * p else p.
(** precision at least t among the selected points, and some point is selected *)
Definition meets (b : Q -> bool) (y : bool) (t : Q) (probs : list Q) (targets : list bool) : Prop :=
  (0 < n_selected b probs)%nat /\
  t * inject_Z (Z.of_nat (n_selected b probs)) <= inject_Z (Z.of_nat (n_correct b y probs targets)).
(** the grid of n equally spaced numbers from a to b *)
Definition in_grid (a b : Q) (n : nat) (tau : Q) : Prop :=
  exists i, (i < n)%nat /\ (tau - a) * inject_Z (Z.of_nat (n - 1)) == inject_Z (Z.of_nat i) * (b - a) /\ ((n <= 1)%nat -> tau == a).
Definition unit_probs (probs : list Q) : Prop := forall p, In p probs -> 0 <= p <= 1.
