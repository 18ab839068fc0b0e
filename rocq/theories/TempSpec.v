(** Vocabulary for the temperature scaling properties. *)
From Coq Require Import List Arith ZArith QArith Bool Reals.
From Verif Require Import MetricSpec.
Import ListNotations.
Open Scope Q_scope.

(** labels 0 and 1 *)
Definition binary (ys : list Z) : Prop := Forall (fun y => y = 0%Z \/ y = 1%Z) ys.
(** mean of the unclipped scaled probabilities, and their mean squared error *)
Definition mean_scaled (t : Q) (ps : list Q) : Q := total (map (fun p => p / t) ps) / nQ (length ps).
Definition error_scaled (t : Q) (ps : list Q) (ys : list Z) : Q := sum2 (fun p y => (p / t - inject_Z y) * (p / t - inject_Z y)) ps ys / nQ (length ps).
Definition target_mean (ys : list Z) : Q := total (map inject_Z ys) / nQ (length ys).
(** clipped division, for a non-zero temperature *)
Definition clipped_div (t p c : Q) : Prop := (p / t < 0 -> c == 0) /\ (0 <= p / t <= 1 -> c == p / t) /\ (1 < p / t -> c == 1).

(** the number behind a value that is not NaN *)
Definition value (o : option Q) : Q := match o with Some x => x | None => 0 end.

(** F1 score by counting *)
Definition true_positives (bs : list bool) (ys : list Z) : nat := num (fun p => fst p && (snd p =? 1)%Z) (combine bs ys).
Definition positives (ys : list Z) : nat := num (fun y => (y =? 1)%Z) ys.
Definition f1_score (bs : list bool) (ys : list Z) : Q :=
  2 * nQ (true_positives bs ys) / (nQ (num (fun b => b) bs) + nQ (positives ys)).

(** order of losses, where both are numbers *)
Definition loss_le (a b : option Q) : Prop := match a, b with Some x, Some y => x <= y | _, _ => True end.
(** a grid of n points from lo to hi *)
Definition grid_point (lo hi : Q) (n i : nat) : Q := lo + nQ i * ((hi - lo) / nQ (n - 1)).

Open Scope R_scope.
Definition rtotal (l : list R) : R := fold_right Rplus 0 l.
Definition rdistribution (l : list R) : Prop := Forall (fun p => 0 < p) l /\ rtotal l = 1.
(** i is the first position of a maximal entry *)
Definition first_max (l : list R) (i : nat) : Prop :=
  (i < length l)%nat /\ (forall j, (j < length l)%nat -> nth j l 0 <= nth i l 0) /\ (forall j, (j < i)%nat -> nth j l 0 < nth i l 0).
(** a local search that never returns a point with a larger loss *)
Definition improves {A} (le : A -> A -> Prop) {T} (finish : (T -> A) -> T -> T) : Prop := forall f x, le (f (finish f x)) (f x).
Definition rgrid_point (lo hi : R) (n i : nat) : R := lo + INR i * ((hi - lo) / INR (n - 1)).
(** negative log-likelihood of the labels under rows of probabilities *)
Definition nll (rows : list (list R)) (ys : list nat) : R := - rtotal (map (fun ry => ln (nth (snd ry) (fst ry) 0)) (combine rows ys)).
(** probabilities proportional to exponentials of the entries *)
Definition is_softmax (xs ps : list R) : Prop :=
  length ps = length xs /\ rtotal ps = 1 /\ exists z, 0 < z /\ forall i, (i < length xs)%nat -> nth i ps 0 = exp (nth i xs 0) / z.
