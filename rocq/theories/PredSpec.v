(** Vocabulary for the predictive properties. *)
From Coq Require Import List Arith ZArith QArith Bool Reals Sorting.Sorted.
From Verif Require Import MetricSpec TempSpec.
Import ListNotations.
Open Scope Q_scope.

(** sum of f over 0..n-1 *)
Definition over (n : nat) (f : nat -> Q) : Q := total (map f (seq 0 n)).
Definition average (n : nat) (f : nat -> Q) : Q := over n f / nQ n.
(** population variance *)
Definition spread (n : nat) (f : nat -> Q) : Q := over n (fun i => (f i - average n f) * (f i - average n f)) / nQ n.

(** total probability of a list of labels *)
Definition mass (p : list Q) (labels : list nat) : Q := total (map (fun i => nth i p 0) labels).
(** distinct labels of p in order of decreasing probability, none left out being more probable *)
Definition top_labels (p : list Q) (labels : list nat) : Prop :=
  NoDup labels /\ (forall i, In i labels -> (i < length p)%nat) /\
  StronglySorted (fun i j => nth j p 0 <= nth i p 0) labels /\
  forall i j, In i labels -> (j < length p)%nat -> ~ In j labels -> nth j p 0 <= nth i p 0.
Definition label_set (p : list Q) (labels : list nat) : Prop := NoDup labels /\ forall i, In i labels -> (i < length p)%nat.

(** m is the mean of xs with weights w *)
Definition weighted_mean (w xs : list Q) (m : Q) : Prop := m * total w == sum2 (fun a x => a * x) w xs.
(** rank of the last among the others and itself *)
Definition rank_of (x : Q) (others : list Q) : nat := S (num (fun p => Qle_bool p x) others).
Definition column_at (arr : list (list Q)) (j : nat) : list Q := map (fun row => nth j row 0) arr.

Open Scope R_scope.
(** sum over 0..n-1 *)
Definition rover (n : nat) (f : nat -> R) : R := rtotal (map f (seq 0 n)).
Definition raverage (n : nat) (f : nat -> R) : R := rover n f / INR n.
(** Shannon entropy *)
Definition shannon (k : nat) (p : nat -> R) : R := - rover k (fun i => p i * ln (p i)).
(** log-density of independent normal variables *)
Definition normal_log_density (y m v : R) : R := ln (/ sqrt (2 * PI * v) * exp (- ((y - m) * (y - m) / (2 * v)))).
