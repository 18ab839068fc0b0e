(** Vocabulary for out-of-distribution scores. *)
From Coq Require Import List Arith ZArith Bool Reals.
From Verif Require Import Lib TempSpec PredSpec LapSpec SngpSpec OodModel.
Import ListNotations.
Open Scope R_scope.
(** the embeddings with a label *)
Definition of_class (data : list point) (c : Z) : list (nat -> R) := map fst (filter (fun p => Z.eqb (snd p) c) data).
Definition mean_of (xs : list (nat -> R)) (i : nat) : R := rtotal (map (fun x => x i) xs) / INR (length xs).
(** sum over the embeddings of the products of deviations from the mean *)
Definition scatter (xs : list (nat -> R)) (i j : nat) : R := rtotal (map (fun x => (x i - mean_of xs i) * (x j - mean_of xs j)) xs).
(** pooled within-class covariance *)
Definition pooled (data : list point) (k : nat) (i j : nat) : R := rover k (fun c => scatter (of_class data (Z.of_nat c)) i j) / INR (length data).
(** every class has an embedding *)
Definition all_observed (data : list point) (k : nat) : Prop := forall c, (c < k)%nat -> of_class data (Z.of_nat c) <> [].
(** X is symmetric and X A X = X, as for the pseudo-inverse of a symmetric matrix *)
Definition pseudo_inverse (n : nat) (A X : nat -> nat -> R) : Prop :=
  symmetric n X /\ forall i j, (i < n)%nat -> (j < n)%nat -> X i j = rover n (fun a => rover n (fun b => X i a * A a b * X b j)).
(** (x - m)' X (x - m) *)
Definition distance (n : nat) (X : nat -> nat -> R) (x m : nat -> R) : R := quad n X (fun i => x i - m i).
(** s is the smallest of f 0 ... f (k-1) *)
Definition smallest (k : nat) (f : nat -> R) (s : R) : Prop := (exists c, (c < k)%nat /\ s = f c) /\ forall c, (c < k)%nat -> s <= f c.
(** the covariance with [eps] added on the diagonal *)
Definition jittered (eps : R) (cov cov' : nat -> nat -> num) : Prop :=
  forall i j, cov' i j = match cov i j with Some a => Some (if (i =? j)%nat then a + eps else a) | None => None end.
