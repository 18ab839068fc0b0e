(** Vocabulary for random-feature Gaussian processes and spectral normalisation. *)
From Coq Require Import List Arith Bool Reals.
From Verif Require Import Lib TempSpec PredSpec LapSpec.
Import ListNotations.
Open Scope R_scope.

(** inner product and length of vectors with indices 0..n-1 *)
Definition inner (n : nat) (x y : nat -> R) : R := rover n (fun i => x i * y i).
Definition norm (n : nat) (x : nat -> R) : R := sqrt (inner n x x).
Definition symmetric (n : nat) (A : nat -> nat -> R) : Prop := forall i j, (i < n)%nat -> (j < n)%nat -> A i j = A j i.
(** A w = b *)
Definition solves (n : nat) (A : nat -> nat -> R) (w b : nat -> R) : Prop := forall i, (i < n)%nat -> rover n (fun j => A i j * w j) = b i.
(** L is lower triangular with positive diagonal and A = L L' *)
Definition cholesky_factor (n : nat) (A L : nat -> nat -> R) : Prop :=
  (forall i j, (i < j < n)%nat -> L i j = 0) /\ (forall i, (i < n)%nat -> 0 < L i i) /\
  (forall i j, (i < n)%nat -> (j < n)%nat -> A i j = rover n (fun k => L i k * L j k)).
(** the sum over data points of the outer product of their features *)
Definition gram (points : list (nat -> R)) (i j : nat) : R := rtotal (map (fun f => f i * f j) points).
(** x W has length at most s times the length of x, for all x *)
Definition gain_at_most (n_in n_out : nat) (w : nat -> nat -> R) (s : R) : Prop :=
  forall x, norm n_out (fun j => rover n_in (fun i => x i * w i j)) <= s * norm n_in x.
