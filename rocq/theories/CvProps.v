(** Properties of CV+ over held-out folds (C152). *)
From Coq Require Import List Arith ZArith QArith.
From Verif Require Import Lib QuantSpec ConfRegModel ConfRegSpec CvSpec CvProofs.
Import ListNotations.
Open Scope Q_scope.

(** C152: each of K folds of m points held out in turn; at most m + 2 ceil(error ((K-1)m - 1)) of
    all Km points are outside their intervals, whatever the data and models *)
Theorem C152_coverage : forall y pred K m error, (2 <= K)%nat -> (1 <= m)%nat -> 0 <= error <= 1 ->
  (fold_misses y pred K m error <= m + 2 * slack ((K - 1) * m) error)%nat.
Proof. exact (@cv_plus_coverage). Qed.
Print Assumptions C152_coverage.
Theorem C152_share : forall y pred K m error, (2 <= K)%nat -> (1 <= m)%nat -> 0 <= error <= 1 ->
  inject_Z (Z.of_nat (fold_misses y pred K m error)) <= inject_Z (Z.of_nat (K * m)) * (2 * error) + inject_Z (Z.of_nat (m + 2)).
Proof. exact (@cv_plus_share). Qed.
Print Assumptions C152_share.
Theorem C152_twice_error_refuted : forall K m error, (2 <= K)%nat -> (1 <= m)%nat -> 0 <= error -> error * inject_Z (Z.of_nat (2 * K)) < 1 -> exists y pred,
  inject_Z (Z.of_nat (K * m)) * (2 * error) < inject_Z (Z.of_nat (fold_misses y pred K m error)).
Proof. exact (@cv_plus_guarantee_fails). Qed.
Print Assumptions C152_twice_error_refuted.
Example C152_case : let y := fun k a => inject_Z (Z.of_nat ((2 * k + a) * (2 * k + a))) in let pred := fun k l a => inject_Z (Z.of_nat (k + l + a)) in
  map (holdout_fold y pred 4 2 (1#4)) (seq 0 4) = [[true; true]; [true; true]; [true; true]; [false; false]] /\ fold_misses y pred 4 2 (1#4) = 2%nat /\ slack 6 (1#4) = 2%nat.
Proof. repeat split. Qed.
