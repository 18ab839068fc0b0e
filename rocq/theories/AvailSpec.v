(** Vocabulary for the numbers of samples that stochastic gradient samplers can keep. *)
From Coq Require Import Arith ZArith QArith Qround.
From Verif Require Import MetricSpec.
Open Scope Q_scope.

(** multiples of t below a *)
Definition multiples_below (a t : nat) : nat := ((a + t - 1) / t)%nat.
(** first position of a cycle that belongs to its sampling part *)
Definition sampling_start (L : nat) (ratio : Q) : nat := Z.to_nat (Qceiling (ratio * nQ L)).
(** samples of a whole cycle, and of the first [steps] updates *)
Definition per_cycle (L thin : nat) (ratio : Q) : nat := (multiples_below L thin - multiples_below (sampling_start L ratio) thin)%nat.
Definition available_cyclical (L thin : nat) (ratio : Q) (steps : nat) : nat :=
  (steps / L * per_cycle L thin ratio + (multiples_below (steps mod L + 1) thin - multiples_below (Nat.max 1 (sampling_start L ratio)) thin))%nat.
(** what the docstrings of the approximators say.  sghmc_approximator.py:31 *)
Definition documented_sghmc (steps burnin thin : nat) : nat := ((steps - burnin) mod thin)%nat.
(** cyclical_sgld_approximator.py:26-28, as written and with quotients for the remainders *)
Definition documented_cyclical (steps L thin : nat) (ratio : Q) : Z :=
  let sampling_steps := Qfloor (nQ (steps mod L * L) * (1 - ratio)) in (sampling_steps mod Z.of_nat thin)%Z.
Definition intended_cyclical (steps L thin : nat) (ratio : Q) : Z :=
  let sampling_steps := Qfloor (nQ (steps / L * L) * (1 - ratio)) in (sampling_steps / Z.of_nat thin)%Z.
