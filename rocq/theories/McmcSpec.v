(** Vocabulary for the MCMC and SWAG properties. *)
From Coq Require Import List Arith ZArith QArith Bool Reals.
From Verif Require Import MetricSpec PredSpec.
Import ListNotations.
Open Scope Q_scope.

(** the step, counted from 1, at which the j-th sample is due *)
Definition due_step (burnin thinning j : nat) : nat := (burnin + (j + 1) * thinning)%nat.
(** stored samples are numbered 0, 1, ... and come from the given steps of the run, in order *)
Definition stored_from {A : Type} (steps : list nat) (states : list A) (puts : list (nat * A)) : Prop :=
  length puts = length steps /\
  forall j step, nth_error steps j = Some step -> (1 <= step)%nat /\
    exists s, nth_error puts j = Some (j, s) /\ nth_error states (step - 1) = Some s.
(** steps of a run of cyclical SGLD at which a sample may be taken *)
Definition cyclical_due (cycle thinning : nat) (ratio : Q) (step : nat) : Prop :=
  ratio * nQ cycle <= nQ (step mod cycle) /\ ((step mod cycle) mod thinning = 0)%nat.

(** mean of a list, of its squares, and its population variance *)
Definition mean_of (l : list Q) : Q := total l / nQ (length l).
Definition mean_square (l : list Q) : Q := total (map (fun x => x * x) l) / nQ (length l).
Definition variance_of (l : list Q) : Q := total (map (fun x => (x - mean_of l) * (x - mean_of l)) l) / nQ (length l).
(** last k entries *)
Definition latest {A} (k : nat) (l : list A) : list A := skipn (length l - k) l.
(** the key left after splitting i times and keeping the second half *)
Fixpoint chain_key {K} (split : K -> K * K) (i : nat) (key : K) : K := match i with O => key | Datatypes.S i => chain_key split i (snd (split key)) end.
