(** What tuning the prior log-variance of a Laplace posterior should choose. *)
From Coq Require Import List Arith Bool Reals.
From Verif Require Import Lib TempSpec PredSpec DrawModel TuneModel.
Import ListNotations.
Local Open Scope R_scope.
Local Open Scope nat_scope.

(** the log-variance of coordinate j *)
Definition entry (c : log_var) (j : nat) : R := match c with Scalar v => v | Vector vs => nth j vs 0%R end.
(** it fits the parameters *)
Definition fits (c : log_var) (w : nat) : Prop := match c with Scalar _ => True | Vector vs => length vs = w end.
(** the posterior precision of every coordinate is positive *)
Definition definite (c : log_var) (hess : list R) : Prop :=
  forall j, j < length hess -> (0 < exp (- entry c j) + nth j hess 0)%R.
(** parameters: mean plus noise with the posterior precision *)
Definition member (mean hess : list R) (c : log_var) (z : nat -> R) : list R :=
  map (fun j => (nth j mean 0 + z j / sqrt (exp (- entry c j) + nth j hess 0))%R) (seq 0 (length mean)).
(** log-likelihood of data under the equal mixture of n draws *)
Definition objective {X} (ll : list R -> X -> R) (draws : nat -> list R) (n : nat) (rows : list X) : R :=
  rtotal (map (fun x => ln (raverage n (fun i => exp (ll (draws i) x)))) rows).
(** the key of draw i *)
Definition tuning_key (label : nat -> nat) (zero : key) (n i : nat) : key := zero ++ [Cut (label 1) 0; Cut (label n) i].
(** point i of an even grid *)
Definition grid_point (lo hi : R) (g i : nat) : R := (lo + INR i * ((hi - lo) / INR (g - 1)))%R.
