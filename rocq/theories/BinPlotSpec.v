(** Vocabulary of the reliability diagram of a classifier. *)
From Coq Require Import List Arith ZArith QArith Bool.
From Verif Require Import MetricSpec.
Import ListNotations.
Open Scope Q_scope.

(** the points of bin i, and the bins that have points *)
Definition members (l : list point) (i : nat) : list point := filter (fun p => bin_b (length l) i (fst p)) l.
Definition inhabited (l : list point) : list nat := filter (fun i => negb (length (members l i) =? 0)%nat) (seq 0 10).
(** x is the mean confidence of the points and y the difference of mean confidence and accuracy *)
Definition mean_gap (ps : list point) (xy : Q * Q) : Prop :=
  fst xy * nQ (length ps) == sum_conf ps /\ snd xy * nQ (length ps) == sum_conf ps - nQ (n_right ps).
