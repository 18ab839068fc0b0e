(** Vocabulary for likelihood, prior and kernel regression properties. *)
From Coq Require Import List Arith ZArith QArith Bool Reals String.
From Verif Require Import MetricSpec PredSpec.
Import ListNotations.
Local Notation length := List.length.
Open Scope Q_scope.

(** conditions under which a log joint probability may be requested *)
Definition consistent_request (return_aux : list string) (train outputs_given mutable_given : bool) : Prop :=
  (forall s, In s return_aux -> s = "outputs" \/ s = "mutable" \/ s = "calib_mutable")%string /\
  ~ (train = true /\ outputs_given = true) /\
  (In "mutable"%string return_aux <-> train = true /\ mutable_given = true).
(** the share of the full-data log-likelihood that a batch stands for *)
Definition scaled_sum (n_data size : nat) (log_liks : list Q) : Q := total log_liks * nQ n_data / nQ size.
Open Scope R_scope.
(** weighted mean *)
Definition sum_R (l : list R) : R := fold_right Rplus 0 l.
Definition weighted_mean (ws ys : list R) : R := sum_R (map (fun p => fst p * snd p) (combine ws ys)) / sum_R ws.
