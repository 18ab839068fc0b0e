(** Vocabulary for the losses of multicalibration. *)
From Coq Require Import List Arith ZArith QArith Bool.
Import ListNotations.
Open Scope Q_scope.

(** total pinball loss of thresholds [xs] against scores [ss] *)
Fixpoint pinball_error (coverage : Q) (xs ss : list Q) : Q :=
  match xs, ss with
  | x :: xs', s :: ss' => (if Qlt_le_dec x s then coverage * (s - x) else (1 - coverage) * (x - s)) + pinball_error coverage xs' ss'
  | _, _ => 0
  end.
