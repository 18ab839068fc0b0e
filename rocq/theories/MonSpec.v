(** Vocabulary for the statements about monitors, independent of MonModel.v. *)
From Coq Require Import List Arith ZArith QArith Bool String.
Import ListNotations.
Open Scope list_scope.
Local Notation length := List.length.

(** the entries of the dictionaries [rows] (values in the order of [keys]) under [name] *)
Definition entries (name : string) (keys : list string) (rows : list (list Q)) (vals : list Q) : Prop :=
  Forall2 (fun row v => exists i, nth_error keys i = Some name /\ nth_error row i = Some v) rows vals.

(** a metric that never gets smaller, like the accuracy of a model that learns *)
Definition never_decreases (vals : list Q) : Prop :=
  forall i j, (i <= j < length vals)%nat -> (nth i vals 0 <= nth j vals 0)%Q.
(** a metric that always gets smaller by more than d *)
Definition always_drops (d : Q) (vals : list Q) : Prop :=
  forall i, (S i < length vals)%nat -> (nth (S i) vals 0 < nth i vals 0 - d)%Q.
