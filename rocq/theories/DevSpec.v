(** Vocabulary for training on several devices. *)
From Coq Require Import List Reals.
From Verif Require Import TrainModel.
Import ListNotations.

(** all replicas hold these parameters, optimizer state and step *)
Definition replicas_hold {P O G M} (p : P) (o : O) (n : nat) (rs : list (tstate P O G M)) : Prop :=
  Forall (fun r => params _ _ _ _ r = p /\ opt_state _ _ _ _ r = o /\ step _ _ _ _ r = n) rs.
(** [d] non-empty pieces of equal size that together are [b] *)
Definition even_shards {X} (d : nat) (b : list X) (sh : list (list X)) : Prop :=
  length sh = d /\ concat sh = b /\ exists m, (0 < m)%nat /\ Forall (fun s => length s = m) sh.
(** elementwise average *)
Definition is_average (vs : list (list R)) (v : list R) : Prop :=
  forall j, (j < length v)%nat ->
    (nth j v 0 * INR (length vs) = fold_right Rplus 0 (map (fun u => nth j u 0) vs))%R.
