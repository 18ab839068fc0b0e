(** Vocabulary for the progress of BatchMVP. *)
From Coq Require Import List Arith ZArith QArith Qabs Bool.
From Verif Require Import MultiSpec.
Import ListNotations.
Open Scope Q_scope.

(** number of marked points whose score is at most the threshold shifted by [t] *)
Fixpoint covered_at (t : Q) (bs : list bool) (xs ss : list Q) : Q :=
  match bs, xs, ss with
  | b :: bs', x :: xs', s :: ss' => (if b then if Qlt_le_dec (x + t) s then 0 else 1 else 0) + covered_at t bs' xs' ss'
  | _, _, _ => 0
  end.
(** number of marked points that are covered too many or too few, at shift [t] *)
Definition miss_at (coverage t : Q) (bs : list bool) (xs ss : list Q) : Q := Qabs (covered_at t bs xs ss - coverage * n_where bs).
