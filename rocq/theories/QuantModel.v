(** jax.numpy helpers used by the conformal methods, over exact rational numbers.
    Simplification (everywhere in this development where Q is used): floating point
    rounding, infinities and NaN are not modelled. *)
From Coq Require Import List Arith ZArith QArith Qround Qminmax Bool.
Import ListNotations.
Open Scope Q_scope.

(** jnp.sort *)
Fixpoint qinsert (x : Q) (l : list Q) : list Q :=
  match l with
  | [] => [x]
  | y :: r => if Qle_bool x y then x :: l else y :: qinsert x r
  end.
Definition qsort (l : list Q) : list Q := fold_right qinsert [] l.

(** lax.clamp(0, i, n-1) *)
Definition clamp_index (n : nat) (i : Z) : nat := Nat.min (Z.to_nat i) (n - 1).

(** jax.numpy.quantile(a, q) with the default linear interpolation
    (jax/_src/numpy/reductions.py, _quantile): position q*(n-1), weights computed
    before the indices are clamped, no check that q is between 0 and 1. *)
Definition quantile (l : list Q) (q : Q) : Q :=
  let n := length l in
  let pos := q * (inject_Z (Z.of_nat n) - 1) in
  let low := Qfloor pos in
  let high := Qceiling pos in
  let w := pos - inject_Z low in
  nth (clamp_index n low) (qsort l) 0 * (1 - w) + nth (clamp_index n high) (qsort l) 0 * w.

(** jnp.sum, jnp.mean, jnp.min, jnp.max (of non-empty arrays) *)
Definition qsum (l : list Q) : Q := fold_right Qplus 0 l.
Definition qlen {A} (l : list A) : Q := inject_Z (Z.of_nat (length l)).
Definition qmean (l : list Q) : Q := qsum l / qlen l.
Definition qmin_list (l : list Q) : Q := match l with [] => 0 | x :: r => fold_right Qmin x r end.
Definition qmax_list (l : list Q) : Q := match l with [] => 0 | x :: r => fold_right Qmax x r end.

(** strict comparison, as a boolean *)
Definition Qlt_bool (x y : Q) : bool := negb (Qle_bool y x).
(** jnp.clip(x, lo, hi) = minimum(hi, maximum(x, lo)) *)
Definition qclip (lo hi x : Q) : Q := Qmin hi (Qmax x lo).
