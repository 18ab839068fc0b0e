(** Vocabulary of the properties of the kernel Stein discrepancy: the inverse multiquadric
    kernel, its partial derivatives and the Langevin Stein operator applied to both of its
    arguments (Gorham and Mackey 2017, the reference in the docstring of the function). *)
From Coq Require Import List Reals.
Import ListNotations.
Open Scope R_scope.

Definition sq_dist (x y : list R) : R := fold_right Rplus 0 (map (fun p => (fst p - snd p) * (fst p - snd p)) (combine x y)).
Definition imq (c : R) (x y : list R) : R := / sqrt (c * c + sq_dist x y).
(** the point moved by h along coordinate d *)
Fixpoint moved (d : nat) (h : R) (x : list R) : list R :=
  match x, d with
  | [], _ => []
  | a :: x, O => (a + h) :: x
  | a :: x, S d => a :: moved d h x
  end.
(** partial derivatives of a kernel at a pair of points *)
Definition partial_left (k : list R -> list R -> R) (d : nat) (x y : list R) (v : R) : Prop := derivable_pt_lim (fun h => k (moved d h x) y) 0 v.
Definition partial_right (k : list R -> list R -> R) (d : nat) (x y : list R) (v : R) : Prop := derivable_pt_lim (fun h => k x (moved d h y)) 0 v.
Definition partial_both (k : list R -> list R -> R) (d : nat) (x y : list R) (v : R) : Prop :=
  exists r, (forall h, partial_right k d (moved d h x) y (r h)) /\ derivable_pt_lim r 0 v.
(** the sum over coordinates of d/dx d/dy k + s(x) d/dy k + s(y) d/dx k + s(x) s(y) k *)
Definition langevin (k : list R -> list R -> R) (x y gx gy : list R) (v : R) : Prop :=
  exists left right both : nat -> R,
    (forall d, (d < length x)%nat -> partial_left k d x y (left d) /\ partial_right k d x y (right d) /\ partial_both k d x y (both d)) /\
    v = fold_right Rplus 0 (map (fun d => both d + nth d gx 0 * right d + nth d gy 0 * left d + nth d gx 0 * nth d gy 0 * k x y) (seq 0 (length x))).
(** the sum of a function over all ordered pairs of points of a chain *)
Definition pair_sum {T} (f : T -> T -> R) (l : list T) : R := fold_right Rplus 0 (map (fun p => fold_right Rplus 0 (map (f p) l)) l).
