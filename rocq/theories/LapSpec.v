(** Vocabulary for posterior approximations: starting states, quadratic forms, derivatives. *)
From Coq Require Import List Arith ZArith QArith Bool Reals String Ascii.
From Verif Require Import Lib NestedModel TempModel PredSpec LapModel.
Import ListNotations.
Local Notation length := List.length.

(** lexicographic order of paths, component by component *)
Inductive path_lt : path -> path -> Prop :=
| plt_nil k q : path_lt [] (k :: q)
| plt_head k k' p q : String.compare k k' = Lt -> path_lt (k :: p) (k' :: q)
| plt_tail k p q : path_lt p q -> path_lt (k :: p) (k :: q).

Open Scope R_scope.
(** v' H v over indices 0..n-1 *)
Definition quad (n : nat) (H : nat -> nat -> R) (v : nat -> R) : R := rover n (fun o => rover n (fun o' => v o * H o o' * v o')).
(** H is the sum over k of lam k times the outer product of column k of z *)
Definition eigen_decomposition (n : nat) (H : nat -> nat -> R) (lam : nat -> R) (z : nat -> nat -> R) : Prop :=
  forall o o', (o < n)%nat -> (o' < n)%nat -> H o o' = rover n (fun k => lam k * (z o k * z o' k)).
(** the columns of z are orthonormal *)
Definition orthonormal (n : nat) (z : nat -> nat -> R) : Prop :=
  forall k k', (k < n)%nat -> (k' < n)%nat -> rover n (fun o => z o k * z o k') = if (k =? k')%nat then 1 else 0.
(** f is twice differentiable with second derivative d at zero *)
Definition second_derivative_at_0 (f : R -> R) (d : R) : Prop :=
  exists f', (forall t, derivable_pt_lim f t (f' t)) /\ derivable_pt_lim f' 0 d.
(** Hessians of the log-likelihood with respect to the outputs *)
Definition softmax_hessian (p : nat -> R) (o o' : nat) : R := if (o =? o')%nat then p o * p o' - p o else p o * p o'.
Definition gaussian_hessian (y m lv : R) (o o' : nat) : R :=
  match o, o' with
  | O, O => - exp (- lv)
  | S _, S _ => - (exp (- lv) * ((y - m) * (y - m)) / 2)
  | _, _ => - (exp (- lv) * (y - m))
  end.
(** the point o moved by t in direction v *)
Definition moved (o : list R) (v : nat -> R) (t : R) : list R := map (fun i => nth i o 0 + t * v i) (seq 0 (length o)).
