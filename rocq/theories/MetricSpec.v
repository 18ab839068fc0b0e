(** Vocabulary for the metric properties, independent of the model's helpers. *)
From Coq Require Import List Arith ZArith QArith Qabs Bool.
Import ListNotations.
Open Scope Q_scope.

Definition matrix (n d : nat) (rows : list (list Q)) : Prop := length rows = n /\ Forall (fun r => length r = d) rows.
Definition total (l : list Q) : Q := fold_right Qplus 0 l.
Definition nQ (n : nat) : Q := inject_Z (Z.of_nat n).
(** sum over two lists in step *)
Fixpoint sum2 {A B} (f : A -> B -> Q) (l : list A) (m : list B) : Q :=
  match l, m with x :: l, y :: m => f x y + sum2 f l m | _, _ => 0 end.
Definition sq_dist (r s : list Q) : Q := sum2 (fun x y => (x - y) * (x - y)) r s.
Definition abs_dist (r s : list Q) : Q := sum2 (fun x y => Qabs (x - y)) r s.
Definition same (a b : list (list Q)) : Prop := Forall2 (Forall2 Qeq) a b.
Definition in_unit (x : Q) : Prop := 0 <= x <= 1.

(** number of points satisfying a predicate *)
Fixpoint num {A} (f : A -> bool) (l : list A) : nat :=
  match l with [] => 0 | x :: r => (if f x then 1 else 0) + num f r end%nat.

(** targets inside their intervals *)
Definition inside (l u t : Q) : Prop := l <= t <= u.
Definition inside_b (p : Q * Q * Q) : bool := let '(l, u, t) := p in Qle_bool l t && Qle_bool t u.

(** bin i of the ten confidence bins for n points, by its edges: the edges are
    1/n, 1/n + (1-1/n)/9, ..., 1 and the first bin has no lower edge *)
Definition edge (n i : nat) : Q := 1 / nQ n + nQ i * ((1 - 1 / nQ n) / 9).
Definition bin_of (n i : nat) (p : Q) : Prop := p <= edge n i /\ (i = 0%nat \/ edge n (i - 1) < p).
Definition bin_b (n i : nat) (p : Q) : bool :=
  Qle_bool p (edge n i) && ((i =? 0)%nat || negb (Qle_bool p (edge n (i - 1)))).
(** data of a classification metric: confidence and correctness of a point *)
Notation point := (Q * bool)%type.
Definition sum_conf (l : list point) : Q := total (map fst l).
Definition n_right (l : list point) : nat := num snd l.
Definition points (preds : list Z) (confs : list Q) (targets : list Z) : list point :=
  combine confs (map (fun p => (fst p =? snd p)%Z) (combine preds targets)).
(** the gap of bin i: difference of the number of correct points and the sum of confidences *)
Definition bin_gap (l : list point) (i : nat) : Q :=
  Qabs (nQ (n_right (filter (fun p => bin_b (length l) i (fst p)) l)) - sum_conf (filter (fun p => bin_b (length l) i (fst p)) l)).

Definition distribution (r : list Q) : Prop := Forall in_unit r /\ total r == 1.
(** indicator row of a label *)
Definition is_indicator (d : nat) (y : Z) (r : list Q) : Prop :=
  length r = d /\ forall j, (j < d)%nat -> nth j r 0 == (if (y =? Z.of_nat j)%Z then 1 else 0).
(** relative frequencies of the labels *)
Definition frequencies (d : nat) (ys : list Z) : list Q :=
  map (fun j => nQ (num (fun y => (y =? Z.of_nat j)%Z) ys) / nQ (length ys)) (seq 0 d).
