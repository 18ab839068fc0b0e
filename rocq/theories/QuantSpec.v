(** Counting vocabulary for order statements. *)
From Coq Require Import List Arith QArith Bool.
From Verif Require Import QuantModel.
Import ListNotations.

Definition count {A} (f : A -> bool) (l : list A) : nat := length (filter f l).
(** number of elements at most / less than / at least v *)
Definition n_le (v : Q) (l : list Q) : nat := count (fun x => Qle_bool x v) l.
Definition n_lt (v : Q) (l : list Q) : nat := count (fun x => Qlt_bool x v) l.
Definition n_ge (v : Q) (l : list Q) : nat := count (fun x => Qle_bool v x) l.
(** the list without its i-th element *)
Definition without {A} (i : nat) (l : list A) : list A := firstn i l ++ skipn (S i) l.
