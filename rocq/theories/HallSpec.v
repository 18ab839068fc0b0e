(** Notions used in the statements about hallucination detection, independent of the model. *)
From Coq Require Import List Arith ZArith QArith Bool Ascii Reals.
From Verif Require Import Lib.
Import ListNotations.
Local Notation length := List.length.
Open Scope list_scope.

(** probability that the softmax of the logits gives to an entry *)
Definition token_prob (logits : list R) (y : nat) : R := (exp (nth y logits 0) / fold_right (fun x s => exp x + s) 0 logits)%R.
Definition product (l : list R) : R := fold_right Rmult 1%R l.
(** probabilities that the model gives to the tokens at positions [from], ..., [from + n - 1] given
    the tokens before them *)
Definition next_token_probs (logits : list (list R)) (tokens : list nat) (from n : nat) : list R :=
  map (fun i => token_prob (nth (i - 1) logits []) (nth i tokens 0%nat)) (seq from n).
(** every token after the first one is in the vocabulary *)
Definition in_vocabulary (logits : list (list R)) (tokens : list nat) : Prop :=
  forall i, (1 <= i < length tokens)%nat -> (nth i tokens 0 < length (nth (i - 1) logits []))%nat.

(** number of rows whose entry [j] is true *)
Fixpoint members (j : nat) (rows : list (list bool)) : nat :=
  match rows with [] => O | r :: rs => ((if nth j r false then 1 else 0) + members j rs)%nat end.

(** sum and mean of reals *)
Definition total (l : list R) : R := fold_right Rplus 0%R l.
Definition average (l : list R) : R := (total l / INR (length l))%R.

(** probability of a list of rationals *)
Definition unit_q (x : Q) : Prop := (0 <= x /\ x <= 1)%Q.

(** characters *)
Definition space (c : ascii) : Prop := (9 <= nat_of_ascii c <= 13 \/ 28 <= nat_of_ascii c <= 32)%nat.
Definition upper (c : ascii) : Prop := (65 <= nat_of_ascii c <= 90)%nat.
Definition same_letter (a b : ascii) : Prop :=
  a = b \/ (upper a /\ nat_of_ascii b = nat_of_ascii a + 32)%nat \/ (upper b /\ nat_of_ascii a = nat_of_ascii b + 32)%nat.
(** the second text is the first one up to white space and letter case *)
Inductive same_content : list ascii -> list ascii -> Prop :=
| same_nil : same_content [] []
| same_skip_l : forall c a b, space c -> same_content a b -> same_content (c :: a) b
| same_skip_r : forall c a b, space c -> same_content a b -> same_content a (c :: b)
| same_keep : forall x y a b, same_letter x y -> same_content a b -> same_content (x :: a) (y :: b).
(** no white space at either end *)
Definition trimmed (l : list ascii) : Prop := (forall c r, l = c :: r -> ~ space c) /\ (forall c r, l = r ++ [c] -> ~ space c).
