(** Vocabulary for the statements about temperature scaling calibrators as objects. *)
From Coq Require Import List Arith ZArith QArith Bool Reals.
From Verif Require Import Lib MetricSpec OneShotModel OneShotSpec MultiSpec TempSpec TScaleModel.
Import ListNotations.
Open Scope Q_scope.

Definition good_call (ps : array) (t : targets) : Prop := axes ps = 1%nat /\ y_axes t = 1%nat /\ y_dtype t = Int64.
(** numpy's quotient of two numbers *)
Definition quotient (a b : Q) (t : num) : Prop :=
  (~ b == 0 -> exists q, t = Fin q /\ q * b == a) /\ (b == 0 -> 0 < a -> t = Inf true) /\ (b == 0 -> a < 0 -> t = Inf false) /\ (b == 0 -> a == 0 -> t = NaN).
(** lengths numpy can multiply *)
Definition compatible {A B} (xs : list A) (ys : list B) : Prop := length xs = length ys \/ length xs = 1%nat \/ length ys = 1%nat.
(** what the model of the searches leaves out *)
Definition searchable {A B} (xs : list A) (ys : list B) : Prop := length xs = length ys \/ (length xs <> 1%nat /\ length ys <> 1%nat).
Definition sum_of (l : list Q) : Q := total l.
Definition sum_labels (ys : list Z) : Q := total (map inject_Z ys).
(** objects obtained by calls of fit, whether these succeed or not *)
Inductive used (ce : list Q -> list Z -> Q) (finish : (Q -> option Q) -> Q -> Q) (m : scaling) : scaler -> Prop :=
| unused : used ce finish m fresh
| once_more o ps t th : used ce finish m o -> used ce finish m (snd (bfit ce finish m o ps t th)).
(** objects that answer all queries alike *)
Definition same_answers (m : scaling) (o o' : scaler) : Prop := forall ps th, bproba o ps = bproba o' ps /\ bpredict m o ps th = bpredict m o' ps th.
(** the probability made of [p] at temperature [t]; None is NaN *)
Definition answer_is (t : num) (p : Q) (c : option Q) : Prop :=
  match t with
  | Fin q => (~ q == 0 -> exists x, c = Some x /\ in_unit x /\ clipped_div q p x) /\
             (q == 0 -> p == 0 -> c = None) /\ (q == 0 -> 0 < p -> exists x, c = Some x /\ x == 1) /\ (q == 0 -> p < 0 -> exists x, c = Some x /\ x == 0)
  | Inf _ => exists x, c = Some x /\ x == 0
  | NaN => c = None
  end.
(** the class a target stands for *)
Definition class_of (n : nat) (y : Z) (c : nat) : Prop := (c < n)%nat /\ (y = Z.of_nat c \/ y = (Z.of_nat c - Z.of_nat n)%Z).
Definition squared (ps : list Q) (ys : list Z) : Q := sum2 (fun p y => (p - inject_Z y) * (p - inject_Z y)) ps ys.
