(** Vocabulary for the statements about multivalid methods. *)
From Coq Require Import List Arith ZArith QArith Qabs Bool.
From Verif Require Import Lib QuantModel QuantSpec ConfRegModel ConfClassModel MultiModel.
Import ListNotations.
Open Scope Q_scope.

Definition in_unit (x : Q) : Prop := 0 <= x <= 1.
(** the points a patch applies to: in its group, and value equal to / at least / at most
    the bucket centre up to half a bucket *)
Definition selected (n : nat) (k : key) (row : list bool) (x : Q) : Prop :=
  nth (k_g k) row false = true /\
  match k_tau k with
  | O => Qabs (x - k_v k) * (2 * inject_Z (Z.of_nat n)) < 1
  | S O => k_v k * (2 * inject_Z (Z.of_nat n)) <= x * (2 * inject_Z (Z.of_nat n)) + 1
  | _ => x * (2 * inject_Z (Z.of_nat n)) <= k_v k * (2 * inject_Z (Z.of_nat n)) + 1
  end.
(** label [c] is the first most probable one *)
Definition top_label_is (xs : list Q) (c : nat) : Prop :=
  (c < length xs)%nat /\ (forall j, (j < length xs)%nat -> nth j xs 0 <= nth c xs 0) /\ (forall j, (j < c)%nat -> nth j xs 0 < nth c xs 0).

(** sum of squared differences *)
Fixpoint sq_error (xs ss : list Q) : Q :=
  match xs, ss with x :: xs', s :: ss' => (x - s) * (x - s) + sq_error xs' ss' | _, _ => 0 end.
(** sum of the entries where the mask holds *)
Fixpoint sum_where (bs : list bool) (xs : list Q) : Q :=
  match bs, xs with b :: bs', x :: xs' => (if b then x else 0) + sum_where bs' xs' | _, _ => 0 end.

(** losses that never increase, ignoring NaN *)
Definition no_increase (a b : option Q) : Prop := forall x y, a = Some x -> b = Some y -> y <= x.

(** [y] is the point of [0,1] nearest to [t] *)
Definition clipped (t y : Q) : Prop := (in_unit t -> y == t) /\ (t < 0 -> y == 0) /\ (1 < t -> y == 1).
(** where a patch sends a selected value *)
Definition target (pt : ptype) (eta p x : Q) : Q :=
  match pt with Additive => x + eta * p | Multiplicative => (1 - eta) * x + eta * (x * p) end.
(** calibrators whose values are plain numbers *)
Definition scalar_method (m : method Q) : Prop := m = multicalibrator \/ exists coverage, m = batch_mvp coverage.
(** points of a data set: group row, value, score *)
Definition n_where (bs : list bool) : Q := inject_Z (Z.of_nat (length (filter (fun b => b) bs))).
(** the average of [xs] over the points of the mask, when there are some *)
Definition mean_is (bs : list bool) (xs : list Q) (mean : Q) : Prop := mean * n_where bs == sum_where bs xs.
Fixpoint rows_sq_error (xs ss : list (list Q)) : Q :=
  match xs, ss with x :: xs', s :: ss' => sq_error x s + rows_sq_error xs' ss' | _, _ => 0 end.

(** no selected value leaves [0,1] *)
Definition no_clip (cfg : config) (k : key) (p : Q) (groups : list (list bool)) (values : list Q) : Prop :=
  forall i row x, nth_error groups i = Some row -> nth_error values i = Some x -> selected (n_buckets cfg) k row x ->
    in_unit (target (ptype_of cfg) (eta cfg) p x).
Definition rectangular (d : nat) (xs : list (list Q)) : Prop := Forall (fun x => length x = d) xs.
