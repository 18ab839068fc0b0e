(** Vocabulary for calibration_error. *)
From Coq Require Import List Arith ZArith QArith Bool.
From Verif Require Import Lib QuantModel QuantSpec ConfRegModel ConfClassModel MultiModel MultiSpec.
Import ListNotations.
Open Scope Q_scope.

(** the mask marks the points of group g whose value is in the bucket with centre v *)
Definition bucket_mask (n g : nat) (groups : list (list bool)) (values : list Q) (v : Q) (mask : list bool) : Prop :=
  length mask = length values /\ forall i row x, nth_error groups i = Some row -> nth_error values i = Some x ->
    (nth_error mask i = Some true <-> selected n {| k_tau := 0; k_g := g; k_v := v; k_c := 0 |} row x).
(** squared total bias of the marked points over their number *)
Definition mask_error (ss xs : list Q) (mask : list bool) : Q :=
  (sum_where mask ss - sum_where mask xs) * (sum_where mask ss - sum_where mask xs) / n_where mask.
Definition total_of (l : list Q) : Q := fold_right Qplus 0 l.
