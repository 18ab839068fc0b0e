(** Properties C43 and C44: classification and regression metrics.  Proofs are in MetricProofs*.v. *)
From Coq Require Import List Arith ZArith QArith Qabs Bool Permutation Reals Qreals.
From Verif Require Import Lib QuantModel ConfRegModel MetricModel MetricSpec MetricProofs MetricProofs2 MetricProofs3.
From Verif Require Import Lit.
Import ListNotations.
Open Scope Q_scope.

(** C43: bins *)
Theorem C43_bins_partition : forall n p, (0 < n)%nat ->
  (p <= 1 -> exists i, (i < 10)%nat /\ in_bin n i p = true /\ forall j, (j < 10)%nat -> in_bin n j p = true -> j = i) /\
  (1 < p -> forall j, (j < 10)%nat -> in_bin n j p = false).
Proof. exact (@bins_partition). Qed.
Print Assumptions C43_bins_partition.
Theorem C43_bins_spec : forall preds confs targets, length preds = length confs -> length targets = length confs ->
  exists bs, bins_of preds confs targets = Ok bs /\ length bs = 10%nat /\
    forall i b, nth_error bs i = Some b ->
      let inb := filter (fun p => bin_b (length confs) i (fst p)) (points preds confs targets) in
      b_count b = length inb /\ b_conf b * nQ (length inb) == sum_conf inb /\ b_acc b * nQ (length inb) == nQ (n_right inb).
Proof. exact (@bins_spec). Qed.
Print Assumptions C43_bins_spec.
Theorem C43_counts_total : forall preds confs targets bs, confs <> [] -> bins_of preds confs targets = Ok bs -> Forall (fun p => p <= 1) confs ->
  sum_nat (map b_count bs) = length confs.
Proof. exact (@counts_total). Qed.
Print Assumptions C43_counts_total.
(** C43: expected and maximum calibration error *)
Theorem C43_ece_range : forall preds probs targets v, preds <> [] -> Forall in_unit (confidences probs) ->
  ece preds probs targets = Ok v -> in_unit v.
Proof. exact (@ece_range). Qed.
Print Assumptions C43_ece_range.
Theorem C43_ece_zero : forall preds probs targets v, preds <> [] -> ece preds probs targets = Ok v ->
  let l := points preds (confidences probs) targets in
  0 <= v /\ (v == 0 <-> forall i, (i < 10)%nat -> let inb := filter (fun p => bin_b (length l) i (fst p)) l in nQ (n_right inb) == sum_conf inb).
Proof. exact (@ece_zero). Qed.
Print Assumptions C43_ece_zero.
Theorem C43_ece_lower_bound : forall preds probs targets v a, preds <> [] -> Forall (fun p => p <= 1) (confidences probs) ->
  ece preds probs targets = Ok v -> accuracy preds targets = Ok a ->
  Qabs (a - total (confidences probs) / nQ (length (confidences probs))) <= v.
Proof. exact (@ece_lower). Qed.
Print Assumptions C43_ece_lower_bound.
Theorem C43_ece_order : forall preds probs targets preds' probs' targets' v v',
  Permutation (combine (combine preds probs) targets) (combine (combine preds' probs') targets') ->
  ece preds (A1 probs) targets = Ok v -> ece preds' (A1 probs') targets' = Ok v' -> v == v'.
Proof. exact (@ece_order). Qed.
Print Assumptions C43_ece_order.
Theorem C43_mce_bounds : forall preds probs targets v w, preds <> [] -> ece preds probs targets = Ok v -> mce preds probs targets = Ok w ->
  let l := points preds (confidences probs) targets in
  (forall i, (i < 10)%nat -> bin_gap l i <= w) /\ (exists i, (i < 10)%nat /\ w == bin_gap l i) /\
  w <= v * nQ (length preds) /\ v * nQ (length preds) <= 10 * w.
Proof. exact (@mce_bounds). Qed.
Print Assumptions C43_mce_bounds.
Theorem C43_mce_refuted : exists preds probs targets w, Forall in_unit probs /\ mce preds (A1 probs) targets = Ok w /\ 1 < w.
Proof. exact (@mce_refuted). Qed.
Print Assumptions C43_mce_refuted.
Theorem C43_accuracy : forall preds targets, preds <> [] -> length preds = length targets ->
  exists a, accuracy preds targets = Ok a /\ in_unit a /\ (a == 1 <-> preds = targets) /\
    a * nQ (length preds) == nQ (num (fun p => (fst p =? snd p)%Z) (combine preds targets)).
Proof. exact (@accuracy_range). Qed.
Print Assumptions C43_accuracy.
(** C43: Brier score *)
Theorem C43_brier_range : forall n d rows ys, (0 < n)%nat -> matrix n d rows -> length ys = n -> Forall distribution rows ->
  exists v, brier_score (A2 rows) ys = Ok v /\ 0 <= v <= 2.
Proof. exact (@brier_range). Qed.
Print Assumptions C43_brier_range.
Example C43_case_matrix : matrix 2 2 [[9 # 10; 1 # 10]; [3 # 10; 7 # 10]] /\ Forall distribution [[9 # 10; 1 # 10]; [3 # 10; 7 # 10]].
Proof. split; [split; lit|]. repeat constructor; vm_compute; try reflexivity; discriminate. Qed.
Theorem C43_brier_zero : forall n d rows ys v, (0 < n)%nat -> matrix n d rows -> length ys = n -> brier_score (A2 rows) ys = Ok v ->
  (v == 0 <-> forall r y, In (r, y) (combine rows ys) -> is_indicator d y r).
Proof. exact (@brier_zero). Qed.
Print Assumptions C43_brier_zero.
Theorem C43_brier_binary : forall ps ys, ps <> [] -> length ps = length ys ->
  exists v, brier_score (A1 ps) ys = Ok v /\ v * nQ (length ps) == sum2 (fun p y => (p - inject_Z y) * (p - inject_Z y)) ps ys /\
    (Forall in_unit ps -> Forall (fun y => y = 0%Z \/ y = 1%Z) ys -> in_unit v).
Proof. exact (@brier_binary). Qed.
Print Assumptions C43_brier_binary.
Theorem C43_brier_proper : forall d p ys v w, (0 < d)%nat -> length p = d -> ys <> [] ->
  brier_score (A2 (repeat p (length ys))) ys = Ok v ->
  brier_score (A2 (repeat (frequencies d ys) (length ys))) ys = Ok w ->
  v == w + sq_dist p (frequencies d ys).
Proof. exact (@brier_proper). Qed.
Print Assumptions C43_brier_proper.
Example C43_case_ece : rmap Qred (ece [0; 1; 1; 0]%Z (A2 [[9 # 10; 1 # 10]; [3 # 10; 7 # 10]; [2 # 5; 3 # 5]; [4 # 5; 1 # 5]]) [0; 1; 0; 1]%Z) = Ok (9 # 20).
Proof. vm_compute. reflexivity. Qed.
Example C43_case_mce : rmap Qred (mce [0; 1; 1; 0]%Z (A2 [[9 # 10; 1 # 10]; [3 # 10; 7 # 10]; [2 # 5; 3 # 5]; [4 # 5; 1 # 5]]) [0; 1; 0; 1]%Z) = Ok (4 # 5).
Proof. vm_compute. reflexivity. Qed.
Example C43_case_edge : map (fun i => in_bin 4 i (1 # 4)) (seq 0 10) = [true; false; false; false; false; false; false; false; false; false].
Proof. vm_compute. reflexivity. Qed.
Example C43_case_brier : rmap Qred (brier_score (A2 [[9 # 10; 1 # 10]; [3 # 10; 7 # 10]]) [0; 0]%Z) = Ok (1 # 2).
Proof. vm_compute. reflexivity. Qed.
Example C43_case_brier_binary : rmap Qred (brier_score (A1 [9 # 10; 3 # 10]) [1; 1]%Z) = Ok (1 # 4).
Proof. vm_compute. reflexivity. Qed.

(** C44: errors *)
Theorem C44_mse : forall n d preds targets, matrix n d preds -> matrix n d targets ->
  exists v, mse (A2 preds) (A2 targets) = Ok v /\ v * nQ n == (if (n =? 0)%nat then 0 else sum2 sq_dist preds targets).
Proof. exact (@mse_value). Qed.
Print Assumptions C44_mse.
Example C44_case_matrix : matrix 2 2 [[1; 2]; [3; 4]] /\ matrix 2 2 [[1; 0]; [2; 4]].
Proof. split; split; lit. Qed.
Theorem C44_mae : forall n d preds targets, matrix n d preds -> matrix n d targets ->
  exists v, mae (A2 preds) (A2 targets) = Ok v /\ v * nQ n == (if (n =? 0)%nat then 0 else sum2 abs_dist preds targets).
Proof. exact (@mae_value). Qed.
Print Assumptions C44_mae.
Theorem C44_mse_zero : forall n d preds targets v, (0 < n)%nat -> matrix n d preds -> matrix n d targets ->
  mse (A2 preds) (A2 targets) = Ok v -> 0 <= v /\ (v == 0 <-> same preds targets).
Proof. exact (@mse_zero). Qed.
Print Assumptions C44_mse_zero.
Theorem C44_mae_zero : forall n d preds targets v, (0 < n)%nat -> matrix n d preds -> matrix n d targets ->
  mae (A2 preds) (A2 targets) = Ok v -> 0 <= v /\ (v == 0 <-> same preds targets).
Proof. exact (@mae_zero). Qed.
Print Assumptions C44_mae_zero.
Theorem C44_rmse_square : forall n d preds targets, matrix n d preds -> matrix n d targets ->
  exists r v, rmse (A2 preds) (A2 targets) = Ok r /\ mse (A2 preds) (A2 targets) = Ok v /\ (0 <= r)%R /\ (r * r = Q2R v)%R.
Proof. exact (@rmse_square). Qed.
Print Assumptions C44_rmse_square.
Theorem C44_rmae_square : forall n d preds targets, matrix n d preds -> matrix n d targets ->
  exists r v, rmae (A2 preds) (A2 targets) = Ok r /\ mae (A2 preds) (A2 targets) = Ok v /\ (0 <= r)%R /\ (r * r = Q2R v)%R.
Proof. exact (@rmae_square). Qed.
Print Assumptions C44_rmae_square.
Theorem C44_mae_mse : forall n d preds targets a s, (0 < n)%nat -> matrix n d preds -> matrix n d targets ->
  mae (A2 preds) (A2 targets) = Ok a -> mse (A2 preds) (A2 targets) = Ok s -> a * a <= nQ d * s.
Proof. exact (@mae_mse). Qed.
Print Assumptions C44_mae_mse.
Theorem C44_one_dimensional : forall preds targets, length preds = length targets ->
  mse (A1 preds) (A1 targets) = Err ValueError /\ mae (A1 preds) (A1 targets) = Err ValueError.
Proof. exact (@one_dim). Qed.
Print Assumptions C44_one_dimensional.
Theorem C44_mixed_shapes : forall ps ys, (length ps = length ys) ->
  exists v, mse (A2 (map (fun y => [y]) ps)) (A1 ys) = Ok v /\
    v == qmean (map (fun p => total (map (fun y => (p - y) * (p - y)) ys)) ps).
Proof. exact (@mixed_shapes). Qed.
Print Assumptions C44_mixed_shapes.
Theorem C44_mixed_shapes_refuted : exists ys : list Q, exists v,
  mse (A2 (map (fun y => [y]) ys)) (A1 ys) = Ok v /\ 0 < v.
Proof. exact (@mixed_shapes_refuted). Qed.
Print Assumptions C44_mixed_shapes_refuted.
(** C44: interval coverage *)
Theorem C44_picp_range : forall ls us ts, ts <> [] -> length ls = length ts -> length us = length ts ->
  exists v, picp (A1 ls) (A1 us) (A1 ts) = Ok v /\ in_unit v /\
    (v == 1 <-> forall l u t, In (l, u, t) (combine (combine ls us) ts) -> inside l u t).
Proof. exact (@picp_range). Qed.
Print Assumptions C44_picp_range.
Theorem C44_picp_widen : forall ls us ls' us' ts v v', length ls = length ts -> length us = length ts ->
  Forall2 Qle ls' ls -> Forall2 Qle us us' ->
  picp (A1 ls) (A1 us) (A1 ts) = Ok v -> picp (A1 ls') (A1 us') (A1 ts) = Ok v' -> v <= v'.
Proof. exact (@picp_widen). Qed.
Print Assumptions C44_picp_widen.
Theorem C44_picp_are_in : forall ls us ts, length ls = length ts -> length us = length ts ->
  picp (A1 ls) (A1 us) (A1 ts) = Ok (qmean (map of_bool (are_in ts (combine ls us)))).
Proof. exact (@picp_are_in). Qed.
Print Assumptions C44_picp_are_in.
Theorem C44_picp_shapes : forall ls us ts, length ls = length ts -> length us = length ts ->
  let col := fun l : list Q => A2 (map (fun x => [x]) l) in
  picp (col ls) (col us) (col ts) = picp (A1 ls) (A1 us) (A1 ts) /\
  (forall d rows, (d <> 1)%nat -> rows <> [] -> Forall (fun r => length r = d) rows -> picp (A1 ls) (A1 us) (A2 rows) = Err ValueError).
Proof. exact (@picp_columns). Qed.
Print Assumptions C44_picp_shapes.
Example C44_case_mse : rmap Qred (mse (A2 [[1; 2]; [3; 4]]) (A2 [[1; 0]; [2; 4]])) = Ok (5 # 2).
Proof. vm_compute. reflexivity. Qed.
Example C44_case_mae : rmap Qred (mae (A2 [[1; 2]; [3; 4]]) (A2 [[1; 0]; [2; 4]])) = Ok (3 # 2).
Proof. vm_compute. reflexivity. Qed.
Example C44_case_mixed : rmap Qred (mse (A2 [[1]; [2]; [3]]) (A1 [1; 2; 3])) = Ok 4.
Proof. vm_compute. reflexivity. Qed.
Example C44_case_picp : rmap Qred (picp (A1 [0; 0; 1]) (A1 [1; 2; 3]) (A1 [1; 3; 1])) = Ok (2 # 3).
Proof. vm_compute. reflexivity. Qed.
