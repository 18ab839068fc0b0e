(** Properties C32-C35, C67: conformal classification. *)
From Coq Require Import List Arith ZArith QArith Qabs Bool.
From Verif Require Import Lib QuantModel QuantSpec ConfRegModel ConfClassModel ConfClassSpec ConfClassProofs ConfClassProofs2 ConfClassProofs3 ExtraProofs.
From Verif Require Import Lit.
Import ListNotations.
Open Scope Q_scope.

(** C32 *)
Theorem C32_membership : forall vs ts e,
  length (get_conformal_sets vs ts e) = length ts /\
  forall i row, nth_error ts i = Some row -> exists s, nth_error (get_conformal_sets vs ts e) i = Some s /\ ascending_labels s /\
    forall c, In c s <-> exists x, nth_error row c = Some x /\
      inject_Z (Z.of_nat (n_above x vs)) < (1 - e) * inject_Z (Z.of_nat (length vs + 1)).
Proof. exact (@sets_spec). Qed.
Print Assumptions C32_membership.
Theorem C32_nested : forall vs ts e e' i s s' c, e' <= e ->
  nth_error (get_conformal_sets vs ts e) i = Some s -> nth_error (get_conformal_sets vs ts e') i = Some s' -> In c s -> In c s'.
Proof. exact (@sets_nested). Qed.
Print Assumptions C32_nested.
Theorem C32_empty : forall vs ts e, (1 - e) * inject_Z (Z.of_nat (length vs + 1)) <= 0 ->
  Forall (fun s => s = []) (get_conformal_sets vs ts e).
Proof. exact (@sets_empty). Qed.
Print Assumptions C32_empty.
Example C32_case : get_conformal_sets [1#10; 2#10; 3#10] [[0; 25#100; 1]; [0; 0; 0]; [0; 15#100; 5#100]; [1; 0; 1#4]] (1#2)
  = [[1; 2]%nat; []; []; [0; 2]%nat].
Proof. reflexivity. Qed.

(** C33 *)
Theorem C33_closed_upwards : forall vs ts e i row s c c' x x',
  nth_error ts i = Some row -> nth_error (get_conformal_sets vs ts e) i = Some s ->
  nth_error row c = Some x -> nth_error row c' = Some x' -> x <= x' -> In c s -> In c' s.
Proof. exact (@sets_upward). Qed.
Print Assumptions C33_closed_upwards.
Theorem C33_coverage : forall score data e K, (forall d, In d data -> length (fst d) = K /\ (snd d < K)%nat) -> (2 <= length data)%nat -> 0 <= e ->
  (1 - e) * inject_Z (Z.of_nat (length data)) <= inject_Z (Z.of_nat (count (holdout_class score data e) (seq 0 (length data)))).
Proof. exact (@coverage). Qed.
Print Assumptions C33_coverage.
Theorem C33_least_likely_included : forall vp vy tp e sets i p t,
  split_conformal_set adaptive_score vp vy tp e = sets -> 0 <= e < 1 ->
  (forall q, In q vp -> prob_vector q) -> length vp = length vy ->
  (forall j q y, nth_error vp j = Some q -> nth_error vy j = Some y -> (y < length q)%nat) ->
  nth_error tp i = Some p -> prob_vector p -> n_classes vp = length p -> (t < length p)%nat ->
  (forall j, (j < length p)%nat -> nth t p 0 < nth j p 0 \/ (nth t p 0 == nth j p 0 /\ (t <= j)%nat)) ->
  exists s, nth_error sets i = Some s /\ In t s.
Proof. exact (@least_likely_included). Qed.
Print Assumptions C33_least_likely_included.
Theorem C33_most_likely_excluded_refuted : exists vp vy tp e p t s,
  0 < e < 1 /\ (forall q, In q (vp ++ tp) -> prob_vector q) /\ tp = [p] /\
  split_conformal_set adaptive_score vp vy tp e = [s] /\
  (forall j, nth j p 0 <= nth t p 0) /\ ~ In t s /\ exists u, In u s /\ nth u p 0 < nth t p 0.
Proof. exact (@most_likely_excluded). Qed.
Print Assumptions C33_most_likely_excluded_refuted.
Example C33_case_coverage :
  count (holdout_class adaptive_score [([9#10;1#10], 0%nat); ([7#10;3#10], 1%nat); ([1#2;1#2], 0%nat); ([6#10;4#10], 0%nat)] (1#4)) (seq 0 4) = 3%nat.
Proof. reflexivity. Qed.

(** C34 *)
Theorem C34_adaptive_sum : forall p t, (t < length p)%nat ->
  adaptive_score p t == qsum (map (fun j => nth j p 0) (filter (ranked_above p t) (seq 0 (length p)))).
Proof. exact (@adaptive_score_sum). Qed.
Print Assumptions C34_adaptive_sum.
Theorem C34_adaptive_range : forall p t, prob_vector p -> (t < length p)%nat -> nth t p 0 <= adaptive_score p t <= 1.
Proof. exact (@adaptive_score_range). Qed.
Print Assumptions C34_adaptive_range.
Example C34_case_vector : prob_vector [1 # 2; 1 # 6; 1 # 3].
Proof. split; lit. Qed.
Theorem C34_adaptive_monotone : forall p t u, prob_vector p -> (t < length p)%nat -> (u < length p)%nat ->
  nth u p 0 < nth t p 0 -> adaptive_score p t <= adaptive_score p u.
Proof. exact (@adaptive_score_monotone). Qed.
Print Assumptions C34_adaptive_monotone.
Theorem C34_adaptive_last : forall p t, prob_vector p -> (t < length p)%nat ->
  (forall j, (j < length p)%nat -> nth t p 0 < nth j p 0 \/ (nth t p 0 == nth j p 0 /\ (t <= j)%nat)) -> adaptive_score p t == 1.
Proof. exact (@adaptive_score_last). Qed.
Print Assumptions C34_adaptive_last.
Theorem C34_adaptive_first : forall p t, (t < length p)%nat ->
  (forall j, (j < length p)%nat -> j <> t -> nth j p 0 < nth t p 0 \/ (nth j p 0 == nth t p 0 /\ (j < t)%nat)) -> adaptive_score p t == nth t p 0.
Proof. exact (@adaptive_score_first). Qed.
Print Assumptions C34_adaptive_first.
Theorem C34_simple_range : forall p t u, prob_vector p ->
  0 <= simple_score p t <= 1 /\ (simple_score p t <= simple_score p u <-> nth u p 0 <= nth t p 0).
Proof. exact (@simple_score_range). Qed.
Print Assumptions C34_simple_range.
Example C34_case : map (fun t => Qred (adaptive_score [1#5; 1#2; 3#10] t)) [0; 1; 2]%nat = [1; 1#2; 4#5] /\
  map (fun t => Qred (adaptive_score [2#5; 1#5; 2#5] t)) [0; 1; 2]%nat = [4#5; 1; 2#5].
Proof. split; reflexivity. Qed.

(** C35 *)
Theorem C35_positive_precision : forall targets probs tp tn n margin ps tau,
  calibrate targets probs tp tn n margin = Ok ps -> tn <= 1 -> unit_probs probs ->
  in_grid 1 (2 * tp) n tau -> meets (fun p => Qle_bool tp p) true (tp + margin) (map (rescale_pos tau) probs) targets ->
  meets (fun p => Qle_bool tp p) true (tp + margin) (apply_patches (Some ps) probs) targets /\
  (n_selected (fun p => Qle_bool tp p) (map (rescale_pos tau) probs) <= n_selected (fun p => Qle_bool tp p) (apply_patches (Some ps) probs))%nat.
Proof. exact (@positive_guarantee). Qed.
Print Assumptions C35_positive_precision.
Theorem C35_negative_precision : forall targets probs tp tn n margin ps tau,
  calibrate targets probs tp tn n margin = Ok ps -> tn <= 1 -> unit_probs probs ->
  in_grid (2 * (1 - tn)) 1 n tau -> meets (fun p => Qle_bool p (1 - tn)) false (tn + margin) (map (rescale_neg tau) probs) targets ->
  meets (fun p => Qle_bool p (1 - tn)) false (tn + margin) (apply_patches (Some ps) probs) targets /\
  (n_selected (fun p => Qle_bool p (1 - tn)) (map (rescale_neg tau) probs) <= n_selected (fun p => Qle_bool p (1 - tn)) (apply_patches (Some ps) probs))%nat.
Proof. exact (@negative_guarantee). Qed.
Print Assumptions C35_negative_precision.
Theorem C35_positive_unchanged : forall targets probs tp tn n margin ps,
  calibrate targets probs tp tn n margin = Ok ps -> unit_probs probs ->
  (forall tau, in_grid 1 (2 * tp) n tau -> ~ meets (fun p => Qle_bool tp p) true (tp + margin) (map (rescale_pos tau) probs) targets) ->
  forall p, (1#2) <= p <= 1 -> apply_patch ps p == p.
Proof. exact (@unsatisfiable_positive). Qed.
Print Assumptions C35_positive_unchanged.
Theorem C35_negative_unchanged : forall targets probs tp tn n margin ps,
  calibrate targets probs tp tn n margin = Ok ps -> (2 <= n)%nat ->
  (forall tau, in_grid (2 * (1 - tn)) 1 n tau -> ~ meets (fun p => Qle_bool p (1 - tn)) false (tn + margin) (map (rescale_neg tau) probs) targets) ->
  forall p, p <= (1#2) -> apply_patch ps p == p.
Proof. exact (@unsatisfiable_negative). Qed.
Print Assumptions C35_negative_unchanged.
(** one temperature in the grid: the negative side moves anyway *)
Theorem C35_single_tau_refuted : exists targets probs tp tn margin ps p,
  calibrate targets probs tp tn 1 margin = Ok ps /\ unit_probs probs /\ In p probs /\ p < (1#2) /\
  (forall tau, in_grid (2 * (1 - tn)) 1 1 tau -> ~ meets (fun p => Qle_bool p (1 - tn)) false (tn + margin) (map (rescale_neg tau) probs) targets) /\
  ~ apply_patch ps p == p.
Proof. exact (@single_tau). Qed.
Print Assumptions C35_single_tau_refuted.
Theorem C35_range : forall targets probs tp tn n margin ps p,
  calibrate targets probs tp tn n margin = Ok ps -> tn <= 1 -> 0 <= p <= 1 ->
  0 <= apply_patch ps p <= 1 /\ ((1#2) <= p -> p <= apply_patch ps p) /\ (p <= (1#2) -> apply_patch ps p <= p).
Proof. exact (@calibrated_range). Qed.
Print Assumptions C35_range.
Theorem C35_errors : forall targets probs tp tn n margin,
  (tp <= (1#2) \/ tn <= (1#2)) -> calibrate targets probs tp tn n margin = Err ValueError.
Proof. exact (@calibrate_errors). Qed.
Print Assumptions C35_errors.
Theorem C35_precision_reported : forall probs targets thr, length targets = length probs ->
  ((0 < n_selected (fun p => Qle_bool thr p) probs)%nat -> exists x, true_positive_precision probs targets thr = Some x /\
     x == inject_Z (Z.of_nat (n_correct (fun p => Qle_bool thr p) true probs targets)) / inject_Z (Z.of_nat (n_selected (fun p => Qle_bool thr p) probs))) /\
  ((0 < n_selected (fun p => Qle_bool p (1 - thr)) probs)%nat -> exists x, true_negative_precision probs targets thr = Some x /\
     x == inject_Z (Z.of_nat (n_correct (fun p => Qle_bool p (1 - thr)) false probs targets)) / inject_Z (Z.of_nat (n_selected (fun p => Qle_bool p (1 - thr)) probs))).
Proof. exact (@precision_reported). Qed.
Print Assumptions C35_precision_reported.
Theorem C35_coverage_reported : forall probs thr, probs <> [] ->
  true_positive_coverage probs thr * inject_Z (Z.of_nat (length probs))
  == inject_Z (Z.of_nat (n_selected (fun p => Qle_bool thr p) probs)).
Proof. exact (@positive_coverage). Qed.
Print Assumptions C35_coverage_reported.
(** true_negative_coverage counts p <= threshold rather than p <= 1 - threshold *)
Theorem C35_negative_coverage_refuted : exists probs targets thr, (1#2) < thr < 1 /\
  true_negative_precision probs targets thr = None /\ true_negative_coverage probs thr == 1.
Proof. exact (@negative_coverage_wrong). Qed.
Print Assumptions C35_negative_coverage_refuted.
Example C35_case : exists ps,
  calibrate [true; true; false; false; true] [6#10; 7#10; 3#10; 1#10; 55#100] (8#10) (8#10) 11 0 = Ok ps /\
  map Qred (apply_patches (Some ps) [6#10; 7#10; 3#10; 1#10; 55#100]) = [111#125; 1; 24#125; 8#125; 407#500] /\
  meets (fun p => Qle_bool (8#10) p) true (8#10) (apply_patches (Some ps) [6#10; 7#10; 3#10; 1#10; 55#100]) [true; true; false; false; true].
Proof. eexists. split; [vm_compute; reflexivity|]. split; [reflexivity|]. split; [repeat constructor|vm_compute; discriminate]. Qed.

(** C67 *)
Theorem C67_split_sets : forall score vp vy tp e i p, nth_error tp i = Some p ->
  let scores := zip_with score vp vy in
  exists s, nth_error (split_conformal_set score vp vy tp e) i = Some s /\
    forall c, In c s <-> (c < n_classes vp)%nat /\ inject_Z (Z.of_nat (n_above (score p c) scores)) < (1 - e) * inject_Z (Z.of_nat (length scores + 1)).
Proof. exact (@split_sets). Qed.
Print Assumptions C67_split_sets.
Theorem C67_cvplus_sets : forall score vp vy tp e i p, length vp = length tp -> Forall2 (fun ps ys => length ps = length ys) vp vy ->
  nth_error (List.concat tp) i = Some p ->
  let scores := zip_with score (List.concat vp) (List.concat vy) in
  exists s, nth_error (cvplus_conformal_set score vp vy tp e) i = Some s /\
    forall c, In c s <-> (c < n_classes (hd [] vp))%nat /\ inject_Z (Z.of_nat (n_above (score p c) scores)) < (1 - e) * inject_Z (Z.of_nat (length scores + 1)).
Proof. exact (@cvplus_sets). Qed.
Print Assumptions C67_cvplus_sets.
Theorem C67_cvplus_length : forall score vp vy tp e, length vp = length vy -> length vp = length tp ->
  length (cvplus_conformal_set score vp vy tp e) = length (List.concat tp).
Proof. exact (@cvplus_length). Qed.
Print Assumptions C67_cvplus_length.
Theorem C67_one_set_per_input_refuted : exists vp vy tp e, length vp = 2%nat /\ length vy = 2%nat /\ map (@length _) tp = [1; 1]%nat /\
  length (cvplus_conformal_set simple_score vp vy tp e) = 2%nat.
Proof. exact (@cvplus_not_per_input). Qed.
Print Assumptions C67_one_set_per_input_refuted.
Theorem C67_adaptive_update : forall s target e t g e', 0 <= e <= 1 -> 0 <= t <= 1 ->
  class_update_error s target e t g None None = Ok e' ->
  0 <= e' <= 1 /\ (In target s -> e <= e') /\ (~ In target s -> e' <= e) /\ Qabs (e' - e) <= g.
Proof. exact (@class_update_moves). Qed.
Print Assumptions C67_adaptive_update.
Example C67_case : exists e', class_update_error [0; 2]%nat 2 (1#10) (1#10) (1#2) None None = Ok e' /\ e' == 15 # 100.
Proof. eexists. split; [vm_compute; reflexivity|reflexivity]. Qed.
Example C67_case_cvplus : cvplus_conformal_set simple_score [[[1#2;1#2]];[[1#3;2#3]]] [[0%nat];[1%nat]] [[[9#10;1#10]];[[1#3;2#3]]] (1#2) = [[1%nat]; [0; 1]%nat].
Proof. vm_compute. reflexivity. Qed.
