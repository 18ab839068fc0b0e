(** Properties C25-C31, C59, C60: conformal regression. *)
From Coq Require Import List Arith ZArith QArith Qround Qminmax Qabs Bool Lia Lqa.
From Verif Require Import Lib QuantModel QuantSpec ConfRegModel ConfRegSpec ConfRegProofs ConfRegProofs2 ConfRegProofs3 ConfRegProofs4 ConfRegProofs5 ExtraProofs.
Import ListNotations.
Open Scope Q_scope.

(** C25 *)
Theorem C25_quantile_covers_scores : forall l error, l <> [] ->
  (forall q, split_quantile l error = Ok q ->
     0 <= error <= 1 /\ (Nat.min (split_k (length l) error) (length l) <= n_le q l)%nat) /\
  (~ (0 <= error <= 1) -> split_quantile l error = Err ValueError).
Proof. exact split_quantile_ok. Qed.
Print Assumptions C25_quantile_covers_scores.
Theorem C25_level_rejected : forall los his ys error, ~ (0 <= error <= 1) -> quantile_quantile los his ys error = Err ValueError.
Proof. exact quantile_level_rejects. Qed.
Print Assumptions C25_level_rejected.

Theorem C25_quantile_regressor_covers : forall los his ys error is, ys <> [] ->
  quantile_interval los his los his ys error = Ok is ->
  (Nat.min (split_k (length ys) error) (length ys) <= count (fun b => b) (are_in ys is))%nat.
Proof. exact quantile_interval_covers. Qed.
Print Assumptions C25_quantile_regressor_covers.

Theorem C25_onedim_regressor_covers : forall mus us ys error is, ys <> [] ->
  uncert_interval mus us mus us ys error = Ok is ->
  (Nat.min (split_k (length ys) error) (length ys) <= count (fun b => b) (are_in ys is))%nat.
Proof. exact uncert_interval_covers. Qed.
Print Assumptions C25_onedim_regressor_covers.

Example C25_case : split_k 4 (1 # 4) = 4%nat /\
  exists is, quantile_interval [0;0;0;0] [1;1;1;1] [0;0;0;0] [1;1;1;1] [2;3;(1#2);5] (1 # 2) = Ok is /\
    are_in [2;3;(1#2);5] is = [true;true;true;false].
Proof. split; [reflexivity|]. eexists. split; reflexivity. Qed.
Example C25_case_onedim : exists is, uncert_interval [0;0;0] [1;2;1] [0;0;0] [1;2;1] [1;8;3] (1 # 2) = Ok is /\
    are_in [1;8;3] is = [true;false;true].
Proof. eexists. split; reflexivity. Qed.

(** C26 *)
Theorem C26_quantile_holdout_coverage : forall data error, (2 <= length data)%nat -> 0 <= error <= 1 ->
  let n := (length data - 1)%nat in
  (Nat.min (split_k n error) n <= count (holdout_quantile data error) (seq 0 (length data)))%nat.
Proof. exact holdout_quantile_coverage. Qed.
Print Assumptions C26_quantile_holdout_coverage.

Theorem C26_onedim_holdout_coverage : forall data error, (2 <= length data)%nat -> 0 <= error <= 1 ->
  (forall d, In d data -> 0 < snd (fst d)) ->
  let n := (length data - 1)%nat in
  (Nat.min (split_k n error) n <= count (holdout_uncert data error) (seq 0 (length data)))%nat.
Proof. exact holdout_uncert_coverage. Qed.
Print Assumptions C26_onedim_holdout_coverage.

(** not conservative by more than one point when scores differ *)
Theorem C26_not_too_wide : forall data error, (2 <= length data)%nat -> 0 <= error <= 1 ->
  (forall i j d e, nth_error data i = Some d -> nth_error data j = Some e ->
     quantile_score1 (fst (fst d)) (snd (fst d)) (snd d) == quantile_score1 (fst (fst e)) (snd (fst e)) (snd e) -> i = j) ->
  (count (holdout_quantile data error) (seq 0 (length data)) <= split_k (length data - 1) error + 1)%nat.
Proof. exact holdout_quantile_not_wide. Qed.
Print Assumptions C26_not_too_wide.

Theorem C26_small_error_refuted : exists data error, (2 <= length data)%nat /\ 0 < error < 1 /\
  inject_Z (Z.of_nat (count (holdout_quantile data error) (seq 0 (length data)))) < (1 - error) * qlen data.
Proof. exact holdout_small_error_fails. Qed.
Print Assumptions C26_small_error_refuted.

Example C26_case : let data := [(0,1,2);(0,1,5);(0,1,(1#2));(0,1,3)] in
  map (holdout_quantile data (1 # 2)) (seq 0 4) = [true; false; true; true] /\
  map (holdout_quantile data (1 # 4)) (seq 0 4) = [true; false; true; true] /\ split_k 3 (1 # 4) = 3%nat.
Proof. repeat split. Qed.
Example C26_case_onedim : map (holdout_uncert [(0,1,2);(0,2,5);(0,1,(1#2));(0,1,3)] (1 # 4)) (seq 0 4) = [true; true; true; false].
Proof. reflexivity. Qed.

(** C27 *)
Theorem C27_quantile_nested : forall vlo vhi tlo thi ys e1 e2 is1 is2, ys <> [] -> e1 <= e2 ->
  quantile_interval vlo vhi tlo thi ys e1 = Ok is1 -> quantile_interval vlo vhi tlo thi ys e2 = Ok is2 ->
  Forall2 contains is1 is2.
Proof. exact quantile_interval_nested. Qed.
Print Assumptions C27_quantile_nested.
Theorem C27_onedim_nested : forall vmu vu tmu tu ys e1 e2 is1 is2, ys <> [] -> e1 <= e2 ->
  uncert_interval vmu vu tmu tu ys e1 = Ok is1 -> uncert_interval vmu vu tmu tu ys e2 = Ok is2 ->
  Forall2 contains is1 is2.
Proof. exact uncert_interval_nested. Qed.
Print Assumptions C27_onedim_nested.
Theorem C27_jackknife_plus_nested : forall outputs targets test e1 e2 is1 is2, outputs <> [] -> e1 <= e2 ->
  jack_plus outputs targets test e1 = Ok is1 -> jack_plus outputs targets test e2 = Ok is2 ->
  Forall2 contains is1 is2.
Proof. exact jack_plus_nested. Qed.
Print Assumptions C27_jackknife_plus_nested.
Theorem C27_jackknife_minmax_nested : forall outputs targets test e1 e2 is1 is2, outputs <> [] -> e1 <= e2 ->
  jack_minmax outputs targets test e1 = Ok is1 -> jack_minmax outputs targets test e2 = Ok is2 ->
  Forall2 contains is1 is2.
Proof. exact jack_minmax_nested. Qed.
Print Assumptions C27_jackknife_minmax_nested.
Theorem C27_cv_plus_nested : forall outputs targets test e1 e2 is1 is2, e1 <= e2 ->
  (forall t, cv_pairs t test (cv_residuals outputs targets) <> []) ->
  cv_plus outputs targets test e1 = Ok is1 -> cv_plus outputs targets test e2 = Ok is2 ->
  Forall2 contains is1 is2.
Proof. exact cv_plus_nested. Qed.
Print Assumptions C27_cv_plus_nested.
Theorem C27_jackknife_plus_ordered : forall outputs targets test e is, outputs <> [] -> e <= 1 # 2 ->
  jack_plus outputs targets test e = Ok is -> Forall ordered is.
Proof. exact jack_plus_ordered. Qed.
Print Assumptions C27_jackknife_plus_ordered.
Theorem C27_jackknife_minmax_ordered : forall outputs targets test e is, outputs <> [] -> test <> [] ->
  jack_minmax outputs targets test e = Ok is -> Forall ordered is.
Proof. exact jack_minmax_ordered. Qed.
Print Assumptions C27_jackknife_minmax_ordered.

Example C27_case : jack_plus [1;2;3] [1;4;3] [[1];[2];[3]] 0 = Ok [(0, 4)] /\
  exists lo hi, jack_plus [1;2;3] [1;4;3] [[1];[2];[3]] (1 # 2) = Ok [(lo, hi)] /\ lo == 1 /\ hi == 3.
Proof. split; [reflexivity|]. do 2 eexists. repeat split; reflexivity. Qed.
(** beyond 1/2 the jackknife+ bounds can cross *)
Example C27_case_crossing : exists lo hi, jack_plus [1;2;3] [1;2;3] [[1];[2];[3]] 1 = Ok [(lo, hi)] /\ hi < lo.
Proof. do 2 eexists. split; reflexivity. Qed.
Example C27_case_cv : exists i1 i2, cv_plus [[1;2];[3]] [[1;4];[3]] [[1];[3]] 0 = Ok [i1] /\
  cv_plus [[1;2];[3]] [[1;4];[3]] [[1];[3]] (1 # 4) = Ok [i2] /\ i1 = (-1, 3) /\ fst i1 < fst i2.
Proof. do 2 eexists. repeat split; reflexivity. Qed.

(** C28 *)
Theorem C28_minmax_contains_plus : forall outputs targets test e is1 is2, outputs <> [] ->
  jack_minmax outputs targets test e = Ok is1 -> jack_plus outputs targets test e = Ok is2 -> Forall2 contains is1 is2.
Proof. exact minmax_contains_jack_plus. Qed.
Print Assumptions C28_minmax_contains_plus.
Theorem C28_cv_plus_single_folds : forall outputs targets test e,
  length outputs = length targets -> length test = length outputs ->
  cv_plus (map (fun x => [x]) outputs) (map (fun x => [x]) targets) test e = jack_plus outputs targets test e.
Proof. exact cv_plus_single. Qed.
Print Assumptions C28_cv_plus_single_folds.
Theorem C28_cv_plus_pooled : forall outputs targets test e, Forall2 (fun o y => length o = length y) outputs targets -> length test = length outputs ->
  hd [] outputs <> [] ->
  cv_plus outputs targets test e = jack_plus (concat outputs) (concat targets) (concat (zip_with (fun o row => repeat row (length o)) outputs test)) e.
Proof. exact cv_plus_pooled. Qed.
Print Assumptions C28_cv_plus_pooled.

Example C28_case : jack_minmax [1;2;3] [1;4;3] [[1];[2];[3]] 0 = Ok [(-1, 5)] /\
  jack_plus [1;2;3] [1;4;3] [[1];[2];[3]] 0 = Ok [(0, 4)].
Proof. split; reflexivity. Qed.

(** C29 *)
Theorem C29_centred : forall agg idx train test targets error is rs, (0 < n_train idx)%nat ->
  enbpi agg idx train test targets error = Ok (is, rs) ->
  exists half, 0 <= half /\ length is = n_columns test /\
    forall u lo hi, nth_error is u = Some (lo, hi) ->
      let c := quantile (map (fun t => enbpi_test_row agg idx test t u) (seq 0 (n_train idx))) (1 - error) in
      lo == c - half /\ hi == c + half.
Proof. exact enbpi_centred. Qed.
Print Assumptions C29_centred.
Theorem C29_out_of_bag_only : forall agg idx train1 train2 test targets error is1 rs1 is2 rs2,
  (forall b t, (b < length idx)%nat -> ~ In t (nth b idx []) -> nth t (nth b train1 []) 0 = nth t (nth b train2 []) 0) ->
  enbpi agg idx train1 test targets error = Ok (is1, rs1) ->
  enbpi agg idx train2 test targets error = Ok (is2, rs2) -> rs1 = rs2 /\ is1 = is2.
Proof. exact enbpi_out_of_bag. Qed.
Print Assumptions C29_out_of_bag_only.
Theorem C29_update_step : forall agg rs new_train new_test y error r, rs <> [] ->
  length new_train = length new_test -> n_columns new_train = 1%nat ->
  enbpi_update agg rs new_train new_test [y] error = r ->
  snd r = tl rs ++ [Qabs (y - agg (column 0 new_train))] /\
  exists is, fst r = Ok (is, snd r) /\ length is = n_columns new_test /\
    forall u lo hi, nth_error is u = Some (lo, hi) ->
      lo == agg (column u new_test) - quantile (snd r) (1 - error) /\
      hi == agg (column u new_test) + quantile (snd r) (1 - error).
Proof. exact enbpi_update_ok. Qed.
Print Assumptions C29_update_step.
Theorem C29_sliding_window : forall agg steps rs error, rs <> [] ->
  Forall (fun s => length (fst (fst s)) = length (snd (fst s)) /\ n_columns (fst (fst s)) = 1%nat) steps ->
  let news := map (fun s => Qabs (snd s - agg (column 0 (fst (fst s))))) steps in
  enbpi_stream agg rs error steps = skipn (length steps) (rs ++ news).
Proof. exact enbpi_window. Qed.
Print Assumptions C29_sliding_window.
(** the documented batch updates do not work *)
Theorem C29_batch_update_refuted : forall agg rs new_train new_test ys error, rs <> [] -> length ys <> 1%nat ->
  length new_train = length new_test -> n_columns new_train = length ys ->
  enbpi_update agg rs new_train new_test ys error = (Err ValueError, tl rs ++ [last rs 0]).
Proof. exact enbpi_batch_fails. Qed.
Print Assumptions C29_batch_update_refuted.

Example C29_case : exists is rs, enbpi qmean [[0;0]%nat;[1;1]%nat] [[1;2];[3;4]] [[5];[6]] [1;2] (1 # 2) = Ok (is, rs) /\
  Forall2 Qeq rs [2; 0] /\ Forall2 (fun a b => fst a == fst b /\ snd a == snd b) is [(9 # 2, 13 # 2)].
Proof.
  do 2 eexists. split; [reflexivity|]. split; repeat constructor; reflexivity.
Qed.
Example C29_case_window : Forall2 Qeq
  (enbpi_stream qmean [1;2;3] (1#2) [([[1];[3]], [[5];[6]], 7); ([[0];[0]], [[5];[6]], 9)]) [3;5;9].
Proof. repeat constructor; reflexivity. Qed.

(** C30 *)
Theorem C30_range : forall c e t g ws hs e', update_error_from c e t g ws hs = Ok e' -> 0 <= e' <= 1.
Proof. exact update_range. Qed.
Print Assumptions C30_range.
Theorem C30_direction : forall c e t g e', 0 <= e <= 1 -> 0 <= t <= 1 ->
  update_error_from c e t g None None = Ok e' -> (if c then e <= e' else e' <= e) /\ Qabs (e' - e) <= g.
Proof. exact update_direction. Qed.
Print Assumptions C30_direction.
Theorem C30_weighted_step : forall c e t g w h e', 0 <= e <= 1 -> 0 <= t <= 1 ->
  update_error_from c e t g (Some w) (Some h) = Ok e' -> Qabs (e' - e) <= g * (1 + (1001 # 100000000)).
Proof. exact update_weighted. Qed.
Print Assumptions C30_weighted_step.
Theorem C30_rejects : forall c e t g w h,
  (g <= 0 -> update_error_from c e t g (Some w) (Some h) = Err ValueError /\ update_error_from c e t g None None = Err ValueError) /\
  update_error_from c e t g (Some w) None = Err ValueError /\ update_error_from c e t g None (Some h) = Err ValueError /\
  (0 < g -> ((exists e', update_error_from c e t g (Some w) (Some h) = Ok e') <->
     (forall i, (S i < length w)%nat -> nth i w 0 <= nth (S i) w 0) /\ (forall x, In x w -> 0 <= x <= 1) /\ Qabs (fold_right Qplus 0 w - 1) <= 1001 # 100000000 /\
     (forall x, In x h -> x == 0 \/ x == 1) /\ length w = S (length h))).
Proof. exact weighted_accepts. Qed.
Print Assumptions C30_rejects.

Theorem C30_interval : forall lo hi e y t g e', update_error (lo, hi) e y t g None None = Ok e' ->
  let step := e + g * (t - (if Qlt_le_dec y lo then 1 else if Qlt_le_dec hi y then 1 else 0)) in
  0 < g /\ (step < 0 -> e' == 0) /\ (0 <= step <= 1 -> e' == step) /\ (1 < step -> e' == 1).
Proof. exact interval_update. Qed.
Print Assumptions C30_interval.
Theorem C30_weighted : forall lo hi e y t g w h e', update_error (lo, hi) e y t g (Some w) (Some h) = Ok e' ->
  let covered := if Qlt_le_dec y lo then 0 else if Qlt_le_dec hi y then 0 else 1 in
  let step := e + g * (t - fold_right Qplus 0 (map (fun i => nth i w 0 * (1 - nth i (h ++ [covered]) 0)) (seq 0 (length w)))) in
  (step < 0 -> e' == 0) /\ (0 <= step <= 1 -> e' == step) /\ (1 < step -> e' == 1).
Proof. exact weighted_value. Qed.
Print Assumptions C30_weighted.
Example C30_case : exists e', update_error (1, 2) (1#5) 5 (1#10) (1#2) None None = Ok e' /\ e' == 0.
Proof. eexists. split; reflexivity. Qed.
Example C30_case_weights : exists e', update_error (1, 2) (1#5) 5 (1#2) (1#10) (Some [1#4;3#4]) (Some [1]) = Ok e' /\ e' == 7 # 40.
Proof. eexists. split; reflexivity. Qed.

(** C31 *)
Theorem C31_longrun : forall t g outs e es, 0 < g -> 0 <= e <= 1 -> outs <> [] -> adaptive_run e t g outs = Ok es ->
  no_clip_below t g outs es -> no_clip_above t g outs es ->
  Qabs (misses outs / qlen outs - t) <= 1 / (g * qlen outs).
Proof. exact adaptive_longrun. Qed.
Print Assumptions C31_longrun.
Example C31_case_unclipped : exists es, adaptive_run (1 # 2) (1 # 10) (1 # 4) [true; false; true] = Ok es /\ no_clip_below (1 # 10) (1 # 4) [true; false; true] es /\ no_clip_above (1 # 10) (1 # 4) [true; false; true] es.
Proof. eexists. split; [vm_compute; reflexivity|]. split; intros [|[|[|i]]] H; try (cbn in H; lia); vm_compute; discriminate. Qed.
Theorem C31_upper : forall t g outs e es, 0 < g -> 0 <= e <= 1 -> adaptive_run e t g outs = Ok es ->
  no_clip_below t g outs es -> misses outs <= t * qlen outs + 1 / g.
Proof. exact adaptive_upper. Qed.
Print Assumptions C31_upper.
Theorem C31_lower : forall t g outs e es, 0 < g -> 0 <= e <= 1 -> adaptive_run e t g outs = Ok es ->
  no_clip_above t g outs es -> t * qlen outs - 1 / g <= misses outs.
Proof. exact adaptive_lower. Qed.
Print Assumptions C31_lower.
Theorem C31_clipping_refuted : exists outs e t g es, 0 < g <= 1 /\ 0 < t < 1 /\ 0 <= e <= 1 /\
  adaptive_run e t g outs = Ok es /\
  (forall i, (i < length outs)%nat -> nth i outs true = false -> 0 < nth i es 0) /\
  t * qlen outs + 1 / g < misses outs.
Proof. exact clip_ratio_fails. Qed.
Print Assumptions C31_clipping_refuted.
(** and the excess grows linearly in the length of the run *)
Theorem C31_clipping_any_length : forall t g n, 0 < g <= 1 -> 0 < t <= 1 # 2 ->
  exists es, adaptive_run (g * t) t g (alternate n) = Ok es /\
    (forall i, (i < length (alternate n))%nat -> nth i (alternate n) true = false -> 0 < nth i es 0) /\
    misses (alternate n) == (1 # 2) * qlen (alternate n).
Proof. exact clipping_breaks. Qed.
Print Assumptions C31_clipping_any_length.
Example C31_case : exists es, adaptive_run (1#2) (1#10) (1#10) [true;false;true] = Ok es /\
  Forall2 Qeq es [1#2; 51#100; 42#100; 43#100].
Proof. eexists. split; [reflexivity|]. repeat constructor; reflexivity. Qed.

(** C59 *)
Theorem C59_jackknife_plus_coverage : forall y pred N error, (2 <= N)%nat -> 0 <= error <= 1 ->
  (count (fun i => negb (holdout_jack jack_plus y pred N error i)) (seq 0 N) <= 2 * slack (N - 1) error + 1)%nat.
Proof. exact jack_plus_coverage. Qed.
Print Assumptions C59_jackknife_plus_coverage.
Theorem C59_documented_guarantee_refuted : exists y pred N error, (2 <= N)%nat /\ 0 < error /\
  inject_Z (Z.of_nat N) * (2 * error) < inject_Z (Z.of_nat (count (fun i => negb (holdout_jack jack_plus y pred N error i)) (seq 0 N))).
Proof. exact jack_plus_guarantee_fails. Qed.
Print Assumptions C59_documented_guarantee_refuted.
Example C59_case : let y := fun i => inject_Z (Z.of_nat (i * i)) in let pred := fun i j => inject_Z (Z.of_nat (i + j)) in
  map (holdout_jack jack_plus y pred 5 (1#4)) (seq 0 5) = [true;true;true;true;false] /\ slack 4 (1#4) = 1%nat.
Proof. split; reflexivity. Qed.

(** C60 *)
Theorem C60_jackknife_minmax_coverage : forall y pred N error, (2 <= N)%nat -> 0 <= error <= 1 ->
  (count (fun i => negb (holdout_jack jack_minmax y pred N error i)) (seq 0 N) <= slack (N - 1) error + 1)%nat.
Proof. exact jack_minmax_coverage. Qed.
Print Assumptions C60_jackknife_minmax_coverage.
Theorem C60_documented_guarantee_refuted : exists y pred N error, (2 <= N)%nat /\ 0 < error /\
  inject_Z (Z.of_nat N) * error < inject_Z (Z.of_nat (count (fun i => negb (holdout_jack jack_minmax y pred N error i)) (seq 0 N))).
Proof. exact jack_minmax_guarantee_fails. Qed.
Print Assumptions C60_documented_guarantee_refuted.
Example C60_case : let y := fun i => inject_Z (Z.of_nat (i * i * i)) in let pred := fun i j => inject_Z (Z.of_nat (i + j)) in
  map (holdout_jack jack_minmax y pred 5 (1#4)) (seq 0 5) = [true;true;true;false;false].
Proof. reflexivity. Qed.
