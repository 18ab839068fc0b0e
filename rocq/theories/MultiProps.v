(** Properties C36-C40, C68-C70: multivalid calibration.  Proofs are in MultiProofs*.v. *)
From Coq Require Import List Arith ZArith QArith Qabs Bool Sorted.
From Verif Require Import Lib QuantModel QuantSpec ConfRegModel ConfClassModel ConfClassSpec MultiModel MultiSpec MultiProofs MultiProofs2 MultiProofs3 MultiProofs4 MultiProofs5 MultiProofs6 MultiSpec2 MultiProofs7 MultiSpec3 MultiProofs8.
From Verif Require Import Lit.
Import ListNotations.
Open Scope Q_scope.

(** C36: which points a patch touches and where it puts them *)
Theorem C36_membership : forall n k row x, (0 < n)%nat -> (b1 n k row x = true <-> selected n k row x).
Proof. exact (@membership). Qed.
Print Assumptions C36_membership.
Theorem C36_membership_top_label : forall n k row xs, (0 < n)%nat -> (0 < length xs)%nat ->
  (b_top n k row xs = true <-> selected n k row (nth (k_c k) xs 0) /\ top_label_is xs (k_c k)).
Proof. exact (@membership_top). Qed.
Print Assumptions C36_membership_top_label.
Theorem C36_patch : forall m cfg k p groups values i row x,
  scalar_method m -> (0 < n_buckets cfg)%nat -> nth_error groups i = Some row -> nth_error values i = Some x ->
  exists y, nth_error (apply_patches m cfg [(k, p)] groups values) i = Some y /\
    (~ selected (n_buckets cfg) k row x -> y = x) /\
    (selected (n_buckets cfg) k row x -> in_unit y /\ clipped (target (ptype_of cfg) (eta cfg) p x) y).
Proof. exact (@scalar_patch). Qed.
Print Assumptions C36_patch.
Example C36_case_hypotheses : scalar_method (batch_mvp (9 # 10)) /\ scalar_method multicalibrator /\ Forall in_unit run_values /\ length run_groups = length run_values.
Proof. split; [right; eexists; reflexivity|]. split; [now left|]. split; [repeat constructor; vm_compute; discriminate|reflexivity]. Qed.
Theorem C36_patch_top_label : forall cfg k p groups values i row xs,
  (0 < n_buckets cfg)%nat -> nth_error groups i = Some row -> nth_error values i = Some xs -> (0 < length xs)%nat ->
  exists ys, nth_error (apply_patches top_label cfg [(k, p)] groups values) i = Some ys /\
    (~ (selected (n_buckets cfg) k row (nth (k_c k) xs 0) /\ top_label_is xs (k_c k)) -> ys = xs) /\
    (selected (n_buckets cfg) k row (nth (k_c k) xs 0) /\ top_label_is xs (k_c k) ->
       length ys = length xs /\ (forall j, j <> k_c k -> nth j ys 0 = nth j xs 0) /\ in_unit (nth (k_c k) ys 0) /\
       clipped (target (ptype_of cfg) (eta cfg) p (nth (k_c k) xs 0)) (nth (k_c k) ys 0)).
Proof. exact (@top_patch). Qed.
Print Assumptions C36_patch_top_label.
Theorem C36_lengths : forall (m : method Q) cfg ps groups values, length groups = length values -> length (apply_patches m cfg ps groups values) = length values.
Proof. exact (@scalar_lengths). Qed.
Print Assumptions C36_lengths.
Theorem C36_unit : forall m cfg ps groups values, scalar_method m -> length groups = length values ->
  Forall in_unit values -> Forall in_unit (apply_patches m cfg ps groups values).
Proof. exact (@scalar_unit). Qed.
Print Assumptions C36_unit.
Theorem C36_unit_top_label : forall cfg ps groups values, length groups = length values ->
  Forall (Forall in_unit) values -> Forall (Forall in_unit) (apply_patches top_label cfg ps groups values).
Proof. exact (@top_unit). Qed.
Print Assumptions C36_unit_top_label.
Theorem C36_direction : forall m cfg k p groups values i row x y, scalar_method m -> ptype_of cfg = Additive -> 0 <= eta cfg -> in_unit x ->
  nth_error groups i = Some row -> nth_error values i = Some x -> nth_error (apply_patches m cfg [(k, p)] groups values) i = Some y ->
  (0 <= p -> x <= y <= x + eta cfg * p) /\ (p <= 0 -> x + eta cfg * p <= y <= x).
Proof. exact (@additive_direction). Qed.
Print Assumptions C36_direction.
Theorem C36_top_label_sum_refuted : exists cfg n groups scores values s,
  run top_label cfg n groups groups scores scores values values = Break s /\
  Forall (fun row => qsum row == 1) values /\ ~ Forall (fun row => qsum row == 1) (apply_patches top_label cfg (l_patches s) groups values).
Proof. exact (@top_sum_refuted). Qed.
Print Assumptions C36_top_label_sum_refuted.
Example C36_case : map Qred (apply_patches multicalibrator run_cfg [({| k_tau := 0; k_g := 1; k_v := 1 # 4; k_c := 0 |}, 3 # 4)] run_groups run_values) = [1 # 4; 1 # 2; 5 # 8; 3 # 4].
Proof. vm_compute. reflexivity. Qed.
Example C36_case_clip : map Qred (apply_patches multicalibrator run_cfg [({| k_tau := 1; k_g := 0; k_v := 1 # 2; k_c := 0 |}, 3 # 4)] run_groups run_values) = [1 # 4; 7 # 8; 1 # 4; 1].
Proof. vm_compute. reflexivity. Qed.

(** C37: replaying the recorded patches *)
Theorem C37_replay : forall V (m : method V) cfg n groups vgroups scores vscores values val_values s,
  run m cfg n groups vgroups scores vscores values val_values = Break s ->
  exists extra, (length extra <= 1)%nat /\
    l_values s = apply_patches m cfg (l_patches s ++ extra) groups values /\
    l_val_values s = apply_patches m cfg (l_patches s ++ extra) vgroups val_values /\
    (l_converged s = true -> length extra = 1%nat) /\
    (forall i k p, nth_error (l_patches s ++ extra) i = Some (k, p) ->
       choose m cfg groups scores (apply_patches m cfg (firstn i (l_patches s)) groups values) = Some k /\
       patch_for m cfg groups scores (apply_patches m cfg (firstn i (l_patches s)) groups values) k = Ok (Some p)).
Proof. exact (@replay_reproduces). Qed.
Print Assumptions C37_replay.
Theorem C37_concat : forall V (m : method V) cfg ps g1 g2 v1 v2, length g1 = length v1 ->
  apply_patches m cfg ps (g1 ++ g2) (v1 ++ v2) = apply_patches m cfg ps g1 v1 ++ apply_patches m cfg ps g2 v2.
Proof. exact (@replay_concat). Qed.
Print Assumptions C37_concat.
Theorem C37_pointwise : forall V (m : method V) cfg ps groups values i row x,
  nth_error groups i = Some row -> nth_error values i = Some x -> length groups = length values ->
  nth_error (apply_patches m cfg ps groups values) i = nth_error (apply_patches m cfg ps [row] [x]) 0.
Proof. exact (@replay_pointwise). Qed.
Print Assumptions C37_pointwise.
Theorem C37_two_steps : forall V (m : method V) cfg ps qs groups values,
  apply_patches m cfg (ps ++ qs) groups values = apply_patches m cfg qs groups (apply_patches m cfg ps groups values).
Proof. exact (@replay_in_two_steps). Qed.
Print Assumptions C37_two_steps.
Theorem C37_nothing : forall V (m : method V) cfg groups values, apply_patches m cfg [] groups values = values.
Proof. exact (@replay_nothing). Qed.
Print Assumptions C37_nothing.
Theorem C37_converged_refuted : exists cfg n groups scores values s,
  0 <= atol cfg /\ run multicalibrator cfg n groups groups scores scores values values = Break s /\ st_converged (status_of s) = true /\
  st_n_rounds (status_of s) = O /\ exists v, mc_loss1 (apply_patches multicalibrator cfg (l_patches s) groups values) scores = Some v /\ atol cfg < v.
Proof. exact (@converged_patches_refuted). Qed.
Print Assumptions C37_converged_refuted.
Theorem C37_empty_validation : forall cfg n groups vgroups scores values s, ptype_of cfg = Additive -> 0 <= atol cfg ->
  run multicalibrator cfg n groups vgroups scores [] values [] = Break s -> l_patches s = [].
Proof. exact (@empty_validation). Qed.
Print Assumptions C37_empty_validation.
Example C37_case : length (l_patches run_out) = 4%nat /\ l_values run_out = apply_patches multicalibrator run_cfg (l_patches run_out) run_groups run_values.
Proof. vm_compute. split; reflexivity. Qed.
Example C37_case_run : run multicalibrator run_cfg 4 run_groups run_groups run_scores run_scores run_values run_values = Break run_out.
Proof. vm_compute. reflexivity. Qed.

(** C38: rounds and losses *)
Theorem C38_rounds : forall V (m : method V) cfg n groups vgroups scores vscores values val_values s,
  run m cfg n groups vgroups scores vscores values val_values = Break s ->
  (length (l_patches s) <= n)%nat /\ st_n_rounds (status_of s) = length (l_patches s).
Proof. exact (@rounds_bound). Qed.
Print Assumptions C38_rounds.
Theorem C38_validation_losses : forall V (m : method V) cfg n groups vgroups scores vscores values val_values s,
  run m cfg n groups vgroups scores vscores values val_values = Break s ->
  let losses := st_losses (status_of s) in
  nth_error losses 0 = Some (m_loss m val_values vscores) /\
  (length losses = S (length (l_patches s)) \/ length losses = S (S (length (l_patches s)))) /\
  (forall i a b, (i < length (l_patches s))%nat -> nth_error losses i = Some a -> nth_error losses (S i) = Some b -> no_increase a b).
Proof. exact (@validation_losses_decrease). Qed.
Print Assumptions C38_validation_losses.
Theorem C38_calibration_losses : forall V (m : method V) cfg n groups vgroups scores vscores values val_values s i,
  run m cfg n groups vgroups scores vscores values val_values = Break s -> (i < length (l_patches s))%nat ->
  no_increase (m_loss m (apply_patches m cfg (firstn i (l_patches s)) groups values) scores)
              (m_loss m (apply_patches m cfg (firstn (S i) (l_patches s)) groups values) scores).
Proof. exact (@calibration_losses_decrease). Qed.
Print Assumptions C38_calibration_losses.
Theorem C38_converged : forall V (m : method V) cfg n groups vgroups scores vscores values val_values s,
  run m cfg n groups vgroups scores vscores values val_values = Break s -> st_converged (status_of s) = true ->
  exists v, m_loss m (l_val_values s) vscores = Some v /\
    (v <= atol cfg \/ exists a, m_loss m (apply_patches m cfg (l_patches s) vgroups val_values) vscores = Some a /\ v <= a /\ ~ a == 0 /\ (a - v) / a <= rtol cfg).
Proof. exact (@converged_meaning). Qed.
Print Assumptions C38_converged.
Theorem C38_stop_reasons : forall cfg n groups vgroups scores vscores values val_values s,
  ptype_of cfg = Additive -> 0 <= eta cfg <= 1 -> n_dims cfg = 1%nat -> values <> [] -> length groups = length values -> length scores = length values ->
  Forall (Forall in_unit) scores ->
  run multicalibrator cfg n groups vgroups scores vscores values val_values = Break s -> l_converged s = false ->
  length (l_patches s) = n \/
  (forall k, In k (keys cfg) -> prob_of (members multicalibrator cfg k groups (l_values s)) < min_prob cfg) \/
  sq_error (apply_patches multicalibrator cfg (l_patches s) vgroups val_values) (column_of 0 vscores) < sq_error (l_val_values s) (column_of 0 vscores).
Proof. exact (@stop_reasons). Qed.
Print Assumptions C38_stop_reasons.
Example C38_case_hypotheses : ptype_of run_cfg = Additive /\ 0 <= eta run_cfg <= 1 /\ n_dims run_cfg = 1%nat /\ Forall (Forall in_unit) run_scores /\ length run_scores = length run_values /\
  run multicalibrator run_cfg 4 run_groups run_groups run_scores run_scores run_values run_values = Break run_out /\ l_converged run_out = false.
Proof. repeat split; try reflexivity; try (vm_compute; discriminate). repeat constructor; vm_compute; discriminate. Qed.
Theorem C38_losses_of_patches : forall V (m : method V) cfg n groups vgroups scores vscores values val_values s,
  run m cfg n groups vgroups scores vscores values val_values = Break s ->
  let losses := st_losses (status_of s) in
  (forall i, (i <= length (l_patches s))%nat -> nth_error losses i = Some (m_loss m (apply_patches m cfg (firstn i (l_patches s)) vgroups val_values) vscores)) /\
  (forall v, nth_error losses (S (length (l_patches s))) = Some v -> v = m_loss m (l_val_values s) vscores).
Proof. exact (@losses_of_patches). Qed.
Print Assumptions C38_losses_of_patches.
Theorem C38_documented_losses : forall coverage xs ss,
  (exists v, m_loss multicalibrator xs ss = Some v /\ v == sq_error xs (column_of 0 ss)) /\
  (length ss = length xs -> xs <> [] -> exists v, m_loss (batch_mvp coverage) xs ss = Some v /\ v * inject_Z (Z.of_nat (length xs)) == pinball_error coverage xs (column_of 0 ss)) /\
  (m_loss (batch_mvp coverage) [] [] = None).
Proof. exact (@documented_losses). Qed.
Print Assumptions C38_documented_losses.
Theorem C38_documented_loss_top : forall d xs ss, rectangular d xs -> rectangular d ss -> length ss = length xs -> xs <> [] -> (0 < d)%nat ->
  exists v, m_loss top_label xs ss = Some v /\ v * inject_Z (Z.of_nat (length xs * d)) == rows_sq_error xs ss.
Proof. exact (@documented_loss_top). Qed.
Print Assumptions C38_documented_loss_top.
Example C38_case_top : rectangular 2 [[1 # 2; 1 # 2]; [1; 0]] /\ rectangular 2 [[0; 1]; [1; 0]] /\ option_map Qred (m_loss top_label [[1 # 2; 1 # 2]; [1; 0]] [[0; 1]; [1; 0]]) = Some (1 # 8).
Proof. repeat split; try (repeat constructor). Qed.
Example C38_case_pinball : option_map Qred (m_loss (batch_mvp (9 # 10)) [1 # 2; 1 # 2] [[1]; [0]]) = Some (1 # 4).
Proof. vm_compute. reflexivity. Qed.
Example C38_case : map (option_map Qred) (st_losses (status_of run_out)) = [Some (23 # 16); Some (65 # 64); Some (19 # 32); Some (13 # 32); Some (133 # 512)].
Proof. vm_compute. reflexivity. Qed.

(** C39: a patch removes bias and squared error *)
Theorem C39_bias : forall cfg k p groups scores values, (0 < n_buckets cfg)%nat -> values <> [] ->
  length groups = length values -> length scores = length values ->
  patch_for multicalibrator cfg groups scores values k = Ok (Some p) -> no_clip cfg k p groups values ->
  let bs := members multicalibrator cfg k groups values in
  sum_where bs (apply_patches multicalibrator cfg [(k, p)] groups values) - sum_where bs (column_of (k_c k) scores) ==
  (1 - eta cfg) * (sum_where bs values - sum_where bs (column_of (k_c k) scores)).
Proof. exact (@mean_bias). Qed.
Print Assumptions C39_bias.
Example C39_case_no_clip : no_clip run_cfg {| k_tau := 0; k_g := 0; k_v := 1 # 4; k_c := 0 |} (3 # 4) run_groups run_values.
Proof.
  intros i row x _ H [_ S]. do 4 (destruct i as [|i]; [injection H as <-; first [discriminate S | now (vm_compute; split; intros ?)]|]). destruct i; discriminate.
Qed.
Theorem C39_squared_error : forall cfg k p groups scores values, ptype_of cfg = Additive -> values <> [] ->
  length groups = length values -> length scores = length values -> Forall (Forall in_unit) scores -> n_dims cfg = 1%nat -> In k (keys cfg) ->
  patch_for multicalibrator cfg groups scores values k = Ok (Some p) ->
  sq_error (apply_patches multicalibrator cfg [(k, p)] groups values) (column_of 0 scores) <=
  sq_error values (column_of 0 scores) - eta cfg * (2 - eta cfg) * inject_Z (Z.of_nat (length values)) * key_error multicalibrator cfg groups scores values k.
Proof. exact (@squared_error). Qed.
Print Assumptions C39_squared_error.
Theorem C39_squared_error_top_label : forall cfg k p groups scores values, ptype_of cfg = Additive -> values <> [] ->
  length groups = length values -> length scores = length values -> rectangular (n_dims cfg) values -> rectangular (n_dims cfg) scores ->
  Forall (Forall in_unit) scores -> In k (keys cfg) -> patch_for top_label cfg groups scores values k = Ok (Some p) ->
  rows_sq_error (apply_patches top_label cfg [(k, p)] groups values) scores <=
  rows_sq_error values scores - eta cfg * (2 - eta cfg) * inject_Z (Z.of_nat (length values)) * key_error top_label cfg groups scores values k.
Proof. exact (@squared_error_top). Qed.
Print Assumptions C39_squared_error_top_label.
Theorem C39_multiplicative_refuted : exists cfg k p groups scores values, ptype_of cfg = Multiplicative /\ eta cfg == 1 /\ In k (keys cfg) /\ Forall (Forall in_unit) scores /\ Forall in_unit values /\
  patch_for multicalibrator cfg groups scores values k = Ok (Some p) /\
  sq_error values (column_of 0 scores) < sq_error (apply_patches multicalibrator cfg [(k, p)] groups values) (column_of 0 scores).
Proof. exact (@multiplicative_refuted). Qed.
Print Assumptions C39_multiplicative_refuted.
Example C39_case : let k := {| k_tau := 0; k_g := 0; k_v := 1 # 4; k_c := 0 |} in
  exists p, patch_for multicalibrator run_cfg run_groups run_scores run_values k = Ok (Some p) /\ p == 3 # 4 /\
    sq_error run_values (column_of 0 run_scores) == 23 # 16 /\ sq_error (apply_patches multicalibrator run_cfg [(k, p)] run_groups run_values) (column_of 0 run_scores) == 65 # 64.
Proof. eexists. split; [vm_compute; reflexivity|]. repeat split; vm_compute; reflexivity. Qed.

(** C40: buckets leave gaps; one-shot calibration *)
Theorem C40_gap : forall n i, (2 <= n)%nat -> (S i < n)%nat ->
  let x := (2 * inject_Z (Z.of_nat i) + 1) / (2 * inject_Z (Z.of_nat (n - 1))) in
  in_unit x /\ forall v g row, In v (get_buckets n) -> ~ selected n {| k_tau := 0; k_g := g; k_v := v; k_c := 0 |} row x.
Proof. exact (@gap). Qed.
Print Assumptions C40_gap.
Theorem C40_disjoint : forall n v w row x g, (2 <= n)%nat -> In v (get_buckets n) -> In w (get_buckets n) ->
  selected n {| k_tau := 0; k_g := g; k_v := v; k_c := 0 |} row x -> selected n {| k_tau := 0; k_g := g; k_v := w; k_c := 0 |} row x -> v == w.
Proof. exact (@at_most_one_bucket). Qed.
Print Assumptions C40_disjoint.
Example C40_case_selected : selected 5 {| k_tau := 0; k_g := 1; k_v := 1 # 4; k_c := 0 |} [false; true] (3 # 10) /\ In (1 # 4) (map Qred (get_buckets 5)) /\
  bucket_mask 5 1 [[false; true]; [true; true]; [true; false]] [3 # 10; 1 # 2; 1 # 4] (1 # 4) [true; false; false] /\ Forall in_unit [3 # 10; 1 # 2; 1 # 4].
Proof.
  split; [split; [reflexivity|vm_compute; reflexivity]|]. split; [vm_compute; intuition congruence|]. split; [|repeat constructor; vm_compute; discriminate].
  split; [reflexivity|]. intros i row x G H. do 3 (destruct i as [|i]; [injection G as <-; injection H as <-; cbn; split; [intros E; try discriminate E; split; reflexivity|intros [A B]; try reflexivity; try discriminate A; try discriminate B]|]).
  destruct i; discriminate.
Qed.
Theorem C40_blind_refuted : exists n groups scores values, Forall (fun x => x == 1 # 2) values /\ Forall (fun s => nth 0 s 0 == 1) scores /\ length values = 3%nat /\
  exists e, calibration_error multicalibrator n groups scores values 0 0 = Some e /\ e == 0.
Proof. exact (@blind_refuted). Qed.
Print Assumptions C40_blind_refuted.
Theorem C40_calibration_error : forall n g groups scores values masks, (0 < n)%nat -> values <> [] -> length groups = length values -> length scores = length values ->
  Forall2 (bucket_mask n g groups values) (get_buckets n) masks ->
  let size := n_where (map (fun row => nth g row false) groups) in
  (size == 0 -> calibration_error multicalibrator n groups scores values g 0 = None) /\
  (~ size == 0 -> exists e, calibration_error multicalibrator n groups scores values g 0 = Some e /\ 0 <= e /\
     e * size == total_of (map (mask_error (map (fun s => nth 0 s 0) scores) values) masks)).
Proof. exact (@calibration_error_meaning). Qed.
Print Assumptions C40_calibration_error.
Theorem C40_one_shot : forall n patches values i x, (0 < n)%nat -> nth_error values i = Some x ->
  exists v j, In v values /\ Qabs (x - v) * (2 * inject_Z (Z.of_nat n)) < 1 /\
    (forall w, In w values -> Qabs (x - w) * (2 * inject_Z (Z.of_nat n)) < 1 -> w <= v) /\
    (j < n)%nat /\ (forall j', (j' < n)%nat -> Qabs (nth j (get_buckets n) 0 - v) <= Qabs (nth j' (get_buckets n) 0 - v)) /\
    nth_error (one_shot_apply n patches values) i = Some (nth j patches 0).
Proof. exact (@one_shot_result). Qed.
Print Assumptions C40_one_shot.
Theorem C40_one_shot_patch : forall n p scores values v, length scores = length values ->
  let bs := map (near n v) values in let q := one_shot_patch n p scores values v in
  (p < prob_of bs -> 0 <= p -> mean_is bs scores q) /\ (prob_of bs <= p -> q = v).
Proof. exact (@one_shot_patch_meaning). Qed.
Print Assumptions C40_one_shot_patch.
Theorem C40_one_shot_unit : forall n p scores values test_values, (0 < n)%nat -> length scores = length values -> match p with Some q => 0 <= q | None => True end ->
  Forall in_unit scores -> Forall in_unit (one_shot_calibrate n p scores values test_values).
Proof. exact (@one_shot_unit). Qed.
Print Assumptions C40_one_shot_unit.
Theorem C40_one_shot_batch_refuted : exists n patches x y rx rx', one_shot_apply n patches [x] = [rx] /\ nth_error (one_shot_apply n patches [x; y]) 0 = Some rx' /\ ~ rx == rx'.
Proof. exact (@one_shot_batch_refuted). Qed.
Print Assumptions C40_one_shot_batch_refuted.
Example C40_case : map Qred (one_shot_calibrate 3 None [1; 0; 1; 1] [0; 1 # 10; 1 # 2; 1] [1 # 20; 9 # 10; 1 # 2]) = [1 # 2; 1; 1 # 2].
Proof. vm_compute. reflexivity. Qed.

(** C68: progress *)
Theorem C68_progress : forall cfg n groups vgroups scores vscores values val_values s,
  ptype_of cfg = Additive -> 0 <= eta cfg <= 1 -> n_dims cfg = 1%nat -> values <> [] -> length groups = length values -> length scores = length values ->
  Forall (Forall in_unit) scores ->
  run multicalibrator cfg n groups vgroups scores vscores values val_values = Break s -> l_patches s <> [] ->
  exists i, (i < length (l_patches s))%nat /\
    let vs := apply_patches multicalibrator cfg (firstn i (l_patches s)) groups values in
    forall k, In k (keys cfg) -> min_prob cfg <= prob_of (members multicalibrator cfg k groups vs) ->
      inject_Z (Z.of_nat (length (l_patches s))) * (eta cfg * (2 - eta cfg) * inject_Z (Z.of_nat (length values)) * key_error multicalibrator cfg groups scores vs k)
        <= sq_error values (column_of 0 scores).
Proof. exact (@progress). Qed.
Print Assumptions C68_progress.
Example C68_case_hypotheses : ptype_of run_cfg = Additive /\ 0 <= eta run_cfg <= 1 /\ n_dims run_cfg = 1%nat /\ Forall (Forall in_unit) run_scores /\ length run_scores = length run_values /\ l_patches run_out <> [] /\
  rectangular 2 top_values /\
  mean_is [true; false; true; true] [1; 5; 2; 3] 2.
Proof. repeat split; try reflexivity; try (vm_compute; discriminate); repeat constructor; vm_compute; discriminate. Qed.
Theorem C68_progress_unit : forall cfg n groups vgroups scores vscores values val_values s,
  ptype_of cfg = Additive -> 0 <= eta cfg <= 1 -> n_dims cfg = 1%nat -> values <> [] -> length groups = length values -> length scores = length values ->
  Forall (Forall in_unit) scores -> Forall in_unit values ->
  run multicalibrator cfg n groups vgroups scores vscores values val_values = Break s -> l_patches s <> [] ->
  exists i, (i < length (l_patches s))%nat /\
    let vs := apply_patches multicalibrator cfg (firstn i (l_patches s)) groups values in
    forall k, In k (keys cfg) -> min_prob cfg <= prob_of (members multicalibrator cfg k groups vs) ->
      inject_Z (Z.of_nat (length (l_patches s))) * (eta cfg * (2 - eta cfg) * key_error multicalibrator cfg groups scores vs k) <= 1.
Proof. exact (@progress_unit). Qed.
Print Assumptions C68_progress_unit.
Theorem C68_progress_top_label : forall cfg n groups vgroups scores vscores values val_values s,
  ptype_of cfg = Additive -> 0 <= eta cfg <= 1 -> values <> [] -> length groups = length values -> length scores = length values ->
  rectangular (n_dims cfg) values -> rectangular (n_dims cfg) scores -> Forall (Forall in_unit) scores ->
  run top_label cfg n groups vgroups scores vscores values val_values = Break s -> l_patches s <> [] ->
  exists i, (i < length (l_patches s))%nat /\
    let vs := apply_patches top_label cfg (firstn i (l_patches s)) groups values in
    forall k, In k (keys cfg) -> min_prob cfg <= prob_of (members top_label cfg k groups vs) ->
      inject_Z (Z.of_nat (length (l_patches s))) * (eta cfg * (2 - eta cfg) * inject_Z (Z.of_nat (length values)) * key_error top_label cfg groups scores vs k)
        <= rows_sq_error values scores.
Proof. exact (@progress_top). Qed.
Print Assumptions C68_progress_top_label.
Theorem C68_error_meaning : forall cfg groups scores values k a b, length groups = length values -> length scores = length values ->
  let bs := members multicalibrator cfg k groups values in
  0 < n_where bs -> mean_is bs (column_of (k_c k) scores) a -> mean_is bs values b ->
  inject_Z (Z.of_nat (length values)) * key_error multicalibrator cfg groups scores values k == n_where bs * ((a - b) * (a - b)).
Proof. exact (@error_meaning). Qed.
Print Assumptions C68_error_meaning.
Theorem C68_sets_examined : forall cfg k, In k (keys cfg) <->
  In (k_tau k) (taus cfg) /\ (k_g k < n_groups cfg)%nat /\ In (k_v k) (get_buckets (n_buckets cfg)) /\ (k_c k < n_dims cfg)%nat.
Proof. exact (@in_keys). Qed.
Print Assumptions C68_sets_examined.
Example C68_case : run top_label top_cfg 3 [[true]; [true]] [[true]; [true]] [[1; 0]; [0; 1]] [[1; 0]; [0; 1]] top_values top_values = Break top_out /\ length (l_patches top_out) = 3%nat.
Proof. vm_compute. split; reflexivity. Qed.

(** C69: BatchMVP *)
Theorem C69_patch : forall n coverage scores xs bs, (2 <= n)%nat ->
  let err d := mvp_prob_error coverage scores (map (fun x => x + d) xs) bs in
  exists d, mvp_patch n coverage Additive scores xs bs = Ok (Some d) /\ In d (mvp_shifts n) /\
    (forall d', In d' (mvp_shifts n) -> err d <= err d') /\
    ((exists d', In d' (mvp_shifts n) /\ 0 < d' /\ err d' == err d) -> forall d', In d' (mvp_shifts n) -> err d' == err d -> d <= d') /\
    ((forall d', In d' (mvp_shifts n) -> err d' == err d -> d' <= 0) -> forall d', In d' (mvp_shifts n) -> err d' == err d -> d' <= d).
Proof. exact (@mvp_patch_best). Qed.
Print Assumptions C69_patch.
Theorem C69_shifts : forall n i, (2 <= n)%nat -> (i < 2 * n - 1)%nat ->
  length (mvp_shifts n) = (2 * n - 1)%nat /\ nth i (mvp_shifts n) 0 * inject_Z (Z.of_nat (n - 1)) == inject_Z (Z.of_nat i - Z.of_nat (n - 1)).
Proof. exact (@shift_grid). Qed.
Print Assumptions C69_shifts.
Theorem C69_covered : forall scores thresholds bs, length scores = length thresholds -> length bs = length scores -> 0 < n_where bs ->
  mvp_prob scores thresholds bs * n_where bs ==
  inject_Z (Z.of_nat (length (filter (fun p => snd p && Qle_bool (fst (fst p)) (snd (fst p))) (combine (combine scores thresholds) bs)))).
Proof. exact (@mvp_covered). Qed.
Print Assumptions C69_covered.
Theorem C69_error : forall coverage scores thresholds bs, bs <> [] ->
  inject_Z (Z.of_nat (length bs)) * mvp_error coverage scores thresholds bs ==
  n_where bs * ((coverage - mvp_prob scores thresholds bs) * (coverage - mvp_prob scores thresholds bs)).
Proof. exact (@mvp_error_meaning). Qed.
Print Assumptions C69_error.
Theorem C69_multiplicative : forall n coverage scores xs bs, mvp_patch n coverage Multiplicative scores xs bs = Err NotImplementedErr.
Proof. exact (@mvp_multiplicative). Qed.
Print Assumptions C69_multiplicative.
Theorem C69_pinball : forall coverage x s, 0 <= coverage <= 1 ->
  (x < s -> pinball1 coverage x s == coverage * (s - x)) /\ (s <= x -> pinball1 coverage x s == (1 - coverage) * (x - s)) /\ 0 <= pinball1 coverage x s.
Proof. exact (@pinball_nonneg). Qed.
Print Assumptions C69_pinball.
Theorem C69_sets : forall class_scores thresholds sets i row t, mvp_conformal_set class_scores thresholds = Ok sets ->
  nth_error class_scores i = Some row -> nth_error thresholds i = Some t ->
  length sets = length class_scores /\ exists set, nth_error sets i = Some set /\ forall c, In c set <-> exists s, nth_error row c = Some s /\ s <= t.
Proof. exact (@mvp_sets). Qed.
Print Assumptions C69_sets.
Example C69_case : exists d, mvp_patch 5 (1 # 2) Additive [1 # 10; 2 # 5; 4 # 5; 1] [0; 0; 0; 0] [true; true; true; true] = Ok (Some d) /\ d == 1 # 2.
Proof. eexists. split; vm_compute; reflexivity. Qed.
Example C69_case_sets : mvp_conformal_set [[1 # 10; 9 # 10]; [1 # 2; 3 # 10]] [1 # 2; 2 # 5] = Ok [[0%nat]; [1%nat]].
Proof. vm_compute. reflexivity. Qed.

(** C70: arguments *)
Theorem C70_call : forall a, check_call a = Ok tt <->
  (1 <= c_n_rounds a)%Z /\ 0 < c_eta a <= 1 /\ 0 < c_split a <= 1 /\ match c_min_prob a with None => True | Some p => in_unit p end /\ c_ptype a <> None /\
  (has_test_values a = true -> has_values a = true) /\ (has_test_groups a = true -> has_groups a = true) /\
  (has_values a = true -> has_test_groups a = true -> has_test_values a = true) /\ (has_groups a = true -> has_test_values a = true -> has_test_groups a = true).
Proof. exact (@check_call_ok). Qed.
Print Assumptions C70_call.
Theorem C70_bucket_types : forall bts, (forall b, In b bts -> (b <= 2)%nat) ->
  exists ts, check_bucket_types bts = Ok ts /\ (forall t, In t ts <-> In t bts) /\ StronglySorted lt ts.
Proof. exact (@bucket_types). Qed.
Print Assumptions C70_bucket_types.
Theorem C70_bucket_types_unknown : forall bts b, In b bts -> (2 < b)%nat -> check_bucket_types bts = Err ValueError.
Proof. exact (@bucket_types_unknown). Qed.
Print Assumptions C70_bucket_types_unknown.
Theorem C70_binary_targets : forall ts, check_binary_targets ts = Ok tt <-> (forall y, In y ts -> y = 0%Z \/ y = 1%Z) /\ In 0%Z ts /\ In 1%Z ts.
Proof. exact (@binary_targets). Qed.
Print Assumptions C70_binary_targets.
Theorem C70_single_label_refuted : exists ts, ts <> [] /\ (forall y, In y ts -> y = 0%Z \/ y = 1%Z) /\ check_binary_targets ts = Err ValueError.
Proof. exact (@single_label_refuted). Qed.
Print Assumptions C70_single_label_refuted.
Theorem C70_multiplicative_from_zero : forall cfg groups scores values k, ptype_of cfg = Multiplicative -> Forall (fun x => x == 0) values ->
  patch_for multicalibrator cfg groups scores values k = Ok None.
Proof. exact (@multiplicative_from_zero). Qed.
Print Assumptions C70_multiplicative_from_zero.
Theorem C70_no_zero_division : forall V (m : method V) cfg n groups vgroups scores vscores values val_values, 0 <= atol cfg ->
  (forall vs k, patch_for m cfg groups scores vs k <> Err ZeroDivisionError) ->
  run m cfg n groups vgroups scores vscores values val_values <> Raise ZeroDivisionError.
Proof. exact (@no_zero_division). Qed.
Print Assumptions C70_no_zero_division.
Theorem C70_one_hot : forall K ts i y, nth_error ts i = Some y -> (y < K)%nat ->
  exists row, nth_error (top_label_scores K ts) i = Some row /\ length row = K /\ forall c, (c < K)%nat -> nth c row 0 = if (c =? y)%nat then 1 else 0.
Proof. exact (@one_hot). Qed.
Print Assumptions C70_one_hot.
Theorem C70_split : forall split size, 0 < split <= 1 -> (0 < size)%nat ->
  (1 <= calib_size split size <= size)%nat /\ inject_Z (Z.of_nat size) * split <= inject_Z (Z.of_nat (calib_size split size)) < inject_Z (Z.of_nat size) * split + 1.
Proof. exact (@split_sizes). Qed.
Print Assumptions C70_split.
Theorem C70_min_prob : forall nb nd, (0 < nb)%nat -> (0 < nd)%nat -> init_min_prob None nb nd * (inject_Z (Z.of_nat nb) * inject_Z (Z.of_nat nd)) == 1.
Proof. exact (@min_prob_default). Qed.
Print Assumptions C70_min_prob.
Example C70_case : check_call {| c_n_rounds := 10; has_groups := true; has_values := true; has_test_groups := true; has_test_values := true; c_eta := 1 # 10; c_split := 4 # 5; c_min_prob := None; c_ptype := Some Additive |} = Ok tt
  /\ check_bucket_types [2; 0]%nat = Ok [0; 2]%nat /\ calib_size (4 # 5) 9 = 8%nat.
Proof. vm_compute. repeat split; reflexivity. Qed.
