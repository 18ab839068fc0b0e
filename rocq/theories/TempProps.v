(** Properties C41, C42 and C71: temperature scaling and output calibrators.  Proofs are in TempProofs*.v. *)
From Coq Require Import List Arith ZArith QArith Bool Reals.
From Verif Require Import Lib QuantModel ConfRegModel ConfClassModel MetricModel MetricSpec TempModel TempSpec TempProofs TempProofs2 TempProofs3.
From Verif Require Import Lit.
Import ListNotations.
Open Scope Q_scope.

(** C41: calibrated probabilities *)
Theorem C41_values : forall t ps, ~ t == 0 ->
  length (predict_proba t ps) = length ps /\ forall i p, nth_error ps i = Some p -> exists c, nth_error (predict_proba t ps) i = Some (Some c) /\ in_unit c /\ clipped_div t p c.
Proof. exact (@proba_values). Qed.
Print Assumptions C41_values.
Theorem C41_order : forall t p q c d, 0 < t -> p <= q -> scaled t p = Some c -> scaled t q = Some d -> c <= d.
Proof. exact (@proba_order). Qed.
Print Assumptions C41_order.
Theorem C41_identity : forall p, in_unit p -> exists c, scaled 1 p = Some c /\ c == p.
Proof. exact (@proba_identity). Qed.
Print Assumptions C41_identity.
(** C41: mean-bias and Brier temperatures *)
Theorem C41_bias_mean : forall ps ys t, ps <> [] -> length ps = length ys -> fit_bias ps ys = Some t -> ~ t == 0 -> mean_scaled t ps == target_mean ys.
Proof. exact (@bias_mean). Qed.
Print Assumptions C41_bias_mean.
Theorem C41_bias_clipped : forall ps ys t, ps <> [] -> length ps = length ys -> Forall (fun p => 0 <= p) ps -> fit_bias ps ys = Some t -> 0 < t ->
  let m := total (map value (predict_proba t ps)) / nQ (length ps) in
  m <= target_mean ys /\ (m == target_mean ys <-> Forall (fun p => p <= t) ps).
Proof. exact (@bias_clipped). Qed.
Print Assumptions C41_bias_clipped.
Theorem C41_brier_optimal : forall ps ys t, ps <> [] -> length ps = length ys -> fit_brier ps ys = Some t -> ~ t == 0 ->
  forall s, ~ s == 0 -> error_scaled t ps ys <= error_scaled s ps ys.
Proof. exact (@brier_optimal). Qed.
Print Assumptions C41_brier_optimal.
Theorem C41_brier_never_worse : forall ps ys t v w, ps <> [] -> length ps = length ys -> binary ys -> fit_brier ps ys = Some t -> ~ t == 0 ->
  brier_score (A1 ps) ys = Ok v -> brier_score (A1 (map value (predict_proba t ps))) ys = Ok w -> w <= v.
Proof. exact (@brier_never_worse). Qed.
Print Assumptions C41_brier_never_worse.
Theorem C41_positive_temperature : forall ps ys p, length ps = length ys -> Forall (fun p => 0 <= p) ps -> binary ys -> In (p, 1%Z) (combine ps ys) -> 0 < p ->
  (exists t, fit_bias ps ys = Some t /\ 0 < t) /\ (exists t, fit_brier ps ys = Some t /\ 0 < t).
Proof. exact (@positive_temperature). Qed.
Print Assumptions C41_positive_temperature.
Theorem C41_no_temperature : forall ps ys, Forall (fun y => y = 0%Z) ys -> fit_bias ps ys = None /\ fit_brier ps ys = None.
Proof. exact (@no_temperature). Qed.
Print Assumptions C41_no_temperature.
(** C41: F1 temperature *)
Theorem C41_f1_loss : forall ps ys threshold tau, binary ys ->
  (positives ys = O -> f1_loss ps ys threshold tau = None) /\
  ((0 < positives ys)%nat -> exists l, f1_loss ps ys threshold tau = Some l /\ l == - f1_score (map (Qle_bool (threshold * tau)) ps) ys).
Proof. exact (@f1_loss_spec). Qed.
Print Assumptions C41_f1_loss.
Theorem C41_f1_range : forall bs ys, (0 < positives ys)%nat -> in_unit (f1_score bs ys) /\ (f1_score bs ys == 1 <-> (true_positives bs ys = num (fun b => b) bs /\ true_positives bs ys = positives ys)).
Proof. exact (@f1_score_range). Qed.
Print Assumptions C41_f1_range.
Theorem C41_predict : forall t threshold ps, 0 < t -> 0 < threshold <= 1 -> predict t threshold ps = map (Qle_bool (threshold * t)) ps.
Proof. exact (@predict_threshold). Qed.
Print Assumptions C41_predict.
Theorem C41_f1_optimal : forall finish ps ys threshold i, improves loss_le finish -> binary ys -> (0 < positives ys)%nat -> (i < 1000)%nat ->
  let t := fit_f1 finish ps ys threshold in
  f1_score (map (Qle_bool (threshold * grid_point (qmin_list ps) (1 / threshold) 1000 i)) ps) ys <= f1_score (map (Qle_bool (threshold * t)) ps) ys.
Proof. exact (@f1_optimal). Qed.
Print Assumptions C41_f1_optimal.
Example C41_case_improves : improves loss_le (fun (f : Q -> option Q) x => match f (x / 2), f x with Some a, Some b => if Qle_bool a b then x / 2 else x | _, _ => x end) /\ binary [1; 0; 1]%Z /\ (0 < positives [1; 0; 1]%Z)%nat.
Proof.
  split; [|split; [unfold binary; lit|cbn; lia]]. intros f x. destruct (f (x / 2)) as [a|] eqn:A, (f x) as [b|] eqn:B; [destruct (Qle_bool a b) eqn:E; [rewrite A; now apply Qle_bool_iff|]|..]; cbn beta iota; rewrite ?A, ?B; cbn; try exact I; apply Qle_refl.
Qed.
Theorem C41_f1_zero_refuted : exists ps ys threshold t, Forall in_unit ps /\ binary ys /\ 0 < threshold <= 1 /\ (0 < positives ys)%nat /\ t = fit_f1 (fun _ x => x) ps ys threshold /\
  (exists l, f1_loss ps ys threshold t = Some l /\ l == - (1)) /\ f1_score (predict t threshold ps) ys == 2 # 3.
Proof. exact (@f1_zero_refuted). Qed.
Print Assumptions C41_f1_zero_refuted.
Example C41_case : option_map Qred (fit_bias [1 # 2; 1; 3 # 4] [0; 1; 0]%Z) = Some (9 # 4) /\ option_map Qred (fit_brier [1 # 2; 1; 3 # 4] [0; 1; 1]%Z) = Some (29 # 28)
  /\ map (option_map Qred) (predict_proba (1 # 2) [1 # 4; 3 # 4; 1 # 8]) = [Some (1 # 2); Some 1; Some (1 # 4)].
Proof. vm_compute. repeat split; reflexivity. Qed.
Example C41_case_f1 : option_map Qred (f1_loss [1 # 2; 1; 3 # 4] [0; 1; 1]%Z (1 # 2) 1) = Some (- (4) # 5) /\ predict 2 (1 # 2) [1 # 2; 1; 3 # 4] = [false; true; false].
Proof. vm_compute. repeat split; reflexivity. Qed.

Open Scope R_scope.
(** C41: cross-entropy temperature *)
Theorem C41_crossentropy_nonneg : forall ps ys t, Forall (fun y => y = 0%Z \/ y = 1%Z) ys -> 0 <= ce_loss ps ys t.
Proof. exact (@ce_nonneg). Qed.
Print Assumptions C41_crossentropy_nonneg.
Theorem C41_crossentropy_optimal : forall finish ps ys i, improves Rle finish -> (i < 1000)%nat ->
  ce_loss ps ys (fit_ce finish ps ys) <= ce_loss ps ys (rgrid_point (rmin_list ps) 10 1000 i).
Proof. exact (@ce_optimal). Qed.
Print Assumptions C41_crossentropy_optimal.
(** C42: multi-class temperature scaling *)
Theorem C42_distribution : forall t ps, ps <> [] -> length (mc_scaled t ps) = length ps /\ rdistribution (mc_scaled t ps).
Proof. exact (@mc_distribution). Qed.
Print Assumptions C42_distribution.
Theorem C42_order : forall t ps i j, 0 < t -> Forall (fun p => 0 < p) ps -> (i < length ps)%nat -> (j < length ps)%nat ->
  (nth i (mc_scaled t ps) 0 <= nth j (mc_scaled t ps) 0 <-> nth i ps 0 <= nth j ps 0).
Proof. exact (@mc_order). Qed.
Print Assumptions C42_order.
Theorem C42_prediction : forall t ps, 0 < t -> ps <> [] -> Forall (fun p => 0 < p) ps ->
  first_max (mc_scaled t ps) (mc_predict ps) /\ rargmax (mc_scaled t ps) = mc_predict ps.
Proof. exact (@mc_prediction). Qed.
Print Assumptions C42_prediction.
Theorem C42_negative_reverses : forall t ps i j, t < 0 -> Forall (fun p => 0 < p) ps -> (i < length ps)%nat -> (j < length ps)%nat ->
  (nth i (mc_scaled t ps) 0 <= nth j (mc_scaled t ps) 0 <-> nth j ps 0 <= nth i ps 0).
Proof. exact (@mc_negative). Qed.
Print Assumptions C42_negative_reverses.
Theorem C42_identity : forall ps, ps <> [] -> rdistribution ps -> mc_scaled 1 ps = ps.
Proof. exact (@mc_identity). Qed.
Print Assumptions C42_identity.
Example C42_case_distribution : rdistribution [1 / 4; 1 / 2; 1 / 4]%R.
Proof. split; [repeat constructor; lra|cbn; lra]. Qed.
Theorem C42_compose : forall s t ps, s <> 0 -> t <> 0 -> ps <> [] -> Forall (fun p => 0 < p) ps -> mc_scaled t (mc_scaled s ps) = mc_scaled (s * t) ps.
Proof. exact (@mc_compose). Qed.
Print Assumptions C42_compose.
Theorem C42_flatten : forall s t ps, 0 < s <= t -> ps <> [] -> Forall (fun p => 0 < p) ps ->
  nth (mc_predict ps) (mc_scaled t ps) 0 <= nth (mc_predict ps) (mc_scaled s ps) 0.
Proof. exact (@mc_flatten). Qed.
Print Assumptions C42_flatten.
Theorem C42_loss : forall rows ys t, Forall2 (fun r y => (y < length r)%nat) rows ys -> mc_loss rows ys t = nll (map (mc_scaled t) rows) ys.
Proof. exact (@mc_loss_nll). Qed.
Print Assumptions C42_loss.
Theorem C42_loss_nonneg : forall rows ys t, Forall2 (fun r y => (y < length r)%nat) rows ys -> 0 <= mc_loss rows ys t.
Proof. exact (@mc_loss_nonneg). Qed.
Print Assumptions C42_loss_nonneg.
Theorem C42_optimal : forall finish rows ys i, improves Rle finish -> (i < 1000)%nat ->
  mc_loss rows ys (fit_mc finish rows ys) <= mc_loss rows ys (rgrid_point (/ 10 ^ 6) 10 1000 i).
Proof. exact (@mc_optimal). Qed.
Print Assumptions C42_optimal.
Example C42_case_improves : improves Rle (fun (f : R -> R) x => if Rle_dec (f (x / 2)) (f x) then x / 2 else x)%R.
Proof. intros f x. destruct (Rle_dec (f (x / 2)) (f x))%R; [assumption|apply Rle_refl]. Qed.
Example C42_case : mc_scaled (/ 2) [/ 4; 3 / 4] = [/ 10; 9 / 10].
Proof. exact toy_scaled. Qed.

(** C71: output calibrators *)
Theorem C71_softmax : forall xs, xs <> [] -> is_softmax xs (softmax xs) /\ rdistribution (softmax xs).
Proof. exact (@softmax_spec). Qed.
Print Assumptions C71_softmax.
Theorem C71_logits : forall lt xs, xs <> [] -> softmax (logit_scaler lt xs) = mc_scaled (exp lt) (softmax xs).
Proof. exact (@logit_scaler_probs). Qed.
Print Assumptions C71_logits.
Theorem C71_logits_initial : forall xs, logit_scaler 0 xs = xs.
Proof. exact (@logit_scaler_init). Qed.
Print Assumptions C71_logits_initial.
Theorem C71_logits_prediction : forall lt xs, xs <> [] -> rargmax (logit_scaler lt xs) = rargmax xs.
Proof. exact (@logit_scaler_prediction). Qed.
Print Assumptions C71_logits_prediction.
Theorem C71_regression : forall lt xs,
  (Nat.Odd (length xs) -> regression_scaler lt xs = Err ValueError) /\
  (forall ms vs, length ms = length vs -> xs = ms ++ vs -> exists ws, regression_scaler lt xs = Ok (ms ++ ws) /\ length ws = length vs /\
     forall i, (i < length vs)%nat -> exp (nth i ws 0) = exp lt * exp (nth i vs 0)).
Proof. exact (@regression_scaler_spec). Qed.
Print Assumptions C71_regression.
Example C71_case : regression_scaler 2 [1; 2; 3; 4] = Ok [1; 2; 3 + 2; 4 + 2].
Proof. reflexivity. Qed.
