(** Properties of the calibration losses. *)
From Coq Require Import List Arith Bool Reals Lra Lia.
From Verif Require Import Lib TempModel TempSpec PredModel PredSpec LossModel LossSpec LossProofs LossProofs2.
Import ListNotations.
Local Notation length := List.length.
Open Scope R_scope.

(** C92 *)
Theorem C92_cross_entropy : forall rows ys probs, labelled rows ys -> Forall2 is_softmax rows probs ->
  cross_entropy rows ys = Some (nll probs ys / INR (length rows)).
Proof. exact (@cross_entropy_nll). Qed.
Print Assumptions C92_cross_entropy.
Example C92_case_labelled : labelled [[0; ln 3]; [ln 3; 0]] [0%nat; 1%nat] /\ at_least_two_classes [[0; ln 3]; [ln 3; 0]] /\ Forall2 is_softmax [[0; ln 3]; [ln 3; 0]] [[1 / 4; 3 / 4]; [3 / 4; 1 / 4]].
Proof.
  split; [split; [discriminate|repeat constructor]|]. split; [repeat constructor|]. repeat constructor; cbn; try lra; exists 4; split; try lra; intros [|[|i]] H; cbn in *; try lia; rewrite ?exp_0, ?exp_ln by lra; lra.
Qed.
Theorem C92_cross_entropy_nonneg : forall rows ys, labelled rows ys -> exists v, cross_entropy rows ys = Some v /\ 0 <= v.
Proof. exact (@cross_entropy_nonneg). Qed.
Print Assumptions C92_cross_entropy_nonneg.
Theorem C92_focal : forall gamma rows ys probs, 0 <= gamma -> labelled rows ys -> at_least_two_classes rows -> Forall2 is_softmax rows probs ->
  focal_loss gamma rows ys = Some (mean_of (fun p => - (Rpower (1 - p) gamma * ln p)) (picked probs ys)).
Proof. exact (@focal_spec). Qed.
Print Assumptions C92_focal.
Theorem C92_focal_zero : forall rows ys, labelled rows ys -> focal_loss 0 rows ys = cross_entropy rows ys.
Proof. exact (@focal_zero). Qed.
Print Assumptions C92_focal_zero.
Theorem C92_focal_antitone : forall g h rows ys, 0 <= g <= h -> labelled rows ys -> exists a b, focal_loss h rows ys = Some a /\ focal_loss g rows ys = Some b /\ 0 <= a <= b.
Proof. exact (@focal_antitone). Qed.
Print Assumptions C92_focal_antitone.
Theorem C92_focal_below_cross_entropy : forall gamma rows ys, 0 <= gamma -> labelled rows ys -> exists f c, focal_loss gamma rows ys = Some f /\ cross_entropy rows ys = Some c /\ 0 <= f <= c.
Proof. exact (@focal_cross_entropy). Qed.
Print Assumptions C92_focal_below_cross_entropy.
Theorem C92_focal_default_gap : forall rows ys, labelled rows ys -> exists f c, focal_loss 2 rows ys = Some f /\ cross_entropy rows ys = Some c /\ c - 2 * exp (-1) <= f.
Proof. exact (@focal_default_gap). Qed.
Print Assumptions C92_focal_default_gap.
Theorem C92_focal_decreasing : forall gamma r y r' y', 0 <= gamma -> (y < length r)%nat -> (y' < length r')%nat ->
  (forall p p', is_softmax r p -> is_softmax r' p' -> nth y p 0 < nth y' p' 0) ->
  exists a b, focal_loss gamma [r] [y] = Some a /\ focal_loss gamma [r'] [y'] = Some b /\ b < a.
Proof. exact (@focal_decreasing). Qed.
Print Assumptions C92_focal_decreasing.
Theorem C92_out_of_range : forall gamma rows ys i, (i < length rows)%nat -> (i < length ys)%nat -> (length (nth i rows []) <= nth i ys 0%nat)%nat ->
  focal_loss gamma rows ys = None /\ exists c, cross_entropy rows ys = Some c.
Proof. exact (@focal_out_of_range). Qed.
Print Assumptions C92_out_of_range.
Theorem C92_shift : forall gamma rows ys cs, labelled rows ys -> length cs = length rows -> 0 <= gamma ->
  let moved := map (fun rc => map (fun x => x - snd rc) (fst rc)) (combine rows cs) in
  cross_entropy moved ys = cross_entropy rows ys /\ focal_loss gamma moved ys = focal_loss gamma rows ys.
Proof. exact (@loss_shift). Qed.
Print Assumptions C92_shift.
Theorem C92_scaled_mse : forall d pts, pts <> [] ->
  Forall (fun p => let '(ms, lvs, ys) := p in length ms = d /\ length lvs = d /\ length ys = d) pts ->
  scaled_mse (map (fun p => fst (fst p) ++ snd (fst p)) pts) (map snd pts) =
  Ok (Some (-2 * (rtotal (map (fun p => let '(ms, lvs, ys) := p in rover d (fun i => normal_log_density (nth i ys 0) (nth i ms 0) (exp (nth i lvs 0)))) pts) / INR (length pts)) - INR d * ln (2 * PI))).
Proof. exact (@scaled_mse_density). Qed.
Print Assumptions C92_scaled_mse.
Theorem C92_scaled_mse_odd : forall r rows y ys, Nat.Odd (length r) -> scaled_mse (r :: rows) (y :: ys) = Err ValueError.
Proof. exact (@scaled_mse_odd). Qed.
Print Assumptions C92_scaled_mse_odd.
Theorem C92_best_variance : forall y m lv, y <> m -> exists v b,
  scaled_mse [[m; lv]] [[y]] = Ok (Some v) /\ scaled_mse [[m; ln ((y - m) * (y - m))]] [[y]] = Ok (Some b) /\ b = 1 + ln ((y - m) * (y - m)) /\
  b <= v /\ (b = v -> exp lv = (y - m) * (y - m)).
Proof. exact (@scaled_mse_best_variance). Qed.
Print Assumptions C92_best_variance.
Example C92_case : cross_entropy [[0; ln 3]; [0; ln 3]] [0%nat; 1%nat] = Some ((ln 4 + (ln 4 - ln 3)) / 2) /\
  focal_loss 2 [[0; ln 3]] [1%nat] = Some (/ 16 * (ln 4 - ln 3)) /\ focal_loss 2 [[0; ln 3]] [2%nat] = None.
Proof. exact toy_loss. Qed.
Example C92_case_scaled_mse : scaled_mse [[1; 0]; [0; ln 2]] [[3]; [2]] = Ok (Some ((4 + (2 + ln 2)) / 2)) /\ scaled_mse [[1; 0; 0]] [[3]] = Err ValueError.
Proof. exact toy_mse. Qed.
