(** Proofs about the variance-scaled squared error, and concrete cases of the losses. *)
From Coq Require Import List Arith Bool Lia Reals Lra.
From Verif Require Import Lib MetricSpec TempModel TempSpec TempProofs3 PredModel PredSpec PredProofs4 PredProofs5 LossModel LossSpec LossProofs.
Import ListNotations.
Local Notation length := List.length.
Open Scope R_scope.

Lemma mse_term_app ms lvs ys : length ms = length lvs -> length ys = length ms ->
  scaled_mse_term (ms ++ lvs) ys = Ok (rover (length ms) (fun i => exp (- nth i lvs 0) * ((nth i ys 0 - nth i ms 0) * (nth i ys 0 - nth i ms 0)) + nth i lvs 0)).
Proof.
  intros L Ly. unfold scaled_mse_term. rewrite halves_app by assumption. cbn [rmap fst snd]. f_equal. rewrite rover_rs.
  revert lvs ys L Ly. induction ms as [|m ms IH]; intros [|v lvs] [|y ys] L Ly; try discriminate. reflexivity.
  cbn [combine map length seq]. rewrite rs_cons. cbn [nth]. match goal with |- rsum (?u :: ?l) = _ => change (rsum (u :: l)) with (u + rsum l) end. f_equal. rewrite (IH lvs ys) by (cbn in L, Ly; lia). rewrite <- seq_shift, rs_map. reflexivity.
Qed.
(** one point: minus twice the Gaussian log-density, up to the constant *)
Theorem mse_term_density : forall ms lvs ys, length ms = length lvs -> length ys = length ms ->
  scaled_mse_term (ms ++ lvs) ys =
  Ok (-2 * rover (length ms) (fun i => normal_log_density (nth i ys 0) (nth i ms 0) (exp (nth i lvs 0))) - INR (length ms) * ln (2 * PI)).
Proof.
  intros ms lvs ys L Ly. rewrite mse_term_app by assumption. f_equal. rewrite !rover_rs.
  replace (rs (fun i => normal_log_density (nth i ys 0) (nth i ms 0) (exp (nth i lvs 0))) (seq 0 (length ms))) with (rs (fun i => gauss_term (nth i ys 0) (nth i ms 0) (nth i lvs 0) * (- (1/2))) (seq 0 (length ms))) by (apply rs_ext; intros; rewrite <- gauss_normal; ring).
  rewrite rs_scale. unfold gauss_term. rewrite (rs_add (fun i => exp (- nth i lvs 0) * ((nth i ys 0 - nth i ms 0) * (nth i ys 0 - nth i ms 0)) + nth i lvs 0) (fun _ => ln (2 * PI))), rs_const, seq_length. field.
Qed.
Lemma mse_term_odd o ys : Nat.Odd (length o) -> scaled_mse_term o ys = Err ValueError.
Proof.
  intros O. unfold scaled_mse_term. assert (H : halves o = Err ValueError). { unfold halves. destruct (Nat.even (length o)) eqn:E; [|reflexivity]. apply Nat.even_spec in E. exfalso. destruct O as [a Ha], E as [b Hb]. lia. } now rewrite H.
Qed.
Lemma mapM_map {A B} (f : A -> result B) (g : A -> B) l : (forall x, In x l -> f x = Ok (g x)) -> mapM f l = Ok (map g l).
Proof. induction l as [|x l IH]; intros H; [reflexivity|]. cbn. rewrite H by (now left). rewrite IH by (intros; apply H; now right). reflexivity. Qed.
(** the batch: mean over the points *)
Theorem scaled_mse_density : forall d pts, pts <> [] ->
  Forall (fun p => let '(ms, lvs, ys) := p in length ms = d /\ length lvs = d /\ length ys = d) pts ->
  scaled_mse (map (fun p => fst (fst p) ++ snd (fst p)) pts) (map snd pts) =
  Ok (Some (-2 * (rtotal (map (fun p => let '(ms, lvs, ys) := p in rover d (fun i => normal_log_density (nth i ys 0) (nth i ms 0) (exp (nth i lvs 0)))) pts) / INR (length pts)) - INR d * ln (2 * PI))).
Proof.
  intros d pts N F. unfold scaled_mse.
  assert (C : combine (map (fun p => fst (fst p) ++ snd (fst p)) pts) (map snd pts) = map (fun p : list R * list R * list R => (fst (fst p) ++ snd (fst p), snd p)) pts).
  { clear. induction pts as [|p l IH]; [reflexivity|]. cbn [map combine]. now rewrite IH. }
  rewrite C. pose (D := fun p : list R * list R * list R => let '(ms, lvs, ys) := p in rover d (fun i => normal_log_density (nth i ys 0) (nth i ms 0) (exp (nth i lvs 0)))).
  pose (g := fun p => -2 * D p - INR d * ln (2 * PI)).
  assert (M : mapM (fun r => scaled_mse_term (fst r) (snd r)) (map (fun p : list R * list R * list R => (fst (fst p) ++ snd (fst p), snd p)) pts) = Ok (map g pts)).
  { rewrite Forall_forall in F. clear N C. induction pts as [|p l IH]; [reflexivity|]. cbn [map mapM fst snd]. assert (H := F p (or_introl eq_refl)). destruct p as [[ms lvs] ys]. cbn [fst snd]. destruct H as [A [B E]].
    rewrite mse_term_density by congruence. rewrite IH by (intros; apply F; now right). cbn [bind]. rewrite A. reflexivity. }
  rewrite M. cbn [rmap]. f_equal. change (map (fun p => let '(ms, lvs, ys) := p in rover d (fun i => normal_log_density (nth i ys 0) (nth i ms 0) (exp (nth i lvs 0)))) pts) with (map D pts).
  assert (P : 0 < INR (length pts)) by (apply INR_pos; destruct pts; [easy|cbn; lia]).
  destruct pts as [|p l] eqn:EP; [easy|]. rewrite <- EP in *. assert (X : mean_or_nan (map g pts) = Some (rs g pts / INR (length pts))). { rewrite EP at 1. cbn [map mean_or_nan]. change (g p :: map g l) with (map g (p :: l)). rewrite <- EP. unfold rmean. now rewrite map_length. }
  rewrite X. f_equal. unfold g. rewrite (rs_sub (fun p => -2 * D p)), rs_const. replace (rs (fun p => -2 * D p) pts) with (rs (fun p => D p * -2) pts) by (apply rs_ext; intros; ring). rewrite rs_scale. change (rtotal (map D pts)) with (rs D pts). field. lra.
Qed.
Theorem scaled_mse_odd : forall r rows y ys, Nat.Odd (length r) -> scaled_mse (r :: rows) (y :: ys) = Err ValueError.
Proof. intros. unfold scaled_mse. cbn [combine mapM fst snd]. now rewrite mse_term_odd. Qed.
(** for a given mean, the best variance is the squared residual *)
Lemma mse_best (r2 s : R) : 0 < r2 -> 1 + ln r2 <= exp (- s) * r2 + s.
Proof.
  intros P. assert (D : 0 < exp (- s) * r2) by (apply Rmult_lt_0_compat; [apply exp_pos|assumption]). assert (X := ln_le_sub _ D). rewrite ln_mult, ln_exp in X by (try apply exp_pos; assumption). lra.
Qed.
Lemma mse_one m lv y : scaled_mse [[m; lv]] [[y]] = Ok (Some (exp (- lv) * ((y - m) * (y - m)) + lv)).
Proof.
  assert (T : scaled_mse_term [m; lv] [y] = Ok (exp (- lv) * ((y - m) * (y - m)) + lv)).
  { change [m; lv] with ([m] ++ [lv]). rewrite mse_term_app by reflexivity. f_equal. unfold rover. cbn [length seq map nth rtotal fold_right]. ring. }
  unfold scaled_mse. cbn [combine mapM fst snd]. rewrite T. cbn [bind rmap mean_or_nan]. do 2 f_equal. unfold rmean. cbn [rsum fold_right length INR]. field.
Qed.
Theorem scaled_mse_best_variance : forall y m lv, y <> m -> exists v b,
  scaled_mse [[m; lv]] [[y]] = Ok (Some v) /\ scaled_mse [[m; ln ((y - m) * (y - m))]] [[y]] = Ok (Some b) /\ b = 1 + ln ((y - m) * (y - m)) /\
  b <= v /\ (b = v -> exp lv = (y - m) * (y - m)).
Proof.
  intros y m lv N. assert (P : 0 < (y - m) * (y - m)) by (apply Rsqr_pos_lt; lra).
  eexists. eexists. split; [apply mse_one|]. split; [apply mse_one|].
  replace (exp (- ln ((y - m) * (y - m))) * ((y - m) * (y - m))) with 1 by (rewrite exp_Ropp, exp_ln by assumption; field; intro; apply N; lra).
  split; [reflexivity|]. assert (B := mse_best _ lv P). split; [lra|]. intros E.
  assert (D : 0 < exp (- lv) * ((y - m) * (y - m))) by (apply Rmult_lt_0_compat; [apply exp_pos|assumption]).
  assert (X : exp (- lv) * ((y - m) * (y - m)) = 1). { apply ln_eq_sub; [assumption|]. rewrite ln_mult, ln_exp by (try apply exp_pos; assumption). lra. }
  rewrite exp_Ropp in X. assert (Q := exp_pos lv). apply (Rmult_eq_compat_l (exp lv)) in X. rewrite <- Rmult_assoc, Rinv_r in X by lra. lra.
Qed.
Theorem loss_shift : forall gamma rows ys cs, labelled rows ys -> length cs = length rows -> 0 <= gamma ->
  let moved := map (fun rc => map (fun x => x - snd rc) (fst rc)) (combine rows cs) in
  cross_entropy moved ys = cross_entropy rows ys /\ focal_loss gamma moved ys = focal_loss gamma rows ys.
Proof.
  intros gamma rows ys cs V L G moved.
  assert (E : pick moved ys = pick rows ys /\ Forall2 (fun r y => (y < length r)%nat) moved ys /\ length moved = length rows).
  { destruct V as [_ V]. subst moved. revert cs L. unfold pick. induction V as [|r y rows ys Hy V IH]; intros [|c cs] L; try discriminate. repeat split; constructor. cbn [combine map fst snd]. destruct (IH cs ltac:(cbn in L; lia)) as [A [B C]]. rewrite A, target_prob_shift. split; [reflexivity|]. split; [constructor; [now rewrite map_length|assumption]|cbn; congruence]. }
  destruct E as [E [V' L']]. assert (W : labelled moved ys). { split; [|assumption]. destruct V as [N _]. destruct rows; [easy|]. destruct moved; [discriminate|easy]. }
  rewrite !ce_pick, !focal_pick, E by assumption. auto.
Qed.

(** two classes with outputs 0 and ln 3: probabilities 1/4 and 3/4 *)
Lemma toy_loss : cross_entropy [[0; ln 3]; [0; ln 3]] [0%nat; 1%nat] = Some ((ln 4 + (ln 4 - ln 3)) / 2) /\
  focal_loss 2 [[0; ln 3]] [1%nat] = Some (/ 16 * (ln 4 - ln 3)) /\ focal_loss 2 [[0; ln 3]] [2%nat] = None.
Proof.
  assert (S : softmax [0; ln 3] = [/ 4; 3 / 4]). { unfold softmax. cbn [map rsum fold_right]. rewrite exp_0, exp_ln by lra. apply (f_equal2 cons); [field|]. apply (f_equal2 cons); [field|reflexivity]. }
  split; [|split].
  - rewrite ce_pick by (unfold labelled; split; [easy|repeat constructor]). f_equal. unfold pick, mean_of. cbn [combine map fst snd]. rewrite !target_prob_nth, S. cbn [nth rtotal map fold_right length INR]. rewrite ln_Rinv, ln_div by lra. field.
  - rewrite focal_pick; [|lra|unfold labelled; split; [easy|repeat constructor]]. f_equal. unfold pick, mean_of, fw. cbn [combine map fst snd]. rewrite !target_prob_nth, S. cbn [nth rtotal map fold_right length INR]. destruct (Rlt_dec (3 / 4) 1); [|lra]. replace 2 with (INR 2) at 1 by (cbn; lra). rewrite Rpower_pow by lra. cbn [pow]. rewrite ln_div by lra. field.
  - apply (focal_out_of_range 2 [[0; ln 3]] [2%nat] 0); cbn; lia.
Qed.
Lemma toy_mse : scaled_mse [[1; 0]; [0; ln 2]] [[3]; [2]] = Ok (Some ((4 + (2 + ln 2)) / 2)) /\ scaled_mse [[1; 0; 0]] [[3]] = Err ValueError.
Proof.
  split; [|reflexivity]. unfold scaled_mse. cbn [combine mapM fst snd]. unfold scaled_mse_term, halves. cbn [length Nat.even Nat.div Nat.divmod fst firstn skipn rmap combine map snd bind rsum fold_right mean_or_nan]. do 2 f_equal. unfold rmean. cbn [rsum fold_right length INR]. rewrite Ropp_0, exp_0, exp_Ropp, exp_ln by lra. field.
Qed.
