(** Proofs: ensembles of outputs and the objective of the calibration. *)
From Coq Require Import List Arith ZArith QArith Bool Reals Lra Lia.
From Verif Require Import Lib QuantModel MetricSpec TempModel TempSpec TempProofs3 PredModel PredSpec PredProofs4 PredProofs5 LikModel CalibModel CalibSpec.
Import ListNotations.
Local Notation length := List.length.
Local Notation concat := List.concat.
Open Scope list_scope.

(** ---- ensembles of outputs ---- *)
Lemma fold_size {X} (bs : list (list X)) : forall n, fold_left (fun n b => (n + length b)%nat) bs n = (n + length (concat bs))%nat.
Proof. induction bs as [|b bs IH]; intros n; cbn. lia. rewrite IH, app_length. lia. Qed.
Theorem sample_outputs_spec :
  forall K W X O (post : K -> W) (net : W -> X -> O) (keys : list K) (batches : list (list X)) dk dx d0,
  let '(outs, size) := sample_outputs post net keys batches in
  size = length (concat batches) /\ length outs = length batches /\
  (forall i s j, (i < length batches)%nat -> (s < length keys)%nat -> (j < length (nth i batches []))%nat ->
     nth j (nth s (nth i outs []) []) d0 = net (post (nth s keys dk)) (nth j (nth i batches []) dx)) /\
  (forall s, (s < length keys)%nat -> concat (map (fun o => nth s o []) outs) = map (net (post (nth s keys dk))) (concat batches)).
Proof.
  intros K W X O post net keys batches dk dx d0. unfold sample_outputs.
  assert (ROW : forall b s, (s < length keys)%nat -> nth s (map (fun k => map (net (post k)) b) keys) [] = map (net (post (nth s keys dk))) b).
  { intros b s L. rewrite (nth_indep _ [] (map (net (post dk)) b)) by now rewrite map_length. now rewrite (map_nth (fun k => map (net (post k)) b)). }
  split; [exact (fold_size batches 0)|]. split; [now rewrite map_length|]. split.
  - intros i s j Li Ls Lj. rewrite (nth_indep _ [] (map (fun k => map (net (post k)) []) keys)) by now rewrite map_length. rewrite (map_nth (fun b => map (fun k => map (net (post k)) b) keys)).
    rewrite ROW by exact Ls. rewrite (nth_indep _ d0 (net (post (nth s keys dk)) dx)) by now rewrite map_length. now rewrite map_nth.
  - intros s Ls. rewrite map_map. rewrite concat_map. f_equal. apply map_ext. intros b. now apply ROW.
Qed.
Lemma fold_devices {X} d (bs : list X) : forall n, fold_left (fun n _ => (n + d)%nat) bs n = (n + d * length bs)%nat.
Proof. induction bs as [|b bs IH]; intros n; cbn. lia. rewrite IH. lia. Qed.
Theorem distributed_size : forall K W X O split (post : K -> W) (net : W -> X -> O) d keys batches,
  snd (sample_outputs_distributed split post net d keys batches) = (d * length batches)%nat.
Proof. intros. unfold sample_outputs_distributed. cbn [snd]. rewrite fold_devices. lia. Qed.
Lemma nth_firstn {X} (l : list X) n i d : (i < n)%nat -> nth i (firstn n l) d = nth i l d.
Proof. revert l i. induction n; intros l i L; [lia|]. destruct l; [reflexivity|]. destruct i; [reflexivity|]. cbn. apply IHn. lia. Qed.
Lemma nth_skipn {X} (l : list X) n i d : nth i (skipn n l) d = nth (n + i) l d.
Proof. revert l. induction n; intros l; [reflexivity|]. destruct l. now destruct i. cbn. apply IHn. Qed.
Lemma device_row {X} d (b : list X) i r dx : (i < d)%nat -> (r < length b / d)%nat -> nth r (nth i (device_rows d b) []) dx = nth (i * (length b / d) + r) b dx.
Proof.
  intros I R. unfold device_rows. rewrite (nth_indep _ [] (firstn (length b / d) (skipn (0 * (length b / d)) b))) by now rewrite map_length, seq_length.
  rewrite (map_nth (fun i => firstn (length b / d) (skipn (i * (length b / d)) b))). rewrite seq_nth by exact I. rewrite Nat.add_0_l.
  rewrite nth_firstn by exact R. apply nth_skipn.
Qed.
Lemma device_rows_length {X} d (b : list X) i : (i < d)%nat -> length (nth i (device_rows d b) []) = (length b / d)%nat.
Proof.
  intros I. unfold device_rows. rewrite (nth_indep _ [] (firstn (length b / d) (skipn (0 * (length b / d)) b))) by now rewrite map_length, seq_length.
  rewrite (map_nth (fun i => firstn (length b / d) (skipn (i * (length b / d)) b))). rewrite seq_nth by exact I. rewrite firstn_length, skipn_length.
  assert ((length b / d) * d <= length b)%nat by (rewrite Nat.mul_comm; apply Nat.mul_div_le; lia). cbn [Nat.add]. assert ((i + 1) * (length b / d) <= d * (length b / d))%nat by (apply Nat.mul_le_mono_r; lia). lia.
Qed.
Lemma concat_uniform {X} w dx : forall (ls : list (list X)) i r, Forall (fun l => length l = w) ls -> (i < length ls)%nat -> (r < w)%nat -> nth (i * w + r) (concat ls) dx = nth r (nth i ls []) dx.
Proof.
  induction ls as [|l ls IH]; intros i r F I R; [cbn in I; lia|]. inversion F; subst. destruct i; cbn [concat nth Nat.mul Nat.add].
  - rewrite app_nth1 by lia. reflexivity.
  - rewrite app_nth2 by lia. replace (length l + i * length l + r - length l)%nat with (i * length l + r)%nat by lia. apply IH; auto. cbn in I. lia.
Qed.
(** the points of device i use the posterior draw of the i-th key *)
Theorem distributed_outputs :
  forall K W X O split (post : K -> W) (net : W -> X -> O) d keys (batches : list (list X)) dk dx d0 n s i r,
  (n < length batches)%nat -> (s < length keys)%nat -> (i < d)%nat -> (r < length (nth n batches []) / d)%nat ->
  let outs := fst (sample_outputs_distributed split post net d keys batches) in
  let w := (length (nth n batches []) / d)%nat in
  nth (i * w + r) (nth s (nth n outs []) []) d0 = net (post (split (nth s keys dk) i)) (nth (i * w + r) (nth n batches []) dx).
Proof.
  intros K W X O split post net d keys batches dk dx d0 n s i r Ln Ls Li Lr outs w. unfold outs, sample_outputs_distributed. cbn [fst].
  set (F := fun b => map (fun k => concat (map (fun ix => map (net (post (split k (fst ix)))) (snd ix)) (combine (seq 0 d) (device_rows d b)))) keys).
  rewrite (nth_indep _ [] (F [])) by now rewrite map_length. rewrite (map_nth F). unfold F.
  set (b := nth n batches []) in *. set (G := fun k => concat (map (fun ix => map (net (post (split k (fst ix)))) (snd ix)) (combine (seq 0 d) (device_rows d b)))).
  rewrite (nth_indep _ [] (G dk)) by now rewrite map_length. rewrite (map_nth G). unfold G. set (k := nth s keys dk).
  assert (LD : length (device_rows d b) = d) by (unfold device_rows; now rewrite map_length, seq_length).
  assert (LC : length (combine (seq 0 d) (device_rows d b)) = d) by (rewrite combine_length, seq_length, LD; lia).
  assert (NC : forall i0, (i0 < d)%nat -> nth i0 (combine (seq 0 d) (device_rows d b)) (0%nat, []) = (i0, nth i0 (device_rows d b) [])) by (intros i0 I0; rewrite combine_nth by (now rewrite seq_length, LD); now rewrite seq_nth).
  rewrite (concat_uniform w).
  - set (H := fun ix : nat * list X => map (net (post (split k (fst ix)))) (snd ix)). rewrite (nth_indep _ [] (H (0%nat, []))) by (rewrite map_length, LC; exact Li). rewrite (map_nth H). unfold H. rewrite NC by exact Li. cbn [fst snd].
    rewrite (nth_indep _ d0 (net (post (split k i)) dx)) by (rewrite map_length, device_rows_length by exact Li; exact Lr). rewrite map_nth. f_equal. now apply device_row.
  - apply Forall_forall. intros l I. apply in_map_iff in I. destruct I as [ix [<- I]]. rewrite map_length. apply (In_nth _ _ (0%nat, [])) in I. destruct I as [i0 [L0 <-]]. rewrite LC in L0. rewrite NC by exact L0. cbn [snd]. now apply device_rows_length.
  - rewrite map_length, LC. exact Li.
  - exact Lr.
Qed.
(** with more devices, the size is not the number of points, and one sample mixes draws *)
Theorem distributed_refuted :
  exists (split : nat -> nat -> nat) (post : nat -> nat) (net : nat -> nat -> nat) d keys batches,
  let '(outs, size) := sample_outputs_distributed split post net d keys batches in
  size <> length (concat batches) /\ (exists b, batches = [b] /\ nth 0 b 0%nat = nth 2 b 0%nat) /\ exists o, outs = [[o]] /\ nth 0 o 0%nat <> nth 2 o 0%nat.
Proof.
  exists (fun k i => (10 * k + i)%nat), (fun k => k), (fun w x => (w + x)%nat), 2%nat, [1%nat], [[5; 5; 5; 5]%nat]. cbn. split; [discriminate|]. split; [eexists; split; reflexivity|]. eexists. split; [reflexivity|]. discriminate.
Qed.
(** data and outputs of a batch are cut in the same way *)
Theorem split_outputs_spec :
  forall X O (d0 : O) (dx : X) d (b : list X) (outs : list (list O)), (0 < d)%nat -> Forall (fun o => length o = length b) outs ->
  ((length b mod d <> 0)%nat -> split_outputs d0 d (length b) outs = Err ValueError) /\
  ((length b mod d = 0)%nat -> exists parts, split_outputs d0 d (length b) outs = Ok parts /\ length parts = d /\
    forall i s r, (i < d)%nat -> (s < length outs)%nat -> (r < length b / d)%nat ->
      let j := (i * (length b / d) + r)%nat in
      nth r (nth s (nth i parts []) []) d0 = nth j (nth s outs []) d0 /\ nth r (nth i (device_rows d b) []) dx = nth j b dx).
Proof.
  intros X O d0 dx d b outs D F. unfold split_outputs. split; intros M.
  - destruct (Nat.eqb_spec (length b mod d) 0); [lia|reflexivity].
  - destruct (Nat.eqb_spec (length b mod d) 0); [|lia]. cbn [negb]. eexists. split; [reflexivity|]. rewrite map_length. split. { unfold device_rows. now rewrite map_length, seq_length. }
    intros i s r I Sn R. set (j := (i * (length b / d) + r)%nat). split; [|now apply device_row].
    assert (LC : length (columns d0 (length b) outs) = length b) by (unfold columns; now rewrite map_length, seq_length).
    assert (J : (j < length b)%nat). { unfold j. assert ((length b / d) * d <= length b)%nat by (rewrite Nat.mul_comm; apply Nat.mul_div_le; lia). assert ((i + 1) * (length b / d) <= d * (length b / d))%nat by (apply Nat.mul_le_mono_r; lia). lia. }
    rewrite (nth_indep _ [] (columns d0 (length outs) [])) by (rewrite map_length; unfold device_rows; now rewrite map_length, seq_length).
    rewrite (map_nth (fun part => columns d0 (length outs) part)).
    set (part := nth i (device_rows d (columns d0 (length b) outs)) []).
    assert (LP : length part = (length b / d)%nat) by (unfold part; rewrite device_rows_length by exact I; now rewrite LC).
    unfold columns at 1. set (G := fun jj => map (fun rr => nth jj rr d0) part).
    rewrite (nth_indep _ [] (G 0%nat)) by now rewrite map_length, seq_length. rewrite (map_nth G). rewrite seq_nth by exact Sn. unfold G. cbn [Nat.add].
    rewrite (nth_indep _ d0 (nth s [] d0)) by (rewrite map_length, LP; exact R). rewrite (map_nth (fun rr => nth s rr d0)).
    unfold part. rewrite (device_row d _ i r []) by (try rewrite LC; assumption). rewrite LC. fold j.
    unfold columns. set (Hh := fun jj => map (fun rr => nth jj rr d0) outs). rewrite (nth_indep _ [] (Hh 0%nat)) by now rewrite map_length, seq_length. rewrite (map_nth Hh). rewrite seq_nth by exact J. unfold Hh. cbn [Nat.add].
    rewrite (nth_indep _ d0 (nth j [] d0)) by now rewrite map_length. now rewrite (map_nth (fun rr => nth j rr d0)).
Qed.

(** ---- validation outputs with several devices ---- *)
Theorem device_val_spec :
  forall rows cols outs i r j, (i < length outs)%nat -> (r < rows)%nat -> (j < cols)%nat ->
  length (device_val_outputs rows cols outs) = (length outs * rows)%nat /\
  nth j (nth (i * rows + r) (device_val_outputs rows cols outs) []) 0%Q = (total (map (fun o => nth j (nth r o []) 0%Q) outs) / nQ (length outs))%Q.
Proof.
  intros rows cols outs i r j I R J. unfold device_val_outputs.
  assert (LM : length (device_mean rows cols outs) = rows) by (unfold device_mean; now rewrite map_length, seq_length). split.
  - clear I. generalize (device_mean rows cols outs) as m, LM. intros m E. clear LM. induction outs; cbn; [reflexivity|]. rewrite app_length, E. lia.
  - rewrite (concat_uniform rows).
    + set (m := device_mean rows cols outs) in *. rewrite (nth_indep _ [] m) by now rewrite map_length.
      assert (N : forall (l : list (list (list Q))) k, nth k (map (fun _ => m) l) m = m) by (induction l; intros [|k]; cbn; auto). rewrite N. unfold m, device_mean.
      set (G := fun r => map (fun j => (qsum (map (fun o => nth j (nth r o []) 0%Q) outs) / inject_Z (Z.of_nat (length outs)))%Q) (seq 0 cols)).
      rewrite (nth_indep _ [] (G 0%nat)) by now rewrite map_length, seq_length. rewrite (map_nth G), seq_nth by exact R. unfold G. cbn [Nat.add].
      set (Hh := fun j => (qsum (map (fun o => nth j (nth r o []) 0%Q) outs) / inject_Z (Z.of_nat (length outs)))%Q). rewrite (nth_indep _ 0%Q (Hh 0%nat)) by now rewrite map_length, seq_length. rewrite (map_nth Hh), seq_nth by exact J. reflexivity.
    + apply Forall_forall. intros l H. apply in_map_iff in H. destruct H as [_ [<- _]]. exact LM.
    + now rewrite map_length.
    + exact R.
Qed.
Theorem device_val_refuted : exists rows cols outs, Forall (fun o => length o = rows /\ Forall (fun r => length r = cols) o) outs /\
  exists i j, (i < rows * length outs)%nat /\ ~ (nth j (nth i (device_val_outputs rows cols outs) []) 0 == nth j (nth i (concat outs) []) 0)%Q.
Proof. exists 1%nat, 1%nat, [[[1%Q]]; [[3%Q]]]. split. repeat constructor. exists 0%nat, 0%nat. split; [cbn; lia|]. intros H. vm_compute in H. discriminate. Qed.

Open Scope R_scope.
(** ---- the objective ---- *)
Lemma scaled_eq n ll : scaled_log_lik n ll = dataset_scaled n ll.
Proof. unfold scaled_log_lik, dataset_scaled. change (rsum ll) with (rtotal ll). ring. Qed.
Lemma joint_log_average n lls : lls <> [] -> ensemble_log_joint n lls = log_average (map (dataset_scaled n) lls).
Proof.
  intros N. unfold ensemble_log_joint, log_average. rewrite lse_eq. rewrite (map_ext _ _ (scaled_eq n)). rewrite ln_div. rewrite map_length. reflexivity.
  - change (0 < rs exp (map (dataset_scaled n) lls)). apply rs_pos; [now destruct lls|intros; apply exp_pos].
  - apply INR_pos. rewrite map_length. destruct lls; [easy|cbn; lia].
Qed.
Lemma log_average_pred l : l <> [] -> log_average l = pred_log_prob (length l) (fun s => nth s l 0).
Proof.
  intros N. rewrite pred_log_prob_ln by (destruct l; [easy|cbn; lia]). unfold log_average, raverage, rover. do 2 f_equal. change (rs exp l = rs (fun s => exp (nth s l 0)) (seq 0 (length l))). apply (rs_nth exp 0).
Qed.
Theorem objective_meaning : forall n lls, lls <> [] -> calib_objective n lls = - log_average (map (dataset_scaled n) lls).
Proof. intros n lls N. unfold calib_objective. now rewrite joint_log_average. Qed.
Theorem objective_bounds : forall n lls, lls <> [] ->
  calib_objective n lls <= rtotal (map (fun ll => - dataset_scaled n ll) lls) / INR (length lls) /\
  forall lo hi, (forall ll, In ll lls -> lo <= dataset_scaled n ll <= hi) -> - hi <= calib_objective n lls <= - lo.
Proof.
  intros n lls N. rewrite objective_meaning by exact N. assert (N' : map (dataset_scaled n) lls <> []) by now destruct lls. rewrite log_average_pred by exact N'.
  assert (L : (1 <= length (map (dataset_scaled n) lls))%nat) by (destruct lls; [easy|cbn; lia]).
  destruct (pred_log_prob_spec _ (fun s => nth s (map (dataset_scaled n) lls) 0) L) as [_ [A B]]. split.
  - replace (rtotal (map (fun ll => - dataset_scaled n ll) lls) / INR (length lls)) with (- raverage (length (map (dataset_scaled n) lls)) (fun s => nth s (map (dataset_scaled n) lls) 0)). lra.
    unfold raverage. rewrite rover_rs. rewrite <- (rs_nth (fun x => x) 0). rewrite rs_map, map_length. change (rtotal (map (fun ll => - dataset_scaled n ll) lls)) with (rs (fun ll => - dataset_scaled n ll) lls).
    replace (rs (fun ll => - dataset_scaled n ll) lls) with (- rs (fun ll => dataset_scaled n ll) lls). field. assert (P := INR_pos (length lls)). rewrite map_length in L. specialize (P L). lra.
    clear. induction lls as [|a l IH]; [rewrite !rs_nil; lra|]. rewrite !rs_cons, <- IH. lra.
  - intros lo hi H. specialize (B lo hi). assert (X : lo <= pred_log_prob (length (map (dataset_scaled n) lls)) (fun s => nth s (map (dataset_scaled n) lls) 0) <= hi); [|lra].
    apply B. intros s Ls. assert (I : In (nth s (map (dataset_scaled n) lls) 0) (map (dataset_scaled n) lls)) by now apply nth_In. apply in_map_iff in I. destruct I as [ll [<- I]]. now apply H.
Qed.
Theorem objective_single : forall n ll, calib_objective n [ll] = - dataset_scaled n ll.
Proof. intros n ll. rewrite objective_meaning by easy. unfold log_average. cbn [map length]. unfold rtotal. cbn [fold_right INR]. rewrite Rplus_0_r. unfold Rdiv at 1. rewrite Rinv_1, Rmult_1_r, ln_exp. reflexivity. Qed.
Lemma rtotal_app a b : rtotal (a ++ b) = rtotal a + rtotal b.
Proof. induction a as [|x a IH]. cbn [app]. change (rtotal []) with 0. lra. cbn [app]. change (rtotal (x :: a ++ b)) with (x + rtotal (a ++ b)). change (rtotal (x :: a)) with (x + rtotal a). rewrite IH. lra. Qed.
Theorem device_single : forall n b lls, (0 < b)%nat -> lls <> [] -> Forall (fun ll => length ll = b) lls ->
  device_objective n (map (fun ll => [ll]) lls) = calib_objective n [concat lls].
Proof.
  intros n b lls B N F. unfold device_objective. rewrite map_map, objective_single. rewrite (map_ext (fun x => calib_objective n [x]) (fun x => - dataset_scaled n x)) by (intros; apply objective_single).
  assert (LC : length (concat lls) = (length lls * b)%nat). { clear N. induction F; cbn; [reflexivity|]. rewrite app_length, IHF. lia. }
  assert (PB := INR_pos b B). assert (PL : 0 < INR (length lls)) by (apply INR_pos; destruct lls; [easy|cbn; lia]).
  unfold LikModel.rmean. rewrite map_length. unfold dataset_scaled at 2. rewrite LC, mult_INR.
  assert (S1 : rsum (map (fun x => - dataset_scaled n x) lls) = - (INR n / INR b * rtotal (concat lls))).
  { clear N LC PL. induction F as [|ll lls' E F IH]. cbn. change (rtotal []) with 0. lra. cbn [map concat]. change (rsum (- dataset_scaled n ll :: map (fun x => - dataset_scaled n x) lls')) with (- dataset_scaled n ll + rsum (map (fun x => - dataset_scaled n x) lls')). rewrite IH, rtotal_app. unfold dataset_scaled. rewrite E. lra. }
  rewrite S1. field. lra.
Qed.
Definition toy_lls : list (list R) := [[ln (1 / 2); ln (1 / 4)]; [ln (1 / 4); ln (1 / 2)]].
Lemma toy_joint : calib_objective 2 toy_lls = ln 8.
Proof.
  rewrite objective_meaning by easy. unfold toy_lls, log_average, dataset_scaled. cbn [map length]. unfold rtotal. cbn [fold_right]. change (INR 2) with 2.
  replace (2 / 2 * (ln (1 / 2) + (ln (1 / 4) + 0))) with (ln (1 / 2) + ln (1 / 4)) by field. replace (2 / 2 * (ln (1 / 4) + (ln (1 / 2) + 0))) with (ln (1 / 2) + ln (1 / 4)) by field.
  rewrite <- ln_mult by lra. rewrite exp_ln by lra. rewrite <- ln_Rinv by lra. f_equal. lra.
Qed.
Theorem objective_pointwise_refuted : exists n lls, Forall (fun ll => length ll = n) lls /\ lls <> [] /\ - pointwise_log_average lls n < calib_objective n lls.
Proof.
  exists 2%nat, toy_lls. split; [repeat constructor|]. split; [easy|]. rewrite toy_joint. unfold pointwise_log_average, rover, log_average, toy_lls. cbn [seq map length nth]. unfold rtotal. cbn [fold_right]. change (INR 2) with 2. rewrite !exp_ln by lra.
  replace ((1 / 2 + (1 / 4 + 0)) / 2) with (3 / 8) by field. replace ((1 / 4 + (1 / 2 + 0)) / 2) with (3 / 8) by field.
  replace (- (ln (3 / 8) + (ln (3 / 8) + 0))) with (ln (64 / 9)). apply ln_increasing; lra.
  replace (ln (3 / 8) + (ln (3 / 8) + 0)) with (ln (3 / 8) + ln (3 / 8)) by ring. rewrite <- ln_mult by lra. rewrite <- ln_Rinv by lra. f_equal. field.
Qed.
(** with several samples, the average over devices is not the objective of the batch *)
Theorem device_refuted : exists n (dev1 dev2 : list (list R)), length dev1 = length dev2 /\
  device_objective n [dev1; dev2] < calib_objective n (map (fun p => fst p ++ snd p) (combine dev1 dev2)).
Proof.
  exists 2%nat, [[ln (1 / 2)]; [ln (1 / 4)]], [[ln (1 / 4)]; [ln (1 / 2)]]. split; [reflexivity|]. cbn [combine map fst snd app]. change [[ln (1 / 2); ln (1 / 4)]; [ln (1 / 4); ln (1 / 2)]] with toy_lls. rewrite toy_joint.
  unfold device_objective. cbn [map]. unfold LikModel.rmean, rsum. cbn [fold_right length]. rewrite !objective_meaning by easy. unfold log_average, dataset_scaled. cbn [map length]. unfold rtotal. cbn [fold_right]. change (INR 2) with 2. change (INR 1) with 1.
  replace (2 / 1 * (ln (1 / 2) + 0)) with (ln (1 / 2) + ln (1 / 2)) by field. replace (2 / 1 * (ln (1 / 4) + 0)) with (ln (1 / 4) + ln (1 / 4)) by field. rewrite <- !ln_mult by lra. rewrite !exp_ln by lra.
  replace ((1 / 2 * (1 / 2) + (1 / 4 * (1 / 4) + 0)) / 2) with (5 / 32) by field. replace ((1 / 4 * (1 / 4) + (1 / 2 * (1 / 2) + 0)) / 2) with (5 / 32) by field.
  replace ((- ln (5 / 32) + (- ln (5 / 32) + 0)) / 2) with (- ln (5 / 32)) by field. rewrite <- ln_Rinv by lra. apply ln_increasing; lra.
Qed.
(** averaging outputs over samples, as done for the metrics, is not averaging predictions *)
Theorem outputs_mean_spec : forall outs j, outs <> [] -> ensemble_outputs_mean outs j = rtotal (map (fun o => nth j o 0) outs) / INR (length outs).
Proof. intros outs j _. unfold ensemble_outputs_mean, LikModel.rmean. now rewrite map_length. Qed.
