(** Proofs for GpFitModel.v: the precision matrix of an epoch, and rows in evaluation mode. *)
From Coq Require Import List Arith ZArith Bool String Reals Lra Lia.
From Verif Require Import Lib LapModel TempModel TempSpec PredSpec LapSpec LapProofs2 SngpModel SngpSpec SngpProofs SngpProofs2 SngpProofs3 GpFitModel GpFitSpec.
Import ListNotations.
Open Scope list_scope.
Open Scope R_scope.
Local Notation length := List.length.
Local Notation concat := List.concat.

Lemma fold_momentum m i j : forall batches P,
  fold_left (fun prec feats => update_precision (Some m) feats prec) batches P i j
  = m ^ length batches * P i j + rover (length batches) (fun l => m ^ (length batches - 1 - l) * (1 - m) * (gram (nth l batches []) i j / INR (length (nth l batches [])))).
Proof.
  induction batches as [|f r IH]; intros P.
  - cbn [fold_left length pow]. rewrite rover_0. ring.
  - cbn [fold_left length]. rewrite IH. rewrite rover_shift. cbn [nth].
    replace (S (length r) - 1 - 0)%nat with (length r) by lia. unfold update_precision. rewrite batch_gram.
    rewrite (rover_ext (length r) (fun l => m ^ (S (length r) - 1 - S l) * (1 - m) * (gram (nth l r []) i j / INR (length (nth l r []))))
       (fun l => m ^ (length r - 1 - l) * (1 - m) * (gram (nth l r []) i j / INR (length (nth l r []))))).
    + cbn [pow]. unfold Rdiv. ring.
    + intros l Hl. replace (S (length r) - 1 - S l)%nat with (length r - 1 - l)%nat by lia. reflexivity.
Qed.
Lemma precision_is ridge momentum batches i j : precision_after_epoch ridge momentum batches i j = epoch_precision ridge momentum batches i j.
Proof.
  unfold epoch_precision. destruct momentum as [m|].
  - unfold precision_after_epoch. rewrite fold_momentum. unfold initial_precision, eye. cbv zeta. f_equal. f_equal. apply Rmult_comm.
  - rewrite precision_exact. cbv zeta. f_equal. destruct (i =? j)%nat; ring.
Qed.
(** positive definite *)
Lemma precision_factor n ridge momentum batches : 0 < ridge -> check_momentum momentum = Ok tt -> (forall m, momentum = Some m -> 0 < m) ->
  exists L, cholesky_factor n (precision_after_epoch ridge momentum batches) L.
Proof.
  intros Hr Hc Hm. destruct momentum as [m|]; [|now apply epoch_cholesky].
  specialize (Hm m eq_refl). apply (cholesky_exists n _ (ridge * m ^ length batches)).
  - apply epoch_sym.
  - apply Rmult_lt_0_compat; [exact Hr|]. apply pow_lt; exact Hm.
  - intros v. exact (proj2 (precision_bound n ridge (Some m) batches v (Rlt_le _ _ Hr) Hc)).
Qed.
Lemma shrink_is factor v row : 0 <= factor -> shrink factor v row = map (fun z => z / sqrt (1 + v * factor)) row.
Proof. intros Hf. unfold shrink, mean_field_logits. destruct (Rlt_dec factor 0); [lra|]. reflexivity. Qed.
Lemma factor_ext n A B L : (forall i j, A i j = B i j) -> cholesky_factor n B L -> cholesky_factor n A L.
Proof. intros H (A1 & A2 & A3). split; [exact A1|]. split; [exact A2|]. intros i j Hi Hj. rewrite H. now apply A3. Qed.
Lemma rows_shown chol n ridge factor momentum batches prec (logits : vec -> list R) phis :
  0 < ridge -> 0 <= factor -> check_momentum momentum = Ok tt -> (forall m, momentum = Some m -> 0 < m) ->
  (forall A, (exists L, cholesky_factor n A L) -> cholesky_factor n A (chol A)) ->
  (forall i j, prec i j = epoch_precision ridge momentum batches i j) ->
  gp_rows n ridge factor (epoch_precision ridge momentum batches) logits phis
    (map (fun vr => shrink factor (fst vr) (snd vr)) (combine (map (covariance_diag chol n ridge prec) phis) (map logits phis))).
Proof.
  intros Hr Hf Hc Hm Hchol HP. destruct (precision_factor n ridge momentum batches Hr Hc Hm) as (L & HL).
  assert (CF : cholesky_factor n prec (chol prec)).
  { apply Hchol. exists L. revert HL. apply factor_ext. intros i j. now rewrite HP, precision_is. }
  clear HL L. induction phis as [|f phis IH]; [constructor|]. cbn [map combine]. constructor; [|exact IH]. cbn [fst snd].
  rewrite shrink_is by exact Hf. eexists. split; [|reflexivity].
  destruct (cholesky_solvable _ _ _ f CF) as (w & Hw). exists w. split.
  - intros i Hi. rewrite <- (Hw i Hi). apply rover_ext. intros j _. now rewrite HP.
  - apply diag_solution; assumption.
Qed.

(** the variance of the exact update *)
Theorem variance_of_fit : forall n ridge batches f v, 0 < ridge -> gp_variance n ridge (epoch_precision ridge None batches) f v ->
  0 <= v <= inner n f f
  /\ ((forall g, In g (concat batches) -> inner n g f = 0) -> v = inner n f f)
  /\ (In f (concat batches) -> v <= ridge * inner n f f / (ridge + inner n f f) /\ v < ridge).
Proof.
  intros n ridge batches f v Hr (w & Hw & ->). destruct (epoch_cholesky n ridge batches Hr) as (L & HL).
  assert (HS : solves n (precision_after_epoch ridge None batches) w f).
  { intros i Hi. rewrite <- (Hw i Hi). apply rover_ext. intros j _. now rewrite precision_is. }
  rewrite <- (diag_solution (fun _ => L) n ridge _ f w HL HS). split; [|split].
  - now apply variance_bounds.
  - intros H. now apply variance_away.
  - intros H. now apply variance_seen.
Qed.
