(** A case where tuning keeps the smaller log-variance, and one where it returns a log-variance
    at which the posterior has no density. *)
From Coq Require Import List Arith Bool Reals Lia Lra.
From Verif Require Import Lib PredSpec TempSpec PredProofs5 DrawModel TuneModel TuneSpec TuneProofs TuneProofs2.
Import ListNotations.
Local Open Scope R_scope.
Local Open Scope nat_scope.

(** a log-likelihood that falls with the first parameter, and noise equal to one *)
Definition falling (theta : list R) (x : R) : R := (x - hd 0%R theta)%R.
Definition ones (_ : key) (_ : nat) : R := 1%R.

Lemma case_member v : member [0%R] [3%R] (Scalar v) (ones []) = [(0 + 1 / sqrt (exp (- v) + 3))%R].
Proof. reflexivity. Qed.
Lemma case_goal v k : objective falling (fun _ => member [0%R] [3%R] (Scalar v) (ones k)) 1 [5%R] = (5 - 1 / sqrt (exp (- v) + 3))%R.
Proof.
  unfold objective. change (ones k) with (ones []). rewrite case_member. cbn [map rtotal fold_right].
  rewrite raverage_const by lia. rewrite ln_exp. unfold falling. cbn [hd]. unfold rtotal. cbn [fold_right]. lra.
Qed.
Lemma case_tune : tune (fun n => n) ones falling [0%R] [3%R] [] (Scalar 1) [[5%R]] 1 0 2 1 true 1 = Ok 0%R.
Proof.
  destruct (tuning_chooses R (fun n => n) ones falling [0%R] [3%R] [] 1 [[5%R]] 1 0 2 1) as (v & b & a & T & B & _ & B1 & B2); try reflexivity; try discriminate; try lia.
  { apply nonnegative_definite. constructor; [lra|constructor]. }
  rewrite T. f_equal. assert (GP : grid_point 0 2 1 0 = 0%R) by apply grid_first. cbn [seq map app] in B. rewrite GP in B.
  destruct b as [|x [|y b]]; [now injection B as <-| |destruct b; discriminate]. injection B as <- <- _.
  assert (D : definite (Scalar 0) [3%R]) by (apply nonnegative_definite; constructor; [lra|constructor]).
  specialize (B1 0%R (or_introl eq_refl) D). cbn [concat app] in B1.
  set (k := tuning_key (fun n => n) [] 1) in B1.
  change (objective falling (fun _ => member [0%R] [3%R] (Scalar 0) (ones [])) 1 [5%R] < objective falling (fun _ => member [0%R] [3%R] (Scalar 1) (ones [])) 1 [5%R])%R in B1.
  rewrite !case_goal in B1.
  assert (E : (exp (-(1)) < exp (- 0))%R) by (apply exp_increasing; lra).
  assert (P := exp_pos (-(1))).
  assert (Q : (sqrt (exp (-(1)) + 3) < sqrt (exp (- 0) + 3))%R) by (apply sqrt_lt_1; lra).
  assert (Q0 : (0 < sqrt (exp (-(1)) + 3))%R) by (apply sqrt_lt_R0; lra).
  assert (I : (/ sqrt (exp (- 0) + 3) < / sqrt (exp (-(1)) + 3))%R) by (apply Rinv_lt_contravar; [apply Rmult_lt_0_compat; lra|exact Q]).
  unfold Rdiv in B1. lra.
Qed.
(** exp 3 < 30: at log-variance -3 and curvature -30 the precision is negative; at -5 it is not *)
Lemma case_indefinite : ~ definite (Scalar (-3)) [(-30)%R].
Proof.
  intros D. specialize (D 0 ltac:(cbn; lia)). cbn [entry nth] in D. replace (- -3)%R with (1 + 1 + 1)%R in D by lra. rewrite !exp_plus in D.
  assert (E := exp_le_3). assert (P := exp_pos 1). assert (exp 1 * exp 1 <= 9)%R by nra. nra.
Qed.
Lemma case_definite : definite (Scalar (-5)) [(-30)%R].
Proof.
  intros j J. cbn in J. replace j with 0 by lia. cbn [entry nth]. replace (- -5)%R with (1 + 1 + 1 + 1 + 1)%R by lra. rewrite !exp_plus.
  assert (E := exp_ineq1 1 ltac:(lra)). set (e := exp 1) in *. assert (4 < e * e)%R by nra. assert (8 < e * e * e)%R by nra. assert (16 < e * e * e * e)%R by nra. nra.
Qed.
Lemma case_nan : fit_end (fun n => n) ones falling [0%R] [(-30)%R] [] (Scalar (-5)) (Some [[5%R]]) true None 1 = (Scalar (-3), Ok tt)
  /\ draw ones [0%R] [(-30)%R] (Scalar (-3)) None [] = Ok None /\ (exists theta, draw ones [0%R] [(-30)%R] (Scalar (-5)) None [] = Ok (Some theta)).
Proof.
  split; [|split].
  - unfold fit_end. rewrite tuning_nan; try reflexivity; try discriminate; try lia; try exact I. exact case_indefinite.
  - apply (draw_value ones [0%R] [(-30)%R] (Scalar (-3)) None []); [reflexivity|exact I|exact case_indefinite].
  - eexists. apply (draw_value ones [0%R] [(-30)%R] (Scalar (-5)) None []); [reflexivity|exact I|exact case_definite].
Qed.
