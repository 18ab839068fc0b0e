(** Concrete instances for the SNGP examples. *)
From Coq Require Import List Arith Bool String Reals Lra Lia.
From Verif Require Import Lib NestedModel NestedSpec TempModel TempSpec PredSpec LapModel LapSpec SngpModel SngpSpec SngpProofs.
Import ListNotations.
Open Scope R_scope.
Definition f_a : vec := fun i => match i with O => 1 | _ => 2 end.
Definition f_b : vec := fun i => match i with O => 0 | _ => 1 end.
Definition one_v : vec := fun _ => 1.
Lemma case_precision : precision_after_epoch 1 None [[f_a; f_b]; [f_b]] 0%nat 0%nat = 2 /\ precision_after_epoch 1 None [[f_a; f_b]; [f_b]] 0%nat 1%nat = 2 /\ precision_after_epoch 1 None [[f_a; f_b]; [f_b]] 1%nat 1%nat = 7.
Proof. rewrite !precision_exact. unfold gram, rtotal, f_a, f_b. cbn. repeat split; lra. Qed.
Definition chol1 (P : mat) : mat := fun i j => match i, j with O, O => sqrt (P 0%nat 0%nat) | _, _ => 0 end.
Definition three := precision_after_epoch 1 None [[one_v; one_v]; [one_v]].
Lemma three_4 : three 0%nat 0%nat = 4.
Proof. unfold three. rewrite precision_exact. unfold gram, rtotal, one_v. cbn. lra. Qed.
Local Opaque three.
Lemma sqrt4 : sqrt 4 = 2. Proof. replace 4 with (2 * 2) by lra. apply sqrt_square. lra. Qed.
Lemma case_variance : cholesky_factor 1 three (chol1 three) /\ covariance_diag chol1 1 1 three one_v = 1 / 4.
Proof.
  split.
  - repeat split.
    + intros i j H. lia.
    + intros i H. replace i with 0%nat by lia. cbn. rewrite three_4, sqrt4. lra.
    + intros i j Hi Hj. replace i with 0%nat by lia. replace j with 0%nat by lia. unfold rover, rtotal. cbn. rewrite three_4, sqrt4. lra.
  - unfold covariance_diag, half_feature, isum, rsum. cbn. rewrite three_4, sqrt4. unfold isum, one_v. cbn. lra.
Qed.
Lemma case_mean_field : mean_field_logits 1 (Some 3) [4; 2] = Ok [2; 1].
Proof.
  unfold mean_field_logits. destruct (Rlt_dec 1 0); [lra|]. replace (1 + 3 * 1) with 4 by lra. rewrite sqrt4. cbn [map]. f_equal. apply (f_equal2 cons); [lra|]. apply (f_equal2 cons); [lra|reflexivity].
Qed.
Definition w_three : mat := fun _ _ => 3.
Lemma case_spectral : sigma_estimate 1 (singular_vectors 1 1 1 true false w_three one_v one_v) = 3 /\ normalized_kernel 1 1 1 (95 / 100) true false w_three one_v one_v 0%nat 0%nat = 95 / 100.
Proof.
  assert (N3 : forall x, 1 <= x -> sqrt (Rmax (x ^ 2 + 0) sn_eps) = x).
  { intros x H. assert (sn_eps <= 1) by (unfold sn_eps; rewrite <- Rinv_1; apply Rinv_le_contravar; [lra | apply pow_R1_Rle; lra]).
    rewrite Rmax_left by nra. replace (x ^ 2 + 0) with (x * x) by ring. apply sqrt_square. lra. }
  assert (E : sigma_estimate 1 (singular_vectors 1 1 1 true false w_three one_v one_v) = 3).
  { unfold singular_vectors. cbn [andb negb]. change (Nat.iter 1 (scan_body 1 1 w_three) (one_v, one_v, kernel_apply 1 w_three one_v)) with (scan_body 1 1 w_three (one_v, one_v, kernel_apply 1 w_three one_v)).
    unfold scan_body, sigma_estimate.
    set (v := l2_normalize 1 (kernel_transpose 1 w_three one_v)).
    assert (V : v 0%nat = 1). { unfold v, l2_normalize, isum, kernel_transpose, isum, w_three, one_v, rsum. cbn [seq map fold_right]. replace (3 * 1 + 0) with 3 by ring. rewrite N3 by lra. lra. }
    assert (K : kernel_apply 1 w_three v 0%nat = 3) by (unfold kernel_apply, isum, w_three, rsum; cbn [seq map fold_right]; rewrite V; lra).
    set (u := kernel_apply 1 w_three v) in *. unfold l2_normalize, isum, rsum. cbn [seq map fold_right]. rewrite K, N3 by lra. lra. }
  split; [exact E|]. unfold normalized_kernel. rewrite E. unfold sn_divisor. rewrite Rmax_left by lra. unfold w_three. lra.
Qed.
