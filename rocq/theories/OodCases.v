(** Concrete instances for the out-of-distribution examples. *)
From Coq Require Import List Arith ZArith Bool Reals Lra Lia.
From Verif Require Import Lib TempModel TempSpec PredSpec LapModel LapSpec SngpSpec SngpProofs OodModel OodSpec OodProofs.
Import ListNotations.
Open Scope R_scope.
Definition pt (x : R) (c : Z) : point := (fun _ => x, c).
Definition data2 : list point := [pt 0 0; pt 2 0; pt 10 1; pt 14 1].
Definition half_inv (A : nat -> nat -> num) (i j : nat) : num := ndiv (Some 1) (A i j).
Lemma data2_observed : all_observed data2 2.
Proof. intros [|[|c]] H; [discriminate | discriminate | lia]. Qed.
Lemma data2_pooled : pooled data2 2 0%nat 0%nat = 5 / 2.
Proof. unfold pooled, rover, scatter, mean_of, of_class, rtotal, data2. cbn. field. Qed.
Lemma case_score : maha_score half_inv 1 2 (maha_fit 2 data2) (fun _ => 5) = Ok (Some (32 / 5)).
Proof.
  assert (N : data2 <> []) by discriminate.
  assert (J : joint_cov data2 (arange 2) 0%nat 0%nat = Some (5 / 2)) by (rewrite (proj2 (pooled_covariance data2 2 0 0 N data2_observed)), data2_pooled; reflexivity).
  destruct (score_spec half_inv 1 2 data2 (fun _ _ => 2 / 5) (fun _ => 5) N ltac:(lia) data2_observed) as (s & E & ((c & Hc & Es) & L) & _).
  - intros i j Hi Hj. replace i with 0%nat by lia. replace j with 0%nat by lia. unfold half_inv. rewrite J. cbn [ndiv]. destruct (Req_EM_T (5 / 2) 0); [lra|]. f_equal. lra.
  - split; [intros i j _ _; reflexivity|]. intros i j _ _. unfold rover, rtotal. cbn [seq map fold_right]. rewrite data2_pooled. lra.
  - rewrite E. do 2 f_equal. pose proof (L 0%nat ltac:(lia)) as L0.
    assert (D0 : distance 1 (fun _ _ => 2 / 5) (fun _ => 5) (mean_of (of_class data2 (Z.of_nat 0))) = 32 / 5) by (unfold distance, quad, rover, rtotal, mean_of, of_class, data2, rtotal; cbn; field).
    assert (D1 : distance 1 (fun _ _ => 2 / 5) (fun _ => 5) (mean_of (of_class data2 (Z.of_nat 1))) = 98 / 5) by (unfold distance, quad, rover, rtotal, mean_of, of_class, data2, rtotal; cbn; field).
    destruct c as [|[|c]]; [| | lia]; [rewrite Es, D0; reflexivity|]. rewrite D0 in L0. rewrite D1 in Es. lra.
Qed.
Lemma case_missing : maha_score half_inv 1 3 (maha_fit 3 data2) (fun _ => 5) = Ok None.
Proof. apply (unobserved_score half_inv 1 3 data2 _ 2); [lia | lia | reflexivity]. Qed.
Lemma case_ddu : exists cov, ddu_cov data2 1 = Ok cov /\ cov 0%nat 0%nat = Some 8 /\ ddu_mean data2 1 0%nat = Some 12.
Proof.
  destruct (ddu_moments data2 1) as (cov & E & H); [cbn; lia|]. exists cov. split; [exact E|]. destruct (H 0%nat 0%nat) as [H1 H2]. rewrite H1, H2.
  split; f_equal; unfold scatter, mean_of, of_class, data2, rtotal; cbn; field.
Qed.
