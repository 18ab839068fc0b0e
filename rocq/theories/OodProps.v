(** Properties of the out-of-distribution classifiers. *)
From Coq Require Import List Arith ZArith Bool Reals Lra Lia.
From Verif Require Import Lib TempModel TempSpec PredSpec LapModel LapSpec SngpSpec OodModel OodSpec OodProofs OodProofs2 OodCases.
Import ListNotations.
Open Scope R_scope.

(** C88 *)
Theorem C88_covariance : forall data k i j, data <> [] -> all_observed data k ->
  (forall c, (c < k)%nat -> class_mean data (Z.of_nat c) i = Some (mean_of (of_class data (Z.of_nat c)) i)) /\
  joint_cov data (arange k) i j = Some (pooled data k i j).
Proof. exact (@pooled_covariance). Qed.
Print Assumptions C88_covariance.
Example C88_case_hypotheses : all_observed data2 2 /\ pseudo_inverse 1 (pooled data2 2) (fun _ _ => 2 / 5).
Proof.
  split; [exact data2_observed|]. split; [intros i j _ _; reflexivity|]. intros i j Hi Hj. unfold rover, rtotal. cbn [seq map fold_right]. rewrite data2_pooled. lra.
Qed.
Theorem C88_score : forall pinv n k data X x, data <> [] -> (1 <= k)%nat -> all_observed data k ->
  (forall i j, (i < n)%nat -> (j < n)%nat -> pinv (joint_cov data (arange k)) i j = Some (X i j)) -> pseudo_inverse n (pooled data k) X ->
  exists s, maha_score pinv n k (maha_fit k data) x = Ok (Some s) /\ smallest k (fun c => distance n X x (mean_of (of_class data (Z.of_nat c)))) s /\ 0 <= s.
Proof. exact (@score_spec). Qed.
Print Assumptions C88_score.
Theorem C88_at_mean : forall pinv n k data X x c, data <> [] -> all_observed data k -> (c < k)%nat ->
  (forall i j, (i < n)%nat -> (j < n)%nat -> pinv (joint_cov data (arange k)) i j = Some (X i j)) -> pseudo_inverse n (pooled data k) X ->
  (forall i, (i < n)%nat -> x i = mean_of (of_class data (Z.of_nat c)) i) ->
  maha_score pinv n k (maha_fit k data) x = Ok (Some 0).
Proof. exact (@score_at_mean). Qed.
Print Assumptions C88_at_mean.
Theorem C88_unobserved : forall data k i j c, data <> [] -> (c < k)%nat -> of_class data (Z.of_nat c) = [] ->
  class_mean data (Z.of_nat c) i = None /\ joint_cov data (arange k) i j = None.
Proof. exact (@unobserved_class). Qed.
Print Assumptions C88_unobserved.
Theorem C88_unobserved_refuted : forall pinv n k data x c, (1 <= n)%nat -> (c < k)%nat -> of_class data (Z.of_nat c) = [] ->
  maha_score pinv n k (maha_fit k data) x = Ok None.
Proof. exact (@unobserved_score). Qed.
Print Assumptions C88_unobserved_refuted.
Theorem C88_not_fitted : forall pinv n k x, maha_score pinv n k None x = Err NotFittedError.
Proof. exact (@maha_not_fitted). Qed.
Print Assumptions C88_not_fitted.
Example C88_case : maha_score half_inv 1 2 (maha_fit 2 data2) (fun _ => 5) = Ok (Some (32 / 5)).
Proof. exact case_score. Qed.
Example C88_case_missing : maha_score half_inv 1 3 (maha_fit 3 data2) (fun _ => 5) = Ok None.
Proof. exact case_missing. Qed.

(** C89 *)
Theorem C89_moments : forall data c, (2 <= length (of_class data c))%nat ->
  exists cov, ddu_cov data c = Ok cov /\ forall i j, ddu_mean data c i = Some (mean_of (of_class data c) i) /\
    cov i j = Some (scatter (of_class data c) i j / (INR (length (of_class data c)) - 1)).
Proof. exact (@ddu_moments). Qed.
Print Assumptions C89_moments.
Theorem C89_singleton : forall logpdf js k data c, (c < k)%nat -> length (of_class data (Z.of_nat c)) = 1%nat -> ddu_fit logpdf js k data = Err ZeroDivisionError.
Proof. exact (@ddu_singleton). Qed.
Print Assumptions C89_singleton.
Theorem C89_jitter : forall ok js e, choose_jitter ok js None = Ok e ->
  (exists a b, js = a ++ e :: b /\ ok e = true /\ forall x, In x a -> ok x = false) \/ (exists a, js = a ++ [e] /\ forall x, In x js -> ok x = false).
Proof. exact (@jitter_first). Qed.
Print Assumptions C89_jitter.
Theorem C89_jitter_total : forall ok tiny, exists e, choose_jitter ok (jitters tiny) None = Ok e.
Proof. exact (@jitter_total). Qed.
Print Assumptions C89_jitter_total.
Theorem C89_score : forall logpdf js k data st x, ddu_fit logpdf js k data = Ok st ->
  (forall y m cov cov', (forall i j, cov i j = cov' i j) -> logpdf y m cov = logpdf y m cov') ->
  exists classes eps, length classes = k /\
  (forall c, (c < k)%nat -> exists mc cov, nth_error classes c = Some mc /\ ddu_cov data (Z.of_nat c) = Ok cov /\ snd mc = cov /\ fst mc = ddu_mean data (Z.of_nat c)) /\
  (let works e := forall x mc cov, In x classes -> In mc classes -> jittered e (snd mc) cov -> logpdf (fst x) (fst mc) cov <> None in
   (exists before after, js = before ++ eps :: after /\ works eps /\ forall e, In e before -> ~ works e) \/ (exists before, js = before ++ [eps] /\ forall e, In e js -> ~ works e)) /\
  forall covs, Forall2 (fun mc cov => jittered eps (snd mc) cov) classes covs ->
    let densities := map (fun mc => match logpdf (fun i => Some (x i)) (fst (fst mc)) (snd mc) with Some l => l | None => 0 end) (combine classes covs) in
    ddu_score logpdf st x = Ok (- ln (rtotal (map exp densities))).
Proof. exact (@ddu_score_chosen). Qed.
Print Assumptions C89_score.
Example C89_case_jittered : jittered (1 / 10) (fun i j => if (i =? 1)%nat then None else Some 2) (fun i j => if (i =? 1)%nat then None else Some (if (i =? j)%nat then 21 / 10 else 2)).
Proof. intros i j. destruct (i =? 1)%nat; [reflexivity|]. destruct (i =? j)%nat; f_equal; lra. Qed.
Theorem C89_jitters : forall tiny, length (jitters tiny) = 12%nat /\ nth 0 (jitters tiny) 1 = 0 /\ nth 1 (jitters tiny) 0 = tiny /\
  forall e, (1 <= e <= 10)%nat -> nth (12 - e) (jitters tiny) 0 * 10 ^ e = 1.
Proof. exact (@jitters_values). Qed.
Print Assumptions C89_jitters.
Theorem C89_density : forall ls m, In m ls -> (forall l, In l ls -> l <= m) ->
  - m - ln (INR (length ls)) <= ddu_row_score (map Some ls) <= - m /\ exp (- ddu_row_score (map Some ls)) = rtotal (map exp ls).
Proof. exact (@ddu_row_bounds). Qed.
Print Assumptions C89_density.
Theorem C89_monotone : forall ls ls', ls <> [] -> length ls = length ls' -> (forall i, nth i ls 0 <= nth i ls' 0) ->
  ddu_row_score (map Some ls') <= ddu_row_score (map Some ls).
Proof. exact (@ddu_row_monotone). Qed.
Print Assumptions C89_monotone.
Theorem C89_unobserved_refuted : forall logpdf js k data st x c s, (forall x m cov, (exists i, m i = None) -> logpdf x m cov = None) ->
  (c < k)%nat -> of_class data (Z.of_nat c) = [] -> ddu_fit logpdf js k data = Ok st -> ddu_score logpdf st x = Ok s -> s <= 0.
Proof. exact (@ddu_unobserved). Qed.
Print Assumptions C89_unobserved_refuted.
Theorem C89_not_fitted : forall logpdf x, ddu_score logpdf None x = Err NotFittedError.
Proof. exact (@ddu_not_fitted). Qed.
Print Assumptions C89_not_fitted.
Example C89_case : exists cov, ddu_cov data2 1 = Ok cov /\ cov 0%nat 0%nat = Some 8 /\ ddu_mean data2 1 0%nat = Some 12.
Proof. exact case_ddu. Qed.
