From Coq Require Import List Arith ZArith Bool Reals Lra Lia.
From Verif Require Import Lib TempSpec PredSpec LapSpec SngpSpec OodModel OodSpec OodProofs.
Import ListNotations.
Open Scope R_scope.

(** ---- which jitter is chosen, and what it does ---- *)
Lemma add_jitter_jittered eps cov : jittered eps cov (add_jitter eps cov).
Proof. intros i j. unfold add_jitter, nadd, nlift. destruct (cov i j) as [a|]; [|reflexivity]. f_equal. destruct (Nat.eqb_spec i j); ring. Qed.
Lemma no_nans_densities logpdf classes eps : no_nans logpdf classes eps = true <-> forall x mc, In x classes -> In mc classes -> logpdf (fst x) (fst mc) (add_jitter eps (snd mc)) <> None.
Proof.
  unfold no_nans. rewrite forallb_forall. split.
  - intros H x mc Hx Hm E. specialize (H x Hx). rewrite forallb_forall in H. specialize (H (logpdf (fst x) (fst mc) (add_jitter eps (snd mc)))). rewrite E in H. cbn in H. discriminate H.
    unfold gmm_logprob. apply in_map_iff. exists mc. now split.
  - intros H x Hx. apply forallb_forall. intros a Ha. unfold gmm_logprob in Ha. apply in_map_iff in Ha. destruct Ha as (mc & <- & Hm). specialize (H x mc Hx Hm). destruct (logpdf _ _ _); [reflexivity|contradiction].
Qed.
Theorem ddu_score_chosen : forall logpdf js k data st x, ddu_fit logpdf js k data = Ok st ->
  (forall y m cov cov', (forall i j, cov i j = cov' i j) -> logpdf y m cov = logpdf y m cov') ->
  exists classes eps, length classes = k /\
  (forall c, (c < k)%nat -> exists mc cov, nth_error classes c = Some mc /\ ddu_cov data (Z.of_nat c) = Ok cov /\ snd mc = cov /\ fst mc = ddu_mean data (Z.of_nat c)) /\
  (let works e := forall x mc cov, In x classes -> In mc classes -> jittered e (snd mc) cov -> logpdf (fst x) (fst mc) cov <> None in
   (exists before after, js = before ++ eps :: after /\ works eps /\ forall e, In e before -> ~ works e) \/ (exists before, js = before ++ [eps] /\ forall e, In e js -> ~ works e)) /\
  forall covs, Forall2 (fun mc cov => jittered eps (snd mc) cov) classes covs ->
    let densities := map (fun mc => match logpdf (fun i => Some (x i)) (fst (fst mc)) (snd mc) with Some l => l | None => 0 end) (combine classes covs) in
    ddu_score logpdf st x = Ok (- ln (rtotal (map exp densities))).
Proof.
  intros logpdf js k data st x H Ext. unfold ddu_fit in H. destruct (classwise k data) as [classes|] eqn:C; [|discriminate]. cbn [bind] in H.
  destruct (choose_jitter _ js None) as [eps|] eqn:J; [|discriminate]. cbn [bind] in H. injection H as <-.
  assert (Lk : length classes = k) by (apply mapM_length in C; unfold arange in C; now rewrite map_length, seq_length in C).
  assert (W : forall e, no_nans logpdf classes e = true <-> forall x mc cov, In x classes -> In mc classes -> jittered e (snd mc) cov -> logpdf (fst x) (fst mc) cov <> None).
  { intros e. rewrite no_nans_densities. split.
    - intros H y mc cov Hy Hm Hj E. apply (H y mc Hy Hm). rewrite <- E. apply Ext. intros i j. rewrite (Hj i j). apply add_jitter_jittered.
    - intros H y mc Hy Hm. apply H; [exact Hy|exact Hm|apply add_jitter_jittered]. }
  exists classes, eps. split; [exact Lk|]. split; [|split].
  - intros c Hc. unfold classwise in C. assert (G : forall l r i z, mapM (fun c => rmap (fun cov => (ddu_mean data c, cov)) (ddu_cov data c)) l = Ok r -> nth_error l i = Some z ->
      exists mc cov, nth_error r i = Some mc /\ ddu_cov data z = Ok cov /\ snd mc = cov /\ fst mc = ddu_mean data z).
    { induction l as [|z0 l IH]; intros r i z H Hi; [destruct i; discriminate|]. cbn [mapM] in H. destruct (ddu_cov data z0) as [cov|] eqn:Ec; cbn [rmap bind] in H; [|discriminate].
      destruct (mapM _ l) as [r'|] eqn:Er; cbn [bind] in H; [|discriminate]. injection H as <-. destruct i as [|i]; cbn [nth_error] in *.
      - injection Hi as <-. exists (ddu_mean data z0, cov), cov. now repeat split.
      - apply (IH r' i z eq_refl Hi). }
    apply (G (arange k) classes c); [exact C|]. unfold arange. rewrite nth_error_map. rewrite (nth_error_nth' _ 0%nat) by (rewrite seq_length; exact Hc). now rewrite seq_nth.
  - intros works. apply jitter_first in J. destruct J as [(a & b & E & Oe & A)|(a & E & A)].
    + left. exists a, b. split; [exact E|]. split; [exact (proj1 (W eps) Oe)|]. intros e He Hw. apply (proj2 (W e)) in Hw. rewrite (A e He) in Hw. discriminate.
    + right. exists a. split; [exact E|]. intros e He Hw. apply (proj2 (W e)) in Hw. rewrite (A e He) in Hw. discriminate.
  - intros covs F. unfold ddu_score. f_equal. unfold ddu_row_score, gmm_logprob. f_equal. f_equal.
    replace (map nan_to_num (map (fun mc => logpdf (fun i => Some (x i)) (fst mc) (add_jitter eps (snd mc))) classes)) with
      (map (fun mc => match logpdf (fun i => Some (x i)) (fst (fst mc)) (snd mc) with Some l => l | None => 0 end) (combine classes covs)).
    + generalize (map exp (map (fun mc => match logpdf (fun i => Some (x i)) (fst (fst mc)) (snd mc) with Some l => l | None => 0 end) (combine classes covs))). intros l. reflexivity.
    + clear -F Ext. induction F as [|mc cov classes covs Hj F IH]; [reflexivity|]. cbn [combine map fst snd]. rewrite IH. f_equal. unfold nan_to_num.
      rewrite (Ext _ _ cov (add_jitter eps (snd mc))); [reflexivity|]. intros i j. rewrite (Hj i j). symmetry. apply add_jitter_jittered.
Qed.
Theorem jitters_values : forall tiny, length (jitters tiny) = 12%nat /\ nth 0 (jitters tiny) 1 = 0 /\ nth 1 (jitters tiny) 0 = tiny /\
  forall e, (1 <= e <= 10)%nat -> nth (12 - e) (jitters tiny) 0 * 10 ^ e = 1.
Proof.
  intros tiny. split; [reflexivity|]. split; [reflexivity|]. split; [reflexivity|]. intros e He.
  assert (X : forall n, 10 ^ n <> 0) by (intros n; apply pow_nonzero; lra).
  do 11 (destruct e as [|e]; [try lia; cbn [Nat.sub nth jitters map seq]; rewrite Rinv_l by apply X; reflexivity|]). lia.
Qed.
