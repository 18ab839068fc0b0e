(** Proofs about predictive variances. *)
From Coq Require Import List Arith ZArith QArith Qminmax Qabs Bool Lia Lqa.
From Verif Require Import Lib QuantModel QuantProofs ConfRegModel ConfClassModel MetricSpec MetricProofs MetricProofs2 PredModel PredSpec.
Import ListNotations.
Open Scope Q_scope.

Lemma fori_sum m k : forall lo init, fori k lo (fun i s => s + m i) init == init + tot m (seq lo k).
Proof. induction k as [|k IH]; intros lo init; cbn [fori seq]. change (tot m []) with 0. ring. rewrite IH, tot_cons. ring. Qed.
Lemma over_tot n f : over n f = tot f (seq 0 n). Proof. reflexivity. Qed.
Lemma seq_1 n : (1 <= n)%nat -> seq 0 n = 0%nat :: seq 1 (n - 1).
Proof. intros H. destruct n as [|n]; [lia|]. cbn [seq]. now rewrite Nat.sub_succ, Nat.sub_0_r. Qed.
Theorem mean_average : forall n m, (1 <= n)%nat -> batched_mean n m == average n m /\ batched_aleatoric_variance n m == average n m.
Proof.
  intros n m H. assert (E : batched_mean n m == average n m); [|split; exact E]. unfold batched_mean, average, fori_loop. cbv zeta. rewrite fori_sum, over_tot, (seq_1 n H), tot_cons. unfold nQ. assert (0 + m 0%nat + tot m (seq 1 (n - 1)) == m 0%nat + tot m (seq 1 (n - 1))) as -> by ring. reflexivity.
Qed.
Lemma fori_pair m k : forall lo a b,
  fst (fori k lo (fun i (s : Q * Q) => (fst s + m i, snd s + m i * m i)) (a, b)) == a + tot m (seq lo k) /\
  snd (fori k lo (fun i (s : Q * Q) => (fst s + m i, snd s + m i * m i)) (a, b)) == b + tot (fun i => m i * m i) (seq lo k).
Proof.
  induction k as [|k IH]; intros lo a b; cbn [fori seq fst snd].
  - change (tot m []) with 0. change (tot (fun i => m i * m i) []) with 0. split; ring.
  - destruct (IH (S lo) (a + m lo) (b + m lo * m lo)) as [A B]. rewrite A, B, !tot_cons. split; ring.
Qed.
Lemma spread_alt n m : (1 <= n)%nat -> spread n m == over n (fun i => m i * m i) / nQ n - average n m * average n m.
Proof.
  intros H. assert (P := nQ_pos n ltac:(lia)). unfold spread. set (c := average n m).
  assert (E : over n (fun i => (m i - c) * (m i - c)) == over n (fun i => m i * m i) - 2 * c * over n m + c * c * nQ n).
  { rewrite !over_tot. assert (L : nQ n == tot (fun _ => 1) (seq 0 n)) by (rewrite tot_one, seq_length; reflexivity). rewrite L.
    assert (E1 : 2 * c * tot m (seq 0 n) == tot (fun i => m i * (2 * c)) (seq 0 n)) by (rewrite tot_scale; ring). rewrite E1.
    assert (E2 : c * c * tot (fun _ => 1) (seq 0 n) == tot (fun _ => 1 * (c * c)) (seq 0 n)) by (rewrite tot_scale; ring). rewrite E2.
    assert (E3 : tot (fun i => m i * m i) (seq 0 n) == tot (fun i => (m i - c) * (m i - c)) (seq 0 n) + tot (fun i => m i * (2 * c)) (seq 0 n) - tot (fun _ => 1 * (c * c)) (seq 0 n)).
    { assert (tot (fun i => m i * m i) (seq 0 n) + tot (fun _ => 1 * (c * c)) (seq 0 n) == tot (fun i => (m i - c) * (m i - c)) (seq 0 n) + tot (fun i => m i * (2 * c)) (seq 0 n)).
      { rewrite !tot_add. apply tot_ext. intros. ring. } lra. }
    rewrite E3. ring. }
  rewrite E. assert (C : c * nQ n == over n m) by (unfold c, average; field; lra). 
  assert (over n m == c * nQ n) as -> by lra. field. lra.
Qed.
Lemma spread_nonneg n m : 0 <= spread n m.
Proof. unfold spread. apply Qmult_le_0_compat; [|apply Qinv_le_0_compat; apply nQ_nonneg]. apply tot_nonneg. intros. apply sq_nonneg. Qed.
(** the clipping at zero never matters *)
Theorem epistemic_spread : forall n m, (1 <= n)%nat -> batched_epistemic_variance n m == spread n m.
Proof.
  intros n m H. unfold batched_epistemic_variance, fori_loop. cbv zeta. cbn [fst snd].
  destruct (fori_pair m (n - 1) 1 (0 + m 0%nat) (0 + m 0%nat * m 0%nat)) as [A B].
  set (s := fori _ _ _ _) in *. fold (nQ n).
  assert (A' : fst s == over n m). { rewrite A, over_tot, (seq_1 n H), tot_cons. ring. }
  assert (B' : snd s == over n (fun i => m i * m i)). { rewrite B, over_tot, (seq_1 n H), tot_cons. ring. }
  assert (E : snd s / nQ n - fst s / nQ n * (fst s / nQ n) == spread n m). { rewrite A', B', (spread_alt n m H). reflexivity. }
  assert (N := spread_nonneg n m). destruct (Q.max_spec 0 (snd s / nQ n - fst s / nQ n * (fst s / nQ n))) as [[C D]|[C D]]; rewrite D; lra.
Qed.
Theorem epistemic_zero : forall n m, (1 <= n)%nat -> 0 <= batched_epistemic_variance n m /\ (batched_epistemic_variance n m == 0 <-> forall i, (i < n)%nat -> m i == m 0%nat).
Proof.
  intros n m H. assert (P := nQ_pos n ltac:(lia)). rewrite (epistemic_spread n m H). split; [apply spread_nonneg|]. unfold spread. rewrite div_zero by lia.
  rewrite over_tot, tot_all_zero by (intros; apply sq_nonneg). set (c := average n m). split; intros X.
  - assert (Y : forall i, (i < n)%nat -> m i == c). { intros i Hi. assert (Z := X i ltac:(apply in_seq; lia)). apply (proj1 (sq_zero _)) in Z. lra. } intros i Hi. rewrite (Y i Hi), (Y 0%nat ltac:(lia)). reflexivity.
  - assert (C : c == m 0%nat). { unfold c, average. rewrite over_tot. rewrite (tot_ext _ (fun _ => 1 * m 0%nat)). rewrite tot_scale, tot_one, seq_length. field. lra. intros i Hi. apply in_seq in Hi. rewrite X by lia. ring. }
    intros i Hi. apply in_seq in Hi. rewrite C, X by lia. ring.
Qed.
Theorem variance_sum : forall n v m, (1 <= n)%nat -> (forall i, 0 <= v i) ->
  variance n None None v m == average n v + spread n m /\ 0 <= average n v /\ 0 <= spread n m /\
  forall a e, variance n (Some a) (Some e) v m = a + e.
Proof.
  intros n v m H Hv. unfold variance. rewrite (epistemic_spread n m H). destruct (mean_average n v H) as [_ A]. rewrite A. split; [reflexivity|]. split; [|split; [apply spread_nonneg|reflexivity]].
  unfold average. apply Qmult_le_0_compat; [|apply Qinv_le_0_compat; apply nQ_nonneg]. rewrite over_tot. apply tot_nonneg. auto.
Qed.
(** with the same samples, classification variance is that of the mean probability *)
Theorem class_total_variance : forall n p, (1 <= n)%nat ->
  variance n None None (fun i => class_variance (p i)) p == class_variance (batched_mean n p).
Proof.
  intros n p H. assert (P := nQ_pos n ltac:(lia)). unfold variance. rewrite (epistemic_spread n p H), (spread_alt n p H). destruct (mean_average n (fun i => class_variance (p i)) H) as [_ A]. rewrite A. destruct (mean_average n p H) as [B _].
  unfold class_variance at 2. rewrite B. unfold average at 1. assert (E : over n (fun i => class_variance (p i)) == over n p - over n (fun i => p i * p i)).
  { rewrite !over_tot. assert (X : tot p (seq 0 n) == tot (fun i => class_variance (p i)) (seq 0 n) + tot (fun i => p i * p i) (seq 0 n)). { rewrite tot_add. apply tot_ext. intros. unfold class_variance. ring. } lra. }
  rewrite E. unfold average. field. lra.
Qed.
Theorem class_variance_bound : forall p, class_variance p <= 1 # 4 /\ (0 <= p <= 1 -> 0 <= class_variance p).
Proof. intros p. unfold class_variance. split. assert (X := sq_nonneg (p - (1 # 2))). lra. intros [A B]. apply Qmult_le_0_compat; lra. Qed.
(** with different samples the two parts need not add up to it *)
Theorem different_samples_refuted : exists n p q, (1 <= n)%nat /\ (forall i, 0 <= p i <= 1 /\ 0 <= q i <= 1) /\
  ~ variance n None None (fun i => class_variance (p i)) q <= 1 # 4.
Proof.
  exists 2%nat, (fun _ => 1 # 2), (fun i => if (i =? 0)%nat then 0 else 1). split; [lia|]. split. { intros i. split; [split; discriminate|]. destruct (i =? 0)%nat; split; discriminate. } vm_compute. intros H. now apply H.
Qed.
(** the predictive mean of a classifier is a probability vector when the members' are *)
Theorem mean_mixture : forall n k p, (1 <= n)%nat -> (forall i, (i < n)%nat -> over k (p i) == 1 /\ forall c, 0 <= p i c) ->
  over k (fun c => batched_mean n (fun i => p i c)) == 1 /\ forall c, 0 <= batched_mean n (fun i => p i c) .
Proof.
  intros n k p H Hp. assert (P := nQ_pos n ltac:(lia)). split.
  - rewrite over_tot. rewrite (tot_ext _ (fun c => tot (fun i => p i c) (seq 0 n) * (/ nQ n))). 2: { intros c _. destruct (mean_average n (fun i => p i c) H) as [-> _]. reflexivity. }
    rewrite tot_scale, tot_swap. rewrite (tot_ext _ (fun _ => 1)). rewrite tot_one, seq_length. field. lra. intros i Hi. apply in_seq in Hi. apply Hp. lia.
  - intros c. destruct (mean_average n (fun i => p i c) H) as [-> _]. unfold average. apply Qmult_le_0_compat; [|apply Qinv_le_0_compat; lra]. rewrite over_tot. apply tot_nonneg. intros i Hi. apply in_seq in Hi. apply Hp. lia.
Qed.
Theorem mean_range : forall n m lo hi, (1 <= n)%nat -> (forall i, (i < n)%nat -> lo <= m i <= hi) -> lo <= batched_mean n m <= hi.
Proof.
  intros n m lo hi H Hm. assert (P := nQ_pos n ltac:(lia)). destruct (mean_average n m H) as [-> _]. unfold average. rewrite over_tot.
  assert (L : forall c, tot (fun _ => 1 * c) (seq 0 n) == c * nQ n) by (intros c; rewrite tot_scale, tot_one, seq_length; ring). split.
  - apply Qle_shift_div_l; [assumption|]. rewrite <- L. apply tot_le. intros i Hi. apply in_seq in Hi. specialize (Hm i ltac:(lia)). lra.
  - apply Qle_shift_div_r; [assumption|]. rewrite <- L. apply tot_le. intros i Hi. apply in_seq in Hi. specialize (Hm i ltac:(lia)). lra.
Qed.
