(** Proofs about the effective sample size. *)
From Coq Require Import List Arith ZArith QArith Qminmax Bool Lia Lqa.
From Verif Require Import Lib QuantModel QuantProofs ConfRegModel ConfClassModel ConfClassProofs2 MetricSpec MetricProofs MetricProofs2 PredModel PredSpec PredProofs3 McmcModel McmcSpec McmcProofs2.
Import ListNotations.
Open Scope Q_scope.

Lemma dot_nil_r l : dot l [] = 0.
Proof. now destruct l. Qed.
Lemma dot_cons x l y m : dot (x :: l) (y :: m) == x * y + dot l m.
Proof. unfold dot, zip_with. cbn [combine map]. now rewrite qsum_cons. Qed.
Lemma qsum_app a b : qsum (a ++ b) == qsum a + qsum b.
Proof. induction a as [|x a IH]; cbn [app]. change (qsum []) with 0. lra. rewrite !qsum_cons, IH. lra. Qed.
Lemma qsum_map_ext {A} (f g : A -> Q) l : (forall x, In x l -> f x == g x) -> qsum (map f l) == qsum (map g l).
Proof. induction l as [|x l IH]; intros H; cbn [map]; [reflexivity|]. rewrite !qsum_cons, (H x (or_introl eq_refl)), IH; [reflexivity|]. intros y Hy. apply H. now right. Qed.
Lemma qsum_map_add {A} (f g : A -> Q) l : qsum (map (fun x => f x + g x) l) == qsum (map f l) + qsum (map g l).
Proof. induction l as [|x l IH]; cbn [map]. reflexivity. rewrite !qsum_cons, IH. lra. Qed.
Lemma qsum_map_scale {A} c (f : A -> Q) l : qsum (map (fun x => c * f x) l) == c * qsum (map f l).
Proof. induction l as [|x l IH]; cbn [map]. change (qsum []) with 0. lra. rewrite !qsum_cons, IH. lra. Qed.
Lemma lag_cons x l k : (k < length l)%nat -> lag_sum (x :: l) (Datatypes.S k) == x * nth k l 0 + lag_sum l (Datatypes.S k).
Proof.
  intros H. unfold lag_sum. cbn [skipn]. revert k H. assert (G : forall l k, (k < length l)%nat -> exists m, skipn k l = nth k l 0 :: m /\ skipn (Datatypes.S k) l = m).
  { clear. induction l as [|a l IH]; intros k H; [cbn in H; lia|]. destruct k as [|k]; cbn [skipn nth]; [eauto|]. cbn in H. destruct (IH k ltac:(lia)) as (m & A & B). exists m. split; [exact A|exact B]. }
  intros k H. destruct (G l k H) as (m & A & B). rewrite A, dot_cons. rewrite <- B. reflexivity.
Qed.
Lemma map_nth_seq (l : list Q) : map (fun k => nth k l 0) (seq 0 (length l)) = l.
Proof. apply (nth_ext _ _ 0 0). now rewrite map_length, seq_length. intros n H. rewrite map_length, seq_length in H. rewrite (nth_indep _ 0 ((fun k => nth k l 0) 0%nat)) by (now rewrite map_length, seq_length). rewrite (map_nth (fun k => nth k l 0)), seq_nth by exact H. reflexivity. Qed.
(** all lags together give the square of the sum *)
Lemma lags_square xs : 2 * qsum (map (lag_sum xs) (seq 0 (length xs))) - lag_sum xs 0 == qsum xs * qsum xs.
Proof.
  assert (G : lag_sum xs 0 + 2 * qsum (map (fun k => lag_sum xs (Datatypes.S k)) (seq 0 (length xs - 1))) == qsum xs * qsum xs).
  { induction xs as [|x l IH]. reflexivity. cbn [length]. rewrite Nat.sub_succ, Nat.sub_0_r. rewrite qsum_cons.
    rewrite (qsum_map_ext (fun k => lag_sum (x :: l) (Datatypes.S k)) (fun k => x * nth k l 0 + lag_sum l (Datatypes.S k))). 2: { intros k Hk. apply in_seq in Hk. apply lag_cons. lia. }
    rewrite qsum_map_add, qsum_map_scale, map_nth_seq.
    assert (L : qsum (map (fun k => lag_sum l (Datatypes.S k)) (seq 0 (length l))) == qsum (map (fun k => lag_sum l (Datatypes.S k)) (seq 0 (length l - 1)))).
    { destruct (length l) as [|n] eqn:E; [reflexivity|]. rewrite Nat.sub_succ, Nat.sub_0_r. rewrite seq_S, map_app, qsum_app. cbn [map Nat.add]. unfold lag_sum at 2. rewrite skipn_all2 by lia. rewrite dot_nil_r. change (qsum [0]) with (0 + 0). lra. }
    rewrite L. unfold lag_sum at 1. cbn [skipn]. rewrite dot_cons. change (dot l l) with (lag_sum l 0). assert (X := IH). nra. }
  destruct xs as [|x l]; [reflexivity|]. cbn [length] in *. rewrite Nat.sub_succ, Nat.sub_0_r in G. cbn [seq map]. rewrite qsum_cons, <- seq_shift, map_map. rewrite <- G. lra.
Qed.
Lemma qsum_shift m l : qsum (map (fun x => x - m) l) == qsum l - nQ (length l) * m.
Proof. induction l as [|x l IH]; cbn [map length]. change (0 == 0 - 0 * m). ring. rewrite !qsum_cons, IH, nQ_succ. ring. Qed.
Lemma centred_sum xs : qsum (centred xs) == 0.
Proof.
  destruct xs as [|x l]; [reflexivity|]. unfold centred. rewrite qsum_shift. change (inject_Z (Z.of_nat (length (x :: l)))) with (nQ (length (x :: l))). assert (P : 0 < nQ (length (x :: l))) by (apply nQ_pos; cbn; lia). field. lra.
Qed.
Lemma centred_length xs : length (centred xs) = length xs.
Proof. apply map_length. Qed.
Lemma auto_corr_0 xs : ~ auto_cov xs 0 == 0 -> auto_corr xs 0 == 1.
Proof. intros H. unfold auto_corr. now field. Qed.
Lemma weighted_term xs k : (k < length xs)%nat -> ~ auto_cov xs 0 == 0 -> ess_weight (length xs) k * auto_corr xs k == lag_sum (centred xs) k / lag_sum (centred xs) 0.
Proof.
  intros H Z. unfold ess_weight, auto_corr, auto_cov in *. rewrite Nat.sub_0_r in *. change (inject_Z (Z.of_nat (length xs))) with (nQ (length xs)) in *. change (inject_Z (Z.of_nat (length xs - k))) with (nQ (length xs - k)).
  assert (P : 0 < nQ (length xs)) by (apply nQ_pos; lia). assert (P2 : 0 < nQ (length xs - k)) by (apply nQ_pos; lia).
  assert (L0 : ~ lag_sum (centred xs) 0 == 0). { intros X. apply Z. rewrite X. field. lra. } field. repeat split; try lra; exact L0.
Qed.
(** without a filter threshold the denominator vanishes for every chain *)
Theorem ess_unfiltered : forall xs, chain_ess xs None = None.
Proof.
  intros xs. unfold chain_ess. destruct (Qeq_bool (auto_cov xs 0) 0) eqn:E; [reflexivity|]. apply Qeq_bool_neq in E.
  assert (X : ess_denominator xs None == 0).
  { unfold ess_denominator. rewrite (qsum_map_ext _ (fun k => (/ lag_sum (centred xs) 0) * lag_sum (centred xs) k)). 2: { intros k Hk. apply in_seq in Hk. rewrite weighted_term by (assumption || lia). unfold Qdiv. ring. }
    rewrite qsum_map_scale. assert (S2 := lags_square (centred xs)). rewrite centred_sum, centred_length in S2. 
    assert (L0 : ~ lag_sum (centred xs) 0 == 0). { intros Z. apply E. unfold auto_cov. rewrite Z. unfold Qdiv. ring. }
    set (T := qsum (map (lag_sum (centred xs)) (seq 0 (length xs)))) in *. set (L := lag_sum (centred xs) 0) in *. change (map (fun k => lag_sum (centred xs) k)) with (map (lag_sum (centred xs))). fold T. assert (TT : T == L / 2). { setoid_replace (0 * 0) with 0 in S2 by ring. assert (2 * T == L) by lra. rewrite <- H. field. } rewrite TT. field. exact L0. }
  apply Qeq_bool_iff in X. rewrite X. reflexivity.
Qed.
Lemma mask_le t : forall corrs below j, (j < length corrs)%nat -> let m := nth j (ess_mask t below corrs) 0 in 0 <= m /\ (nth j corrs 0 < t -> m == 0).
Proof.
  induction corrs as [|c r IH]; intros below j H; [cbn in H; lia|]. cbn [ess_mask]. destruct j as [|j].
  - cbn [nth]. split; [apply Q.le_max_r|]. intros L. apply Qltb_true in L. rewrite L. apply Q.max_r. change (inject_Z (Z.of_nat (1 + below))) with (nQ (Datatypes.S below)). rewrite nQ_succ. pose proof (nQ_ge0 below). lra.
  - cbn [nth]. apply IH. cbn in H. lia.
Qed.
Lemma mask_length t : forall corrs below, length (ess_mask t below corrs) = length corrs.
Proof. induction corrs as [|c r IH]; intros below; [reflexivity|]. cbn [ess_mask length]. now rewrite IH. Qed.
Lemma qsum_nonneg2 l : (forall x, In x l -> 0 <= x) -> 0 <= qsum l.
Proof. intros H. induction l as [|x l IH]. discriminate. rewrite qsum_cons. assert (A := H x (or_introl eq_refl)). specialize (IH (fun y Hy => H y (or_intror Hy))). lra. Qed.
Lemma zip_mult_nonneg a b : length a = length b -> (forall j, (j < length a)%nat -> 0 <= nth j a 0 * nth j b 0) -> 0 <= qsum (zip_with Qmult a b).
Proof.
  revert b. induction a as [|x a IH]; intros [|y b] L H; try discriminate. injection L as L. unfold zip_with in *. cbn [combine map fst snd]. rewrite qsum_cons. assert (A := H 0%nat ltac:(cbn; lia)). cbn [nth] in A. specialize (IH b L). assert (B : forall j, (j < length a)%nat -> 0 <= nth j a 0 * nth j b 0). { intros j Hj. apply (H (Datatypes.S j)). cbn. lia. } specialize (IH B). lra.
Qed.
Lemma nth_map_seq (f : nat -> Q) j n : (j < n)%nat -> nth j (map f (seq 0 n)) 0 = f j.
Proof. intros H. rewrite (nth_indep _ 0 (f 0%nat)) by (now rewrite map_length, seq_length). rewrite map_nth, seq_nth by exact H. reflexivity. Qed.
Lemma ess_denominator_ge xs t : 0 <= t <= 1 -> ~ auto_cov xs 0 == 0 -> (0 < length xs)%nat -> 1 <= ess_denominator xs (Some t).
Proof.
  intros [T0 T1] Z N. unfold ess_denominator. set (n := length xs) in *.
  assert (G : forall k, (k < n)%nat -> 0 <= nth k (map (fun k => ess_weight n k * auto_corr xs k) (seq 0 n)) 0 * nth k (ess_mask t 0 (map (auto_corr xs) (seq 0 n))) 0).
  { intros k Hk. rewrite nth_map_seq by exact Hk. destruct (mask_le t (map (auto_corr xs) (seq 0 n)) 0 k) as [A B]. { now rewrite map_length, seq_length. } rewrite nth_map_seq in B by exact Hk.
    assert (W : 0 <= ess_weight n k). { unfold ess_weight. change (0 <= nQ (n - k) / nQ n). apply Qle_shift_div_l. apply nQ_pos. lia. pose proof (nQ_ge0 (n - k)). lra. }
    destruct (Qlt_le_dec (auto_corr xs k) t) as [C|C]. { rewrite (B C). lra. } apply Qmult_le_0_compat; [|exact A]. apply Qmult_le_0_compat; [exact W|lra]. }
  clearbody n. destruct n as [|n]; [lia|]. cbn [seq map ess_mask] in *. unfold zip_with. cbn [combine map fst snd]. fold (zip_with Qmult). rewrite qsum_cons.
  assert (C0 := auto_corr_0 xs Z). assert (W0 : ess_weight (Datatypes.S n) 0 == 1). { unfold ess_weight. rewrite Nat.sub_0_r. change (nQ (Datatypes.S n) / nQ (Datatypes.S n) == 1). field. assert (0 < nQ (Datatypes.S n)) by (apply nQ_pos; lia). lra. }
  assert (B0 : Qlt_bool (auto_corr xs 0) t = false). { apply Qltb_false. rewrite C0. exact T1. } rewrite B0 in *. cbn [Nat.add] in *.
  assert (M0 : Qmax (1 - inject_Z (Z.of_nat 0)) 0 == 1). { change (inject_Z (Z.of_nat 0)) with 0. apply Q.max_l. lra. }
  rewrite C0, W0, M0. match goal with |- context [qsum (map (fun p => fst p * snd p) (combine ?a ?b))] => assert (R : 0 <= qsum (zip_with Qmult a b)) end.
  { apply zip_mult_nonneg. { rewrite mask_length, !map_length. reflexivity. } intros j Hj. rewrite map_length, seq_length in Hj. apply (G (Datatypes.S j)). lia. }
  unfold zip_with in R. lra.
Qed.
Theorem ess_range : forall xs t, 0 <= t <= 1 -> ~ auto_cov xs 0 == 0 -> exists e, chain_ess xs (Some t) = Some e /\ 0 < e <= nQ (length xs).
Proof.
  intros xs t T Z. assert (N : (0 < length xs)%nat). { destruct xs; [exfalso; apply Z; reflexivity|cbn; lia]. } assert (D := ess_denominator_ge xs t T Z N). unfold chain_ess.
  destruct (Qeq_bool (auto_cov xs 0) 0) eqn:E. { apply Qeq_bool_iff in E. contradiction. }
  destruct (Qeq_bool (ess_denominator xs (Some t)) 0) eqn:F. { apply Qeq_bool_iff in F. lra. }
  eexists. split; [reflexivity|]. change (inject_Z (Z.of_nat (length xs))) with (nQ (length xs)). assert (P := nQ_pos _ N). split.
  - apply Qlt_shift_div_l; lra.
  - apply Qle_shift_div_r; [lra|]. nra.
Qed.
Lemma mask_zero t : forall corrs below, (1 <= below)%nat -> forall m, In m (ess_mask t below corrs) -> m == 0.
Proof.
  induction corrs as [|c r IH]; intros below H m Hm; [destruct Hm|]. cbn [ess_mask] in Hm. destruct Hm as [<-|Hm].
  - apply Q.max_r. change (inject_Z (Z.of_nat ((if Qlt_bool c t then 1 else 0) + below))) with (nQ ((if Qlt_bool c t then 1 else 0) + below)). assert (1 <= nQ ((if Qlt_bool c t then 1 else 0) + below)); [|lra]. change 1 with (nQ 1). apply nQ_le. lia.
  - apply (IH _) in Hm; [exact Hm|]. lia.
Qed.
(** the autocorrelation at lag 0 is 1; a larger threshold masks everything *)
Theorem ess_high_threshold : forall xs t, 1 < t -> ~ auto_cov xs 0 == 0 -> exists e, chain_ess xs (Some t) = Some e /\ e == - nQ (length xs).
Proof.
  intros xs t T Z. unfold chain_ess. destruct (Qeq_bool (auto_cov xs 0) 0) eqn:E. { apply Qeq_bool_iff in E. contradiction. }
  assert (D : ess_denominator xs (Some t) == -1).
  { unfold ess_denominator. assert (Q0 : forall a b, (forall m, In m b -> m == 0) -> qsum (zip_with Qmult a b) == 0). { induction a as [|x a IH]; intros [|y b] H; try reflexivity. unfold zip_with in *. cbn [combine map fst snd]. rewrite qsum_cons, IH, (H y (or_introl eq_refl)). ring. intros m Hm. apply H. now right. }
    rewrite Q0. reflexivity. destruct xs as [|x l]; [intros m []|]. cbn [length seq map ess_mask]. assert (B0 : Qlt_bool (auto_corr (x :: l) 0) t = true). { apply Qltb_true. rewrite auto_corr_0 by exact Z. exact T. } rewrite B0. intros m [<-|Hm]. reflexivity. refine (mask_zero t _ _ _ m Hm). lia. }
  destruct (Qeq_bool (ess_denominator xs (Some t)) 0) eqn:F. { apply Qeq_bool_iff in F. rewrite D in F. discriminate. }
  eexists. split; [reflexivity|]. rewrite D. change (inject_Z (Z.of_nat (length xs))) with (nQ (length xs)). field.
Qed.
(** a chain stuck at one value has no effective sample size *)
Theorem ess_constant : forall x n t, chain_ess (repeat x n) t = None.
Proof.
  intros x n t. unfold chain_ess. assert (Z : auto_cov (repeat x n) 0 == 0).
  { destruct n as [|n]; [reflexivity|]. unfold auto_cov, lag_sum. cbn [skipn]. assert (A : forall y, In y (centred (repeat x (Datatypes.S n))) -> y == 0).
    { intros y Hy. unfold centred in Hy. apply in_map_iff in Hy. destruct Hy as (z & <- & Hz). apply repeat_spec in Hz. subst z.
      assert (S0 : forall m, qsum (repeat x m) == nQ m * x). { induction m as [|m IH]; cbn [repeat]. change (0 == 0 * x). ring. rewrite qsum_cons, IH, nQ_succ. ring. }
      rewrite S0, repeat_length. change (inject_Z (Z.of_nat (Datatypes.S n))) with (nQ (Datatypes.S n)). assert (0 < nQ (Datatypes.S n)) by (apply nQ_pos; lia). field. lra. }
    assert (D : forall l, (forall y, In y l -> y == 0) -> dot l l == 0). { induction l as [|y l IH]; intros H. reflexivity. rewrite dot_cons, IH, (H y (or_introl eq_refl)). ring. intros z Hz. apply H. now right. }
    rewrite (D _ A). unfold Qdiv. ring. }
  apply Qeq_bool_iff in Z. now rewrite Z.
Qed.
