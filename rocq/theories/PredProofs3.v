(** Proofs about conformal sets and credible intervals. *)
From Coq Require Import List Arith ZArith QArith Qminmax Qabs Qround Bool Lia Lqa Sorting.Sorted Sorting.Permutation String.
From Verif Require Import Lib QuantModel QuantSpec QuantProofs ConfRegModel ConfRegProofs ConfClassModel ConfClassSpec ConfClassProofs ConfClassProofs2 MetricSpec MetricProofs MetricProofs2 PredModel PredSpec PredProofs PredProofs2.
Import ListNotations.
Local Notation length := List.length.
Open Scope Q_scope.

(** ---- sorting booleans ---- *)
Lemma bool_sort row : forall is, fold_right (arg_insert bool_le false row) [] is =
  (filter (fun i => negb (nth i row false)) is ++ filter (fun i => nth i row false) is)%list.
Proof.
  induction is as [|i is IH]; cbn [fold_right filter]; [reflexivity|]. rewrite IH. destruct (nth i row false) eqn:E; cbn [negb].
  - assert (X : forall l m, (forall j, In j l -> nth j row false = false) -> (forall j, In j m -> nth j row false = true) -> arg_insert bool_le false row i (l ++ m) = (l ++ i :: m)%list).
    { induction l as [|j l IHl]; intros m Hl Hm.
      - destruct m as [|j m]; cbn [app arg_insert]; [reflexivity|]. rewrite E, (Hm j (or_introl eq_refl)). reflexivity.
      - cbn [app arg_insert]. rewrite E, (Hl j (or_introl eq_refl)). cbn [bool_le implb]. rewrite IHl; [reflexivity| |assumption]. intros a Ha. apply Hl. now right. }
    apply X; intros j Hj; apply filter_In in Hj; destruct Hj as [_ Hj]. now apply negb_true_iff. assumption.
  - cbn [app]. destruct (filter _ is ++ filter _ is)%list as [|j l]; cbn [arg_insert]; [reflexivity|]. rewrite E. reflexivity.
Qed.
Lemma true_columns_filter row : true_columns row = filter (fun i => nth i row false) (seq 0 (length row)).
Proof.
  unfold true_columns. assert (X : forall r k pre, length pre = k -> map fst (filter snd (combine (seq k (length r)) r)) = filter (fun i => nth i (pre ++ r) false) (seq k (length r))).
  { induction r as [|b r IH]; intros k pre L; cbn [length seq combine filter map]; [reflexivity|].
    rewrite app_nth2 by lia. replace (k - length pre)%nat with 0%nat by lia. cbn [nth snd]. specialize (IH (S k) (pre ++ [b])%list). rewrite app_length in IH. specialize (IH ltac:(cbn; lia)). rewrite <- app_assoc in IH. cbn [app] in IH.
    destruct b; cbn [map fst]; now rewrite IH. }
  now apply (X row 0%nat []).
Qed.
Lemma sorted_columns row : rev (firstn (length (filter (fun b => b) row)) (rev (argsort bool_le false row))) = true_columns row.
Proof.
  unfold argsort. rewrite bool_sort, rev_app_distr. rewrite <- true_columns_length, true_columns_filter. set (m := filter (fun i => nth i row false) _). set (l := filter (fun i => negb _) _).
  replace (length m) with (length (rev m) + 0)%nat by (rewrite rev_length; lia). rewrite firstn_app_2. cbn [firstn]. now rewrite app_nil_r, rev_involutive.
Qed.
Lemma region_rows rows : length (region_sets rows) = length rows /\ forall i r, nth_error rows i = Some r -> nth_error (region_sets rows) i = Some (Some (true_columns r)).
Proof.
  unfold region_sets. cbv zeta. set (sizes := map _ rows). set (order := map (fun r => rev (argsort bool_le false r)) rows).
  destruct (group_fold (length rows) (fun i => nth i sizes 0%nat) (fun s i => Some (rev (firstn s (nth i order [])))) None (unique_nat sizes) (repeat None (length rows)) (repeat_length _ _)) as [A B].
  unfold group_step in A, B. split; [exact A|]. intros i r Hi. assert (Li : (i < length rows)%nat) by (apply nth_error_Some; congruence).
  erewrite nth_error_nth' by (rewrite A; exact Li). f_equal. rewrite (B i Li).
  assert (E : nth_error sizes i = Some (length (filter (fun b => b) r))). { unfold sizes. rewrite nth_error_map, Hi. reflexivity. }
  rewrite (nth_error_nth _ _ _ E). assert (O : nth i order [] = rev (argsort bool_le false r)). { apply nth_error_nth. unfold order. rewrite nth_error_map, Hi. reflexivity. }
  rewrite O. replace (existsb _ _) with true. now rewrite sorted_columns.
  symmetry. apply existsb_exists. exists (length (filter (fun b => b) r)). split; [|apply Nat.eqb_refl]. apply unique_nat_in. now apply nth_error_In in E.
Qed.

(** ---- weights ---- *)
Lemma dot_sum2 a b : dot a b == sum2 Qmult a b.
Proof.
  unfold dot. revert b. induction a as [|x a IH]; intros [|y b]; try reflexivity. change (zip_with Qmult (x :: a) (y :: b)) with ((x * y) :: zip_with Qmult a b). rewrite qsum_cons, IH. cbn [sum2]. reflexivity.
Qed.
Lemma dot_scaled w z b : ~ z == 0 -> dot (map (fun x => x / z) w) b * z == sum2 (fun a x => a * x) w b.
Proof.
  intros Z. rewrite dot_sum2. revert b. induction w as [|x w IH]; intros [|y b]; cbn [map sum2]; try ring. rewrite Qmult_plus_distr_l, IH. field. exact Z.
Qed.
Lemma prob_train_mean arr n w i : ~ total w == 0 -> (i < n)%nat -> weighted_mean w (column_at arr i) (nth i (prob_train arr n w) 0).
Proof.
  intros Z Hi. unfold weighted_mean, prob_train. cbv zeta. rewrite qsum_total. erewrite nth_error_nth. 2: { rewrite nth_error_map, (nth_error_nth' _ 0%nat) by (rewrite seq_length; exact Hi). rewrite seq_nth by exact Hi. reflexivity. }
  apply dot_scaled. exact Z.
Qed.
Lemma sum2_self (f : Q -> Q -> Q) w : sum2 f w w = total (map (fun x => f x x) w).
Proof. induction w as [|x w IH]; cbn [sum2 map]; [reflexivity|]. now rewrite IH. Qed.
Lemma prob_test_mean w : ~ total w == 0 -> weighted_mean w w (prob_test w).
Proof. intros Z. unfold weighted_mean, prob_test. rewrite sum2_self, !qsum_total. cbv beta. set (a := total (map _ w)). set (b := total w) in *. change (qsum w) with b. field. exact Z. Qed.
Lemma num_filter {A} (f : A -> bool) l : length (filter f l) = num f l.
Proof. induction l as [|x l IH]; cbn [filter num]; [reflexivity|]. destruct (f x); cbn [length]; rewrite IH; reflexivity. Qed.
Lemma rank_test_of arr n w : rank_test arr n w = rank_of (prob_test w) (prob_train arr n w).
Proof.
  unfold rank_test, rank_of. rewrite filter_app, app_length, num_filter. cbn [filter]. replace (Qle_bool (prob_test w) (prob_test w)) with true by (symmetry; apply Qleb_true, Qle_refl). cbn [length]. lia.
Qed.
Lemma in_region_iff arr n e w : in_region arr n e w = true <-> e * nQ (n + 1) < nQ (rank_of (prob_test w) (prob_train arr n w)).
Proof. unfold in_region. rewrite Qltb_true, rank_test_of. reflexivity. Qed.
Lemma test_grid_nth arr ntr nte k t c : nth_error (test_grid arr ntr nte k t) c = if (c <? k)%nat then Some (column_at arr (ntr + (c * nte + t))) else None.
Proof.
  unfold test_grid. rewrite nth_error_map. destruct (Nat.ltb_spec c k) as [H|H].
  - rewrite (nth_error_nth' _ 0%nat) by (rewrite seq_length; exact H). rewrite seq_nth by exact H. reflexivity.
  - replace (nth_error (seq 0 k) c) with (@None nat). reflexivity. symmetry. apply nth_error_None. now rewrite seq_length.
Qed.
Lemma conformal_row arr ntr nte k e t : (t < nte)%nat -> nth_error (conformal_sets arr ntr nte k e) t = Some (Some (true_columns (region arr ntr nte k e t))).
Proof. intros H. unfold conformal_sets. apply region_rows. rewrite nth_error_map, (nth_error_nth' _ 0%nat) by (rewrite seq_length; exact H). now rewrite seq_nth. Qed.
Lemma conformal_in arr ntr nte k e t c : In c (true_columns (region arr ntr nte k e t)) <->
  (c < k)%nat /\ in_region arr ntr e (column_at arr (ntr + (c * nte + t))) = true.
Proof.
  rewrite true_columns_in. unfold region. rewrite nth_error_map, test_grid_nth. destruct (Nat.ltb_spec c k) as [H|H]; cbn [option_map].
  - split. intros E. injection E as E. tauto. intros [_ ->]. reflexivity.
  - split. discriminate. lia.
Qed.

Lemma num_close n a b : a == b -> forall l m, (forall i, (i < n)%nat -> nth i l 0 == nth i m 0) -> length l = n -> length m = n ->
  num (fun p => Qle_bool p a) l = num (fun p => Qle_bool p b) m.
Proof.
  intros E. induction n as [|n IH]; intros [|x l] [|y m] N L Lp; try discriminate; [reflexivity|].
  cbn [num]. assert (X := N 0%nat ltac:(lia)). cbn [nth] in X. rewrite (IH l m); [|intros i Hi; apply (N (S i)); lia|cbn in L; lia|cbn in Lp; lia].
  f_equal. replace (Qle_bool x a) with (Qle_bool y b); [reflexivity|]. destruct (Qle_bool x a) eqn:Q1. apply Qleb_true in Q1. apply Qleb_true. lra. apply Qleb_false in Q1. apply Qleb_false. lra.
Qed.
Theorem conformal_sets_meaning : forall arr ntr nte k e t, (t < nte)%nat ->
  exists s, nth_error (conformal_sets arr ntr nte k e) t = Some (Some s) /\ ascending_labels s /\
  (forall c, In c s -> (c < k)%nat) /\
  forall c w trains test, (c < k)%nat -> w = column_at arr (ntr + (c * nte + t)) -> ~ total w == 0 ->
    length trains = ntr -> (forall i, (i < ntr)%nat -> weighted_mean w (column_at arr i) (nth i trains 0)) -> weighted_mean w w test ->
    (In c s <-> e * nQ (ntr + 1) < nQ (rank_of test trains)).
Proof.
  intros arr ntr nte k e t H. exists (true_columns (region arr ntr nte k e t)). split; [now apply conformal_row|]. split; [apply true_columns_sorted|]. split. { intros c Hc. now apply conformal_in in Hc. }
  intros c w trains test Hc -> Z L Tr Te. rewrite conformal_in, in_region_iff. set (w := column_at _ _) in *.
  assert (E1 : test == prob_test w). { assert (X := prob_test_mean w Z). unfold weighted_mean in *. apply (Qmult_inj_r _ _ (total w) Z). rewrite Te, X. reflexivity. }
  assert (E2 : rank_of test trains = rank_of (prob_test w) (prob_train arr ntr w)).
  { unfold rank_of. f_equal. assert (Lp : length (prob_train arr ntr w) = ntr) by (unfold prob_train; rewrite map_length, seq_length; reflexivity).
    assert (N : forall i, (i < ntr)%nat -> nth i trains 0 == nth i (prob_train arr ntr w) 0).
    { intros i Hi. assert (X := prob_train_mean arr ntr w i Z Hi). specialize (Tr i Hi). unfold weighted_mean in *. apply (Qmult_inj_r _ _ (total w) Z). rewrite Tr, X. reflexivity. }
    exact (num_close ntr _ _ E1 _ _ N L Lp). }
  rewrite E2. tauto.
Qed.
Theorem conformal_sets_length : forall arr ntr nte k e, length (conformal_sets arr ntr nte k e) = nte.
Proof. intros. unfold conformal_sets. destruct (region_rows (map (region arr ntr nte k e) (seq 0 nte))) as [-> _]. now rewrite map_length, seq_length. Qed.
Lemma rank_bounds x l : (1 <= rank_of x l <= S (length l))%nat.
Proof. unfold rank_of. assert (num (fun p => Qle_bool p x) l <= length l)%nat. { induction l as [|y l IH]; cbn [num length]; [lia|]. destruct (Qle_bool y x); lia. } lia. Qed.
Theorem conformal_sets_nested : forall arr ntr nte k e e' t s s', e' <= e -> (t < nte)%nat ->
  nth_error (conformal_sets arr ntr nte k e) t = Some (Some s) -> nth_error (conformal_sets arr ntr nte k e') t = Some (Some s') -> incl s s'.
Proof.
  intros arr ntr nte k e e' t s s' L H E E'. rewrite conformal_row in E, E' by assumption. injection E as <-. injection E' as <-.
  intros c Hc. apply conformal_in in Hc. apply conformal_in. destruct Hc as [K Hc]. split; [exact K|]. apply in_region_iff. apply (proj1 (in_region_iff _ _ _ _)) in Hc.
  assert (P := nQ_nonneg (ntr + 1)). nra.
Qed.
Theorem conformal_sets_extremes : forall arr ntr nte k e t s, (t < nte)%nat -> nth_error (conformal_sets arr ntr nte k e) t = Some (Some s) ->
  (e * nQ (ntr + 1) < 1 -> s = seq 0 k) /\ (1 <= e -> s = []).
Proof.
  intros arr ntr nte k e t s H E. rewrite conformal_row in E by assumption. injection E as <-. split; intros B.
  - rewrite true_columns_filter. assert (L : length (region arr ntr nte k e t) = k). { unfold region, test_grid. now rewrite !map_length, seq_length. } rewrite L.
    apply filter_all. apply forallb_forall. intros c Hc. apply in_seq in Hc. assert (X : In c (true_columns (region arr ntr nte k e t))).
    { apply conformal_in. split; [lia|]. apply in_region_iff. apply Qlt_le_trans with 1; [exact B|]. change 1 with (nQ 1). apply nQ_le. apply rank_bounds. }
    apply true_columns_in in X. now apply nth_error_nth.
  - destruct (true_columns _) as [|c s] eqn:E; [reflexivity|exfalso]. assert (X : In c (c :: s)) by now left. rewrite <- E in X. apply conformal_in in X. destruct X as [_ X]. apply (proj1 (in_region_iff _ _ _ _)) in X.
    assert (R := rank_bounds (prob_test (column_at arr (ntr + (c * nte + t)))) (prob_train arr ntr (column_at arr (ntr + (c * nte + t))))). set (rk := rank_of _ _) in *.
    assert (Lp : length (prob_train arr ntr (column_at arr (ntr + (c * nte + t)))) = ntr) by (unfold prob_train; rewrite map_length, seq_length; reflexivity). rewrite Lp in R.
    assert (Y : nQ rk <= nQ (ntr + 1)) by (apply nQ_le; lia). assert (P := nQ_nonneg (ntr + 1)). nra.
Qed.

(** ---- effective sample size ---- *)
Lemma total_sq_scaled w z : ~ z == 0 -> total (map (fun x => x * x) (map (fun x => x / z) w)) == total (map (fun x => x * x) w) / (z * z).
Proof.
  intros Z. induction w as [|x w IH]; cbn [map total fold_right]. change (fold_right Qplus 0 []) with 0. field. assumption. fold (total (map (fun x => x * x) (map (fun x => x / z) w))). fold (total (map (fun x => x * x) w)). rewrite IH. field. assumption.
Qed.
Lemma sq_le_sum w : Forall (fun x => 0 <= x) w -> 0 <= total w /\ total (map (fun x => x * x) w) <= total w * total w.
Proof.
  induction 1 as [|x w Hx F IH]. split; discriminate. change (total (x :: w)) with (x + total w). cbn [map]. change (total (x * x :: map (fun x => x * x) w)) with (x * x + total (map (fun x => x * x) w)). destruct IH as [A B]. split; [lra|]. assert (X := Qmult_le_0_compat _ _ Hx A). lra.
Qed.
Lemma nth_total f (w : list Q) : total (map f w) == over (length w) (fun i => f (nth i w 0)).
Proof. unfold over. rewrite <- (map_nth_self 0 w) at 1. rewrite map_map. reflexivity. Qed.
Theorem ess_range : forall w, w <> [] -> Forall (fun x => 0 < x) w -> 1 <= ess w <= nQ (length w) /\
  ((forall i, (i < length w)%nat -> nth i w 0 == nth 0 w 0) -> ess w == nQ (length w)).
Proof.
  intros w N F. assert (Ln : (0 < length w)%nat) by (destruct w; [congruence|cbn; lia]).
  assert (T : 0 < total w). { destruct F as [|x w Hx F]; [congruence|]. change (total (x :: w)) with (x + total w). assert (0 <= total w). { apply sq_le_sum. eapply Forall_impl; [|exact F]. cbn. intros. lra. } lra. }
  assert (S0 : 0 < total (map (fun x => x * x) w)). { clear T Ln. destruct F as [|x w Hx F]; [congruence|]. cbn [map]. change (total (x * x :: map (fun x => x * x) w)) with (x * x + total (map (fun x => x * x) w)). assert (0 <= total (map (fun x => x * x) w)). { apply (tot_nonneg (fun x => x * x)). intros. apply sq_nonneg. } assert (X := Qmult_lt_0_compat _ _ Hx Hx). lra. }
  assert (E : ess w == total w * total w / total (map (fun x => x * x) w)). { unfold ess. change qsum with total. rewrite total_sq_scaled by lra. field. split; lra. }
  assert (P := nQ_pos _ Ln). assert (V := spread_nonneg (length w) (fun i => nth i w 0)). assert (VA := spread_alt (length w) (fun i => nth i w 0) Ln).
  assert (A1 : over (length w) (fun i => nth i w 0) == total w). { rewrite <- (nth_total (fun x => x) w), map_id. reflexivity. }
  assert (A2 := nth_total (fun x => x * x) w). cbv beta in A2. 
  assert (VV : spread (length w) (fun i => nth i w 0) * (nQ (length w) * nQ (length w)) == total (map (fun x => x * x) w) * nQ (length w) - total w * total w).
  { rewrite VA. unfold average. rewrite A1, <- A2. field. lra. }
  split; [split|].
  - rewrite E. apply Qle_shift_div_l; [assumption|]. destruct (sq_le_sum w) as [_ X]. eapply Forall_impl; [|exact F]. cbn. intros. lra. lra.
  - rewrite E. apply Qle_shift_div_r; [assumption|]. assert (X : 0 <= spread (length w) (fun i => nth i w 0) * (nQ (length w) * nQ (length w))). { apply Qmult_le_0_compat; [assumption|]. apply sq_nonneg. } lra.
  - intros Eq. assert (Z : spread (length w) (fun i => nth i w 0) == 0). { rewrite <- (epistemic_spread (length w) (fun i => nth i w 0) Ln). now apply epistemic_zero. }
    assert (total w * total w == total (map (fun x => x * x) w) * nQ (length w)). { rewrite Z in VV. lra. } rewrite E, H. field. lra.
Qed.

(** ---- intervals ---- *)
Theorem interval_shape : forall layer e samples, samples <> [] -> e <= 1 ->
  (exists lo hi, credible_interval layer e "two-tailed" samples = Ok [lo; hi] /\ lo <= hi /\
     forall k, (k <= length samples)%nat -> nQ k + (1 # 2) * e * (nQ (length samples) - 1) <= nQ (length samples) ->
       (k <= num (fun x => Qle_bool lo x) samples)%nat /\ (k <= num (fun x => Qle_bool x hi) samples)%nat) /\
  (exists x, credible_interval layer e "left-tailed" samples = Ok [x] /\
     forall k, (k <= length samples)%nat -> nQ k + e * (nQ (length samples) - 1) <= nQ (length samples) -> (k <= num (fun y => Qle_bool x y) samples)%nat) /\
  (exists x, credible_interval layer e "right-tailed" samples = Ok [x] /\
     forall k, (k <= length samples)%nat -> nQ k + e * (nQ (length samples) - 1) <= nQ (length samples) -> (k <= num (fun y => Qle_bool y x) samples)%nat).
Proof.
  intros layer e samples N E1.
  assert (QP : forall q, qpos samples q == q * (nQ (length samples) - 1)). { intros q. unfold qpos, nQ. try ring. }
  assert (GE : forall v, n_ge v samples = num (fun x => Qle_bool v x) samples) by (intros; apply num_filter).
  assert (LE : forall v, n_le v samples = num (fun x => Qle_bool x v) samples) by (intros; apply num_filter).
  assert (B : forall e' k, (k <= length samples)%nat -> nQ k + e' * (nQ (length samples) - 1) <= nQ (length samples) ->
    (k <= num (fun x => Qle_bool (quantile samples e') x) samples)%nat /\ (k <= num (fun x => Qle_bool x (quantile samples (1 - e'))) samples)%nat).
  { intros e' k K X. rewrite <- GE, <- LE. split.
    - apply quantile_n_ge; [exact K|]. rewrite QP. change (qlen samples) with (nQ (length samples)). change (inject_Z (Z.of_nat k)) with (nQ k). lra.
    - apply quantile_n_le; [exact K|]. rewrite QP. change (inject_Z (Z.of_nat k)) with (nQ k). lra. }
  split; [|split].
  - exists (quantile samples ((1 # 2) * e)), (quantile samples (1 - (1 # 2) * e)). split; [reflexivity|]. split. apply quantile_mono_q; [assumption|lra]. intros k K X. now apply B.
  - exists (quantile samples e). split; [reflexivity|]. intros k K X. now apply B.
  - exists (quantile samples (1 - e)). split; [reflexivity|]. intros k K X. now apply B.
Qed.
Theorem interval_unknown : forall layer e kind samples, kind <> "two-tailed"%string -> kind <> "left-tailed"%string -> kind <> "right-tailed"%string ->
  credible_interval layer e kind samples = Err (if layer then IndexError else ValueError).
Proof.
  intros layer e kind samples A B C. unfold credible_interval, interval_levels. destruct (String.eqb_spec kind "two-tailed"); [contradiction|]. destruct (String.eqb_spec kind "left-tailed"); [contradiction|]. destruct (String.eqb_spec kind "right-tailed"); [contradiction|]. reflexivity.
Qed.
Theorem interval_nested : forall layer e e' samples lo hi lo' hi', samples <> [] -> e' <= e ->
  credible_interval layer e "two-tailed" samples = Ok [lo; hi] -> credible_interval layer e' "two-tailed" samples = Ok [lo'; hi'] -> lo' <= lo /\ hi <= hi'.
Proof.
  intros layer e e' samples lo hi lo' hi' N L E E'. injection E as <- <-. injection E' as <- <-. split; apply quantile_mono_q; try assumption; lra.
Qed.
