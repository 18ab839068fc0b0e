(** Proofs about binary temperature scaling. *)
From Coq Require Import List Arith ZArith QArith Qminmax Qabs Bool Lia Lqa.
From Verif Require Import Lib QuantModel QuantProofs ConfRegModel ConfClassModel ConfClassProofs3 MetricModel MetricSpec MetricProofs MetricProofs2 TempModel TempSpec.
Import ListNotations.
Open Scope Q_scope.

Lemma nz_eqb t : ~ t == 0 -> Qeq_bool t 0 = false.
Proof. intros H. destruct (Qeq_bool t 0) eqn:E; [|reflexivity]. apply Qeq_bool_eq in E. contradiction. Qed.
Lemma qclip_cases x : clipped_div 1 x (qclip 0 1 x) /\ in_unit (qclip 0 1 x).
Proof.
  unfold clipped_div, qclip, in_unit. assert (E : x / 1 == x) by field. rewrite E.
  destruct (Q.max_spec x 0) as [[A B]|[A B]]; destruct (Q.min_spec 1 (Qmax x 0)) as [[C D]|[C D]]; rewrite D || idtac; repeat split; intros; try rewrite D; try rewrite B; try lra; try (rewrite B in C; lra).
Qed.
Lemma scaled_nz t p : ~ t == 0 -> exists c, scaled t p = Some c /\ in_unit c /\ clipped_div t p c.
Proof.
  intros H. unfold scaled. rewrite nz_eqb by assumption. eexists. split; [reflexivity|]. destruct (qclip_cases (p / t)) as [A B]. split; [assumption|].
  unfold clipped_div in *. assert (E : p / t / 1 == p / t) by (field; assumption). rewrite E in A. assumption.
Qed.

Lemma pred_length t ps : length (predict_proba t ps) = length ps. Proof. apply map_length. Qed.
Theorem proba_values : forall t ps, ~ t == 0 ->
  length (predict_proba t ps) = length ps /\ forall i p, nth_error ps i = Some p -> exists c, nth_error (predict_proba t ps) i = Some (Some c) /\ in_unit c /\ clipped_div t p c.
Proof.
  intros t ps H. split; [apply pred_length|]. intros i p Hp. destruct (scaled_nz t p H) as [c [E [U C]]]. exists c. split; [|now split].
  unfold predict_proba. rewrite nth_error_map, Hp. cbn [option_map]. now rewrite E.
Qed.
Lemma div_mono t p q : 0 < t -> p <= q -> p / t <= q / t.
Proof. intros Ht H. unfold Qdiv. apply Qmult_le_compat_r; [assumption|]. apply Qlt_le_weak. now apply Qinv_lt_0_compat. Qed.
Theorem proba_order : forall t p q c d, 0 < t -> p <= q -> scaled t p = Some c -> scaled t q = Some d -> c <= d.
Proof.
  intros t p q c d Ht H E1 E2. assert (N : ~ t == 0) by lra.
  destruct (scaled_nz t p N) as [c' [F1 [U1 C1]]]. destruct (scaled_nz t q N) as [d' [F2 [U2 C2]]]. rewrite E1 in F1. rewrite E2 in F2. injection F1 as <-. injection F2 as <-.
  assert (M := div_mono t p q Ht H). unfold clipped_div, in_unit in *.
  destruct (Qlt_le_dec (p / t) 0) as [A|A]. { rewrite (proj1 C1) by assumption. lra. }
  destruct (Qlt_le_dec 1 (q / t)) as [B|B]. { rewrite (proj2 (proj2 C2)) by assumption. lra. }
  rewrite (proj1 (proj2 C1)) by lra. rewrite (proj1 (proj2 C2)) by lra. assumption.
Qed.
Theorem proba_identity : forall p, in_unit p -> exists c, scaled 1 p = Some c /\ c == p.
Proof.
  intros p U. destruct (scaled_nz 1 p ltac:(lra)) as [c [E [_ [_ [C _]]]]]. exists c. split; [assumption|]. assert (p / 1 == p) by field. unfold in_unit in U. rewrite H in C. apply C. lra.
Qed.

(** ---- sums ---- *)
Lemma qmean_total l : qmean l = total l / nQ (length l). Proof. reflexivity. Qed.
Lemma tot_map {A B} (f : B -> Q) (g : A -> B) l : tot f (map g l) = tot (fun x => f (g x)) l.
Proof. unfold tot. now rewrite map_map. Qed.
Lemma total_tot l : total l = tot (fun x => x) l. Proof. unfold tot. now rewrite map_id. Qed.
Lemma total_map {A} (f : A -> Q) l : total (map f l) = tot f l. Proof. reflexivity. Qed.
Lemma qeq_bool_iff a b : Qeq_bool a b = true <-> a == b.
Proof. apply Qeq_bool_iff. Qed.
Lemma np_div_some a b t : np_div a b = Some t -> ~ b == 0 /\ t = a / b.
Proof. unfold np_div. destruct (Qeq_bool b 0) eqn:E; [discriminate|]. intros H. injection H as <-. split; [|reflexivity]. intros X. rewrite <- qeq_bool_iff in X. congruence. Qed.
Lemma np_div_none a b : np_div a b = None <-> b == 0.
Proof. unfold np_div. destruct (Qeq_bool b 0) eqn:E. apply qeq_bool_iff in E. tauto. split; [discriminate|]. intros X. rewrite <- qeq_bool_iff in X. congruence. Qed.

Lemma mean_scaled_eq t ps : ~ t == 0 -> mean_scaled t ps == qmean ps / t.
Proof.
  intros H. unfold mean_scaled. rewrite total_map. rewrite (tot_ext _ (fun p => p * (/ t))) by reflexivity. rewrite (tot_scale (fun p => p) (/ t) ps).
  unfold qmean, qlen. rewrite <- total_tot. destruct ps as [|p ps]. unfold Qdiv. change (total []) with 0. change (qsum []) with 0. ring.
  assert (P := nQ_pos (length (p :: ps)) ltac:(cbn; lia)). change (inject_Z (Z.of_nat (length (p :: ps)))) with (nQ (length (p :: ps))). change (qsum (p :: ps)) with (total (p :: ps)). field. split; [lra|assumption] || (split; [assumption|lra]).
Qed.
Theorem bias_mean : forall ps ys t, ps <> [] -> length ps = length ys -> fit_bias ps ys = Some t -> ~ t == 0 -> mean_scaled t ps == target_mean ys.
Proof.
  intros ps ys t Hne L E Ht. apply np_div_some in E. destruct E as [N ->]. rewrite mean_scaled_eq by assumption.
  assert (~ qmean ps == 0). { intros X. apply Ht. rewrite X. field. assumption. }
  assert (qmean (map inject_Z ys) == target_mean ys). { unfold target_mean. rewrite qmean_total, map_length. reflexivity. }
  rewrite <- H0. field. split; assumption.
Qed.
Lemma clip_le x c t : clipped_div t x c -> 0 <= x / t -> c <= x / t /\ (c == x / t <-> x / t <= 1).
Proof.
  intros [C1 [C2 C3]] H. destruct (Qlt_le_dec 1 (x / t)) as [A|A].
  - rewrite C3 by assumption. split; [lra|]. split; lra.
  - rewrite C2 by lra. split; [lra|]. split; lra.
Qed.
Theorem bias_clipped : forall ps ys t, ps <> [] -> length ps = length ys -> Forall (fun p => 0 <= p) ps -> fit_bias ps ys = Some t -> 0 < t ->
  let m := total (map value (predict_proba t ps)) / nQ (length ps) in
  m <= target_mean ys /\ (m == target_mean ys <-> Forall (fun p => p <= t) ps).
Proof.
  intros ps ys t Hne L F E Ht m. assert (N : ~ t == 0) by lra. rewrite <- (bias_mean ps ys t Hne L E N).
  assert (P := nQ_pos _ (ne_len _ Hne)).
  assert (X : forall p, 0 <= p -> value (scaled t p) <= p / t /\ (value (scaled t p) == p / t <-> p <= t)).
  { intros p Hp. destruct (scaled_nz t p N) as [c [-> [_ C]]]. cbn [value]. assert (D : 0 <= p / t) by (apply Qle_shift_div_l; lra).
    destruct (clip_le p c t C D) as [A B]. split; [assumption|]. rewrite B. split; intros H.
    - assert (p == p / t * t) as -> by (field; assumption). assert (p / t * t <= 1 * t) by (apply Qmult_le_compat_r; lra). lra.
    - apply Qle_shift_div_r; lra. }
  assert (Y : m == tot (fun p => value (scaled t p)) ps / nQ (length ps)). { unfold m, predict_proba. rewrite map_map. reflexivity. }
  assert (Z : mean_scaled t ps == tot (fun p => p / t) ps / nQ (length ps)) by reflexivity.
  rewrite Y, Z. assert (D : tot (fun p => value (scaled t p)) ps <= tot (fun p => p / t) ps).
  { apply tot_le. intros p Hp. apply X. rewrite Forall_forall in F. now apply F. }
  split. { unfold Qdiv. apply Qmult_le_compat_r; [assumption|]. apply Qinv_le_0_compat. lra. }
  assert (E0 : tot (fun p => value (scaled t p)) ps / nQ (length ps) == tot (fun p => p / t) ps / nQ (length ps) <-> tot (fun p => p / t - value (scaled t p)) ps == 0).
  { assert (tot (fun p => p / t) ps == tot (fun p => p / t - value (scaled t p)) ps + tot (fun p => value (scaled t p)) ps) as S0.
    { rewrite tot_add. apply tot_ext. intros. ring. }
    rewrite S0. set (a := tot (fun p => value (scaled t p)) ps). set (b := tot (fun p => p / t - value (scaled t p)) ps). split; intros H.
    - assert (b == ((b + a) / nQ (length ps) - a / nQ (length ps)) * nQ (length ps)) as -> by (field; lra). rewrite <- H. ring.
    - rewrite H. field. lra. }
  rewrite E0, tot_all_zero.
  2: { intros p Hp. rewrite Forall_forall in F. destruct (X p (F p Hp)). lra. }
  rewrite Forall_forall in *. split; intros H p Hp; specialize (H p Hp); destruct (X p (F p Hp)) as [A B].
  - apply B. lra.
  - apply B in H. rewrite H. ring.
Qed.

(** ---- Brier ---- *)
Lemma sum2_tot {A B} (f : A -> B -> Q) l : forall m, sum2 f l m = tot (fun p => f (fst p) (snd p)) (combine l m).
Proof. induction l as [|x l IH]; intros [|y m]; try reflexivity. cbn [sum2 combine]. rewrite tot_cons, IH. reflexivity. Qed.
Lemma quadratic ps : forall ys a, length ps = length ys ->
  sum2 (fun p y => (p * a - inject_Z y) * (p * a - inject_Z y)) ps ys ==
  a * a * total (map (fun p => p * p) ps) - 2 * (a * sum2 (fun p y => p * inject_Z y) ps ys) + total (map (fun y => inject_Z y * inject_Z y) ys).
Proof.
  induction ps as [|p ps IH]; intros [|y ys] a L; try discriminate. change (0 == a * a * 0 - 2 * (a * 0) + 0). ring.
  injection L as L. cbn [sum2 map]. rewrite (IH ys a L).
  change (total (p * p :: map (fun p => p * p) ps)) with (p * p + total (map (fun p => p * p) ps)).
  change (total (inject_Z y * inject_Z y :: map (fun y => inject_Z y * inject_Z y) ys)) with (inject_Z y * inject_Z y + total (map (fun y => inject_Z y * inject_Z y) ys)). ring.
Qed.
Lemma brier_t ps ys t : ps <> [] -> length ps = length ys -> fit_brier ps ys = Some t ->
  let s := total (map (fun p => p * p) ps) in let c := sum2 (fun p y => p * inject_Z y) ps ys in ~ c == 0 /\ t == s / c.
Proof.
  intros Hne L E s c. apply np_div_some in E. destruct E as [N ->]. assert (P := nQ_pos _ (ne_len _ Hne)).
  assert (E1 : qmean (zip_with (fun p y => p * inject_Z y) ps ys) == c / nQ (length ps)).
  { unfold qmean, qlen. rewrite sum2_zip. unfold zip_with. rewrite map_length, combine_length. replace (Nat.min (length ps) (length ys)) with (length ps) by lia. reflexivity. }
  assert (E2 : qmean (map (fun p => p * p) ps) == s / nQ (length ps)). { rewrite qmean_total, map_length. reflexivity. }
  assert (Nc : ~ c == 0). { intros X. apply N. rewrite E1, X. field. lra. }
  split; [assumption|]. rewrite E1, E2. field. split; [assumption|lra].
Qed.
Lemma error_quad ps ys s : length ps = length ys -> error_scaled s ps ys == (/ s * / s * total (map (fun p => p * p) ps) - 2 * (/ s * sum2 (fun p y => p * inject_Z y) ps ys) + total (map (fun y => inject_Z y * inject_Z y) ys)) / nQ (length ps).
Proof. intros L. unfold error_scaled. rewrite <- quadratic by assumption. reflexivity. Qed.
Theorem brier_optimal : forall ps ys t, ps <> [] -> length ps = length ys -> fit_brier ps ys = Some t -> ~ t == 0 ->
  forall s, ~ s == 0 -> error_scaled t ps ys <= error_scaled s ps ys.
Proof.
  intros ps ys t Hne L E Ht s Hs. destruct (brier_t ps ys t Hne L E) as [Nc Et]. rewrite !error_quad by assumption.
  set (S0 := total (map (fun p => p * p) ps)) in *. set (c := sum2 (fun p y => p * inject_Z y) ps ys) in *. set (k := total (map (fun y => inject_Z y * inject_Z y) ys)).
  assert (Sp : 0 <= S0) by (apply tot_nonneg; intros; apply sq_nonneg).
  unfold Qdiv at 1 2. apply Qmult_le_compat_r; [|apply Qinv_le_0_compat; apply nQ_nonneg].
  assert (Ns : ~ S0 == 0). { intros X. apply Ht. rewrite Et, X. field. assumption. }
  assert (It : / t == c / S0). { rewrite Et. field. split; assumption. }
  rewrite It.
  assert (D : (/ s * / s * S0 - 2 * (/ s * c) + k) - (c / S0 * (c / S0) * S0 - 2 * (c / S0 * c) + k) == S0 * ((/ s - c / S0) * (/ s - c / S0))) by (field; split; assumption).
  assert (0 <= S0 * ((/ s - c / S0) * (/ s - c / S0))) by (apply Qmult_le_0_compat; [assumption|apply sq_nonneg]). lra.
Qed.
Lemma clip_closer t p c y : clipped_div t p c -> in_unit y -> (c - y) * (c - y) <= (p / t - y) * (p / t - y).
Proof.
  intros [C1 [C2 C3]] [Y0 Y1]. set (x := p / t) in *.
  destruct (Qlt_le_dec x 0) as [A|A]; [|destruct (Qlt_le_dec 1 x) as [B|B]].
  - rewrite C1 by assumption. assert (0 <= (- x) * (2 * y - x)) by (apply Qmult_le_0_compat; lra). lra.
  - rewrite C3 by assumption. assert (0 <= (x - 1) * (x + 1 - 2 * y)) by (apply Qmult_le_0_compat; lra). lra.
  - rewrite C2 by lra. lra.
Qed.
(** calibrating never increases the Brier score on the calibration data *)
Theorem brier_never_worse : forall ps ys t v w, ps <> [] -> length ps = length ys -> binary ys -> fit_brier ps ys = Some t -> ~ t == 0 ->
  brier_score (A1 ps) ys = Ok v -> brier_score (A1 (map value (predict_proba t ps))) ys = Ok w -> w <= v.
Proof.
  intros ps ys t v w Hne L B E Ht Ev Ew. assert (P := nQ_pos _ (ne_len _ Hne)).
  assert (G : forall qs z, length qs = length ps -> brier_score (A1 qs) ys = Ok z -> z == sum2 (fun p y => (p - inject_Z y) * (p - inject_Z y)) qs ys / nQ (length ps)).
  { intros qs z Lq Ez. unfold brier_score in Ez. rewrite bc1_same in Ez by (rewrite map_length; congruence). cbn [rmap] in Ez. injection Ez as <-.
    unfold qmean, qlen. rewrite zip_map, sum2_zip. replace (length (zip_with (fun x y => (x - y) * (x - y)) qs (map inject_Z ys))) with (length ps) by (unfold zip_with; rewrite map_length, combine_length, map_length; lia).
    assert (S0 : sum2 (fun x y => (x - y) * (x - y)) qs (map inject_Z ys) = sum2 (fun p y => (p - inject_Z y) * (p - inject_Z y)) qs ys).
    { clear. revert ys. induction qs as [|p ps IH]; intros [|y ys]; try reflexivity. cbn [map sum2]. now rewrite IH. }
    rewrite S0. reflexivity. }
  rewrite (G _ _ eq_refl Ev). rewrite (G (map value (predict_proba t ps)) w) by (auto; now rewrite map_length, pred_length).
  assert (O := brier_optimal ps ys t Hne L E Ht 1 ltac:(lra)). unfold error_scaled in O.
  unfold Qdiv at 1 2. apply Qmult_le_compat_r; [|apply Qinv_le_0_compat; lra].
  assert (O' : sum2 (fun p y => (p / t - inject_Z y) * (p / t - inject_Z y)) ps ys <= sum2 (fun p y => (p - inject_Z y) * (p - inject_Z y)) ps ys).
  { rewrite (sum2_ext (fun p y => (p / 1 - inject_Z y) * (p / 1 - inject_Z y)) (fun p y => (p - inject_Z y) * (p - inject_Z y))) in O.
    2: { intros x y. assert (x / 1 == x) as -> by field. reflexivity. }
    set (a := sum2 _ _ _) in *. set (b := sum2 (fun p y => (p - inject_Z y) * (p - inject_Z y)) ps ys) in *.
    assert (a == a / nQ (length ps) * nQ (length ps)) as -> by (field; lra). assert (b == b / nQ (length ps) * nQ (length ps)) as -> by (field; lra).
    apply Qmult_le_compat_r; [assumption|lra]. }
  eapply Qle_trans; [|exact O']. clear - B L Ht. revert ys L B. induction ps as [|p ps IH]; intros [|y ys] L B; try discriminate.
  injection L as L. inversion B; subst. cbn [predict_proba map sum2]. apply Qplus_le_compat; [|now apply IH].
  destruct (scaled_nz t p Ht) as [c [-> [_ C]]]. cbn [value]. apply clip_closer; [assumption|]. destruct H1 as [->| ->]; split; discriminate.
Qed.
(** when the fitted temperatures are positive numbers *)
Lemma tot_pos {A} (f : A -> Q) l x : (forall y, In y l -> 0 <= f y) -> In x l -> 0 < f x -> 0 < tot f l.
Proof.
  induction l as [|y l IH]; intros H Hx Hp; [destruct Hx|]. rewrite tot_cons. assert (A1 := H y ltac:(now left)).
  assert (0 <= tot f l) by (apply tot_nonneg; intros; apply H; now right). destruct Hx as [->|Hx]. lra.
  assert (0 < tot f l) by (apply IH; auto; intros; apply H; now right). lra.
Qed.
Theorem positive_temperature : forall ps ys p, length ps = length ys -> Forall (fun p => 0 <= p) ps -> binary ys -> In (p, 1%Z) (combine ps ys) -> 0 < p ->
  (exists t, fit_bias ps ys = Some t /\ 0 < t) /\ (exists t, fit_brier ps ys = Some t /\ 0 < t).
Proof.
  intros ps ys p L F B Hin Hp. assert (Ip := in_combine_l _ _ _ _ Hin). assert (Iy := in_combine_r _ _ _ _ Hin).
  assert (Hn : (0 < length ps)%nat) by (destruct ps; [destruct Ip|cbn; lia]). assert (P := nQ_pos _ Hn).
  rewrite Forall_forall in F. assert (B' : forall y, In y ys -> 0 <= inject_Z y). { unfold binary in B. rewrite Forall_forall in B. intros y Hy. destruct (B y Hy) as [->| ->]; discriminate. }
  assert (Q1 : 0 < qmean ps). { rewrite qmean_total, total_tot. apply Qlt_shift_div_l; [assumption|]. assert (0 < tot (fun x => x) ps) by (apply (tot_pos _ _ p); auto). lra. }
  assert (Q2 : 0 < qmean (map inject_Z ys)). { rewrite qmean_total, map_length, <- L. apply Qlt_shift_div_l; [assumption|]. assert (0 < tot inject_Z ys) by (apply (tot_pos _ _ 1%Z); auto; reflexivity). rewrite total_map. lra. }
  assert (Q3 : 0 < qmean (map (fun p => p * p) ps)). { rewrite qmean_total, map_length. apply Qlt_shift_div_l; [assumption|]. rewrite total_map. assert (0 < tot (fun p => p * p) ps). { apply (tot_pos _ _ p); auto. intros; apply sq_nonneg. assert (0 < p * p) by (now apply Qmult_lt_0_compat). assumption. } lra. }
  assert (Q4 : 0 < qmean (zip_with (fun p y => p * inject_Z y) ps ys)).
  { rewrite qmean_total. unfold zip_with. rewrite map_length, combine_length. replace (Nat.min (length ps) (length ys)) with (length ps) by lia. apply Qlt_shift_div_l; [assumption|]. rewrite total_map.
    assert (0 < tot (fun p => fst p * inject_Z (snd p)) (combine ps ys)).
    { apply (tot_pos _ _ (p, 1%Z)); auto. intros [x y] Hxy. cbn [fst snd]. apply Qmult_le_0_compat. apply F. now apply in_combine_l in Hxy. apply B'. now apply in_combine_r in Hxy. cbn [fst snd]. change (inject_Z 1) with 1. lra. }
    lra. }
  split.
  - exists (qmean ps / qmean (map inject_Z ys)). split. unfold fit_bias, np_div. rewrite nz_eqb by lra. reflexivity. apply Qlt_shift_div_l; lra.
  - eexists. split. unfold fit_brier, np_div. rewrite nz_eqb by lra. reflexivity. apply Qlt_shift_div_l; lra.
Qed.
(** without a positive target there is no temperature *)
Theorem no_temperature : forall ps ys, Forall (fun y => y = 0%Z) ys -> fit_bias ps ys = None /\ fit_brier ps ys = None.
Proof.
  intros ps ys F. rewrite Forall_forall in F. split; apply np_div_none.
  - unfold qmean. assert (qsum (map inject_Z ys) == 0) as ->; [|unfold Qdiv; ring]. change (tot inject_Z ys == 0). rewrite <- (tot_zero ys). apply tot_ext. intros y Hy. now rewrite (F y Hy).
  - unfold qmean. assert (qsum (zip_with (fun p y => p * inject_Z y) ps ys) == 0) as ->; [|unfold Qdiv; ring].
    change (tot (fun p => fst p * inject_Z (snd p)) (combine ps ys) == 0). rewrite <- (tot_zero (combine ps ys)). apply tot_ext. intros [x y] Hy. cbn [fst snd]. rewrite (F y). change (inject_Z 0) with 0. ring. now apply in_combine_r in Hy.
Qed.
