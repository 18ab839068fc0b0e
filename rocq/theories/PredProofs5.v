(** Entropies, predictive log-probabilities and the regression output layer. *)
From Coq Require Import List Arith Bool Lia Reals Lra.
From Verif Require Import Lib MetricSpec TempModel TempSpec TempProofs3 PredModel PredSpec PredProofs4.
Import ListNotations.
Local Notation length := List.length.
Open Scope R_scope.

Lemma seq_nonempty m : (1 <= m)%nat -> seq 0 m <> []. Proof. destruct m; [lia|easy]. Qed.
Theorem entropy_meaning : forall n k o, (1 <= n)%nat -> (1 <= k)%nat -> (forall s, (s < n)%nat -> length (o s) = k) ->
  let member := fun s i => nth i (class_mean (o s)) 0 in
  entropy n k o = shannon k (fun i => raverage n (fun s => member s i)) /\
  aleatoric_entropy n k o = raverage n (fun s => shannon k (member s)) /\
  entropy n k o = aleatoric_entropy n k o + epistemic_entropy n k o.
Proof. intros n k o Hn Hk Ho member. split; [now apply entropy_shannon|]. split; [now apply aleatoric_average|apply entropy_split]. Qed.
Theorem entropy_bounds : forall n k o, (1 <= n)%nat -> (1 <= k)%nat -> (forall s, (s < n)%nat -> length (o s) = k) ->
  0 <= aleatoric_entropy n k o <= ln (INR k) /\ 0 <= epistemic_entropy n k o <= ln (INR n) /\ entropy n k o <= ln (INR k).
Proof.
  intros n k o Hn Hk Ho. assert (N := INR_pos n Hn). assert (IN := Rinv_0_lt_compat _ N).
  assert (B : forall s, (s < n)%nat -> 0 <= shannon k (fun i => nth i (softmax (o s)) 0) <= ln (INR k)).
  { intros s Hs. apply shannon_bounds; [assumption| |]. intros i Hi. apply softmax_pos. now rewrite Ho. rewrite <- (Ho s Hs). apply softmax_sum. intros E. specialize (Ho s Hs). rewrite E in Ho. cbn in Ho. lia. }
  split; [|split; [split|]].
  - rewrite (aleatoric_average n k o Hn Hk Ho). unfold raverage, Rdiv. rewrite rover_rs. split.
    + apply Rmult_le_pos; [|lra]. apply rs_nonneg. intros s Hs. apply in_seq in Hs. apply B. lia.
    + apply (Rmult_le_reg_r (INR n)); [assumption|]. rewrite Rmult_assoc, Rinv_l, Rmult_1_r by lra. replace (ln (INR k) * INR n) with (rs (fun _ => ln (INR k)) (seq 0 n)) by (rewrite rs_const, seq_length; ring). apply rs_le. intros s Hs. apply in_seq in Hs. apply B. lia.
  - now apply epistemic_nonneg.
  - now apply epistemic_upper.
  - rewrite (entropy_shannon n k o Hn Hk Ho). apply shannon_bounds; [assumption| |]. intros. now apply (pbar_pos n k o Hn Hk Ho). rewrite rover_rs. now apply (pbar_sum n k o Hn Hk Ho).
Qed.
Theorem epistemic_agreement : forall n k o, (1 <= n)%nat -> (1 <= k)%nat -> (forall s, (s < n)%nat -> length (o s) = k) ->
  (epistemic_entropy n k o = 0 <-> forall s, (s < n)%nat -> class_mean (o s) = class_mean (o 0%nat)).
Proof.
  intros n k o Hn Hk Ho. rewrite (epistemic_zero_iff n k o Hn Hk Ho). unfold class_mean. split.
  - intros H s Hs. apply nth_ext0. rewrite !softmax_length, !Ho by lia. reflexivity. intros i Hi. rewrite softmax_length, Ho in Hi by lia. now apply H.
  - intros H s i Hs Hi. now rewrite (H s Hs).
Qed.

(** ---- predictive log-probability ---- *)
Lemma lse_eq l : lse l = ln (rs exp l). Proof. reflexivity. Qed.
Lemma pred_log_prob_ln n ll : (1 <= n)%nat -> pred_log_prob n ll = ln (raverage n (fun s => exp (ll s))).
Proof.
  intros H. assert (N := INR_pos n H). unfold pred_log_prob. rewrite lse_eq, rs_map. unfold raverage. rewrite rover_rs, ln_div; [reflexivity| |assumption]. apply rs_pos. now apply seq_nonempty. intros. apply exp_pos.
Qed.
Lemma ln_mono x y : 0 < x -> x <= y -> ln x <= ln y.
Proof. intros H L. destruct (Rle_lt_or_eq_dec _ _ L) as [C|C]. apply Rlt_le, ln_increasing; assumption. rewrite C. lra. Qed.
Theorem pred_log_prob_spec : forall n ll, (1 <= n)%nat ->
  exp (pred_log_prob n ll) = raverage n (fun s => exp (ll s)) /\
  raverage n ll <= pred_log_prob n ll /\
  forall lo hi, (forall s, (s < n)%nat -> lo <= ll s <= hi) -> lo <= pred_log_prob n ll <= hi.
Proof.
  intros n ll H. assert (N := INR_pos n H). assert (IN := Rinv_0_lt_compat _ N). rewrite pred_log_prob_ln by assumption. set (A := raverage n (fun s => exp (ll s))).
  assert (SA : rs (fun s => exp (ll s)) (seq 0 n) = A * INR n). { unfold A, raverage. rewrite rover_rs. field. lra. }
  assert (PA : 0 < A). { unfold A, raverage. apply Rdiv_lt_0_compat; [|assumption]. rewrite rover_rs. apply rs_pos. now apply seq_nonempty. intros. apply exp_pos. }
  split; [now apply exp_ln|]. split.
  - unfold raverage. apply (Rmult_le_reg_r (INR n)); [assumption|]. unfold Rdiv. rewrite Rmult_assoc, Rinv_l, Rmult_1_r by lra. rewrite rover_rs.
    assert (X : rs ll (seq 0 n) <= rs (fun s => ln A + (exp (ll s) * / A - 1)) (seq 0 n)). { apply rs_le. intros s _. assert (E := exp_pos (ll s)). assert (Y := ln_le_sub (exp (ll s) / A) ltac:(apply Rdiv_lt_0_compat; assumption)). rewrite ln_div, ln_exp in Y by assumption. unfold Rdiv in Y. lra. }
    rewrite rs_add, rs_sub, rs_scale, !rs_const, seq_length, SA in X. replace (A * INR n * / A) with (INR n) in X by (field; lra). lra.
  - intros lo hi B. split.
    + rewrite <- (ln_exp lo). apply ln_mono; [apply exp_pos|]. apply (Rmult_le_reg_r (INR n)); [assumption|]. rewrite <- SA. replace (exp lo * INR n) with (rs (fun _ => exp lo) (seq 0 n)) by (rewrite rs_const, seq_length; ring). apply rs_le. intros s Hs. apply in_seq in Hs. apply exp_le. apply B. lia.
    + rewrite <- (ln_exp hi). apply ln_mono; [assumption|]. apply (Rmult_le_reg_r (INR n)); [assumption|]. rewrite <- SA. replace (exp hi * INR n) with (rs (fun _ => exp hi) (seq 0 n)) by (rewrite rs_const, seq_length; ring). apply rs_le. intros s Hs. apply in_seq in Hs. apply exp_le. apply B. lia.
Qed.

(** ---- regression entropies ---- *)
Lemma fori_sub (g : nat -> R) k : forall lo init, fori k lo (fun i s => s - g i) init = init - rs g (seq lo k).
Proof. induction k as [|k IH]; intros lo init; cbn [fori seq]. rewrite rs_nil. ring. rewrite IH, rs_cons. ring. Qed.
Lemma fori_mean n g : (1 <= n)%nat -> fori_loop 1 n (fun i s => s - g i) (0 - g 0%nat) / INR n = - raverage n g.
Proof.
  intros H. assert (N := INR_pos n H). unfold fori_loop. rewrite fori_sub. unfold raverage. rewrite rover_rs. destruct n as [|n]; [lia|]. cbn [seq]. rewrite rs_cons. rewrite Nat.sub_succ, Nat.sub_0_r. field. lra.
Qed.
Lemma rmean_seq f m : rmean (map f (seq 0 m)) = raverage m f.
Proof. unfold rmean, raverage. now rewrite map_length, seq_length. Qed.
Lemma raverage_sub n f g : raverage n (fun i => f i - g i) = raverage n f - raverage n g.
Proof. unfold raverage. rewrite !rover_rs, rs_sub. unfold Rdiv. ring. Qed.
Lemma raverage_ext n f g : (forall i, (i < n)%nat -> f i = g i) -> raverage n f = raverage n g.
Proof. intros H. unfold raverage. f_equal. rewrite !rover_rs. apply rs_ext. intros i Hi. apply in_seq in Hi. apply H. lia. Qed.
Lemma raverage_le n f g : (1 <= n)%nat -> (forall i, (i < n)%nat -> f i <= g i) -> raverage n f <= raverage n g.
Proof. intros N H. assert (P := Rinv_0_lt_compat _ (INR_pos n N)). unfold raverage, Rdiv. apply Rmult_le_compat_r; [lra|]. rewrite !rover_rs. apply rs_le. intros i Hi. apply in_seq in Hi. apply H. lia. Qed.
Lemma raverage_const n c : (1 <= n)%nat -> raverage n (fun _ => c) = c.
Proof. intros N. assert (P := INR_pos n N). unfold raverage. rewrite rover_rs, rs_const, seq_length. field. lra. Qed.
Theorem reg_entropy_meaning : forall n m ll, (1 <= n)%nat -> (1 <= m)%nat ->
  let lp := fun j t => ln (raverage n (fun i => exp (ll i j t))) in
  reg_entropy n m ll = - raverage n (fun j => raverage m (fun t => lp j t)) /\
  reg_aleatoric n m ll = - raverage n (fun j => raverage m (fun t => ll j j t)) /\
  reg_entropy n m ll = reg_aleatoric n m ll + reg_epistemic n m ll /\
  reg_epistemic n m ll <= ln (INR n).
Proof.
  intros n m ll Hn Hm lp. assert (N := INR_pos n Hn). assert (LP : forall j t, reg_log_pred n ll j t = lp j t). { intros j t. apply (pred_log_prob_ln n (fun i => ll i j t) Hn). }
  assert (A : reg_entropy n m ll = - raverage n (fun j => raverage m (fun t => lp j t))). { unfold reg_entropy. cbv zeta. rewrite (fori_mean n (fun j => rmean (map (fun t => reg_log_pred n ll j t) (seq 0 m))) Hn). f_equal. apply raverage_ext. intros j _. rewrite rmean_seq. apply raverage_ext. auto. }
  assert (B : reg_aleatoric n m ll = - raverage n (fun j => raverage m (fun t => ll j j t))). { unfold reg_aleatoric. cbv zeta. rewrite (fori_mean n (fun j => rmean (map (fun t => ll j j t) (seq 0 m))) Hn). f_equal. apply raverage_ext. intros j _. now rewrite rmean_seq. }
  assert (C : reg_epistemic n m ll = - raverage n (fun j => raverage m (fun t => lp j t - ll j j t))). { unfold reg_epistemic. cbv zeta. rewrite (fori_mean n (fun j => rmean (map (fun t => reg_log_pred n ll j t - ll j j t) (seq 0 m))) Hn). f_equal. apply raverage_ext. intros j _. rewrite rmean_seq. apply raverage_ext. intros. now rewrite LP. }
  split; [exact A|]. split; [exact B|]. split.
  - rewrite A, B, C. rewrite (raverage_ext n (fun j => raverage m (fun t => lp j t - ll j j t)) (fun j => raverage m (fun t => lp j t) - raverage m (fun t => ll j j t))) by (intros; apply raverage_sub). rewrite raverage_sub. ring.
  - rewrite C. assert (X : raverage n (fun _ => raverage m (fun _ => - ln (INR n))) <= raverage n (fun j => raverage m (fun t => lp j t - ll j j t))).
    { apply raverage_le; [assumption|]. intros j Hj. apply raverage_le; [assumption|]. intros t _. unfold lp. assert (E : exp (ll j j t) / INR n <= raverage n (fun i => exp (ll i j t))). { unfold raverage, Rdiv. apply Rmult_le_compat_r. apply Rlt_le. now apply Rinv_0_lt_compat. rewrite rover_rs. apply (rs_ge (fun i => exp (ll i j t))). intros. apply Rlt_le, exp_pos. apply in_seq. lia. }
      apply ln_mono in E; [|apply Rdiv_lt_0_compat; [apply exp_pos|assumption]]. rewrite ln_div, ln_exp in E by (try apply exp_pos; assumption). lra. }
    rewrite !raverage_const in X by assumption. lra.
Qed.
(** the sampled estimate of the epistemic entropy can be negative *)
Theorem reg_epistemic_negative : exists n m ll, (1 <= n)%nat /\ (1 <= m)%nat /\ reg_epistemic n m ll < 0.
Proof.
  exists 2%nat, 1%nat, (fun i j _ => if (i =? j)%nat then 0 else ln 3). split; [lia|]. split; [lia|].
  unfold reg_epistemic, fori_loop, rmean, reg_log_pred, lse. cbn [Nat.sub fori seq map length rsum fold_right Nat.eqb INR]. rewrite exp_0, exp_ln by lra.
  replace (1 + (3 + 0)) with (2 * 2) by ring. replace (3 + (1 + 0)) with (2 * 2) by ring. rewrite ln_mult by lra. replace (1 + 1) with 2 by ring.
  assert (X : 0 < ln 2). { rewrite <- ln_1. apply ln_increasing; lra. } lra.
Qed.

(** ---- the regression output layer ---- *)
Lemma ln_sqrt x : 0 < x -> ln (sqrt x) = ln x / 2.
Proof. intros H. assert (S := sqrt_lt_R0 x H). rewrite <- (sqrt_sqrt x) at 2 by lra. rewrite ln_mult by assumption. field. Qed.
Lemma gauss_normal y m lv : - (1 / 2) * gauss_term y m lv = normal_log_density y m (exp lv).
Proof.
  unfold gauss_term, normal_log_density. assert (P := PI_RGT_0). assert (E := exp_pos lv). assert (Q : 0 < 2 * PI * exp lv) by (apply Rmult_lt_0_compat; lra). assert (S := sqrt_lt_R0 _ Q).
  rewrite (ln_mult (/ sqrt (2 * PI * exp lv))) by (try apply exp_pos; now apply Rinv_0_lt_compat). rewrite (ln_exp (- _)), ln_Rinv, ln_sqrt by assumption. rewrite (ln_mult (2 * PI) (exp lv)) by lra. rewrite ln_exp, exp_Ropp. field. lra.
Qed.
Lemma halves_app (ms vs : list R) : length ms = length vs -> halves (ms ++ vs) = Ok (ms, vs).
Proof.
  intros L. unfold halves. rewrite app_length, L. assert (E : Nat.even (length vs + length vs) = true) by (apply Nat.even_spec; exists (length vs); lia). rewrite E.
  assert (D : ((length vs + length vs) / 2 = length vs)%nat). { replace (length vs + length vs)%nat with (length vs * 2)%nat by lia. apply Nat.div_mul. lia. }
  rewrite D, <- L, firstn_app, skipn_app, Nat.sub_diag, firstn_all, skipn_all. cbn [firstn skipn app]. now rewrite app_nil_r.
Qed.
Theorem reg_layer_spec : forall ms lvs, length ms = length lvs ->
  reg_mean (ms ++ lvs) = Ok ms /\ reg_variance (ms ++ lvs) = Ok (map exp lvs) /\
  forall ys, length ys = length ms -> exists l, reg_log_prob (ms ++ lvs) ys = Ok l /\
    l = rover (length ms) (fun i => normal_log_density (nth i ys 0) (nth i ms 0) (nth i (map exp lvs) 0)).
Proof.
  intros ms lvs L. unfold reg_mean, reg_variance, reg_log_prob. rewrite halves_app by assumption. cbn [rmap fst snd]. split; [reflexivity|]. split; [reflexivity|].
  intros ys Ly. eexists. split; [reflexivity|]. rewrite rover_rs. revert lvs ys L Ly. induction ms as [|m ms IH]; intros [|v lvs] [|y ys] L Ly; try discriminate. cbn [combine map rsum fold_right length seq]. rewrite rs_nil. ring.
  cbn [combine map fst snd length seq]. rewrite rs_cons. cbn [nth]. change (rsum (?u :: ?l)) with (u + rsum l). rewrite Rmult_plus_distr_l, gauss_normal, (IH lvs ys) by (cbn in L, Ly; lia). f_equal. rewrite <- seq_shift, rs_map. reflexivity.
Qed.
Theorem reg_layer_odd : forall o, Nat.Odd (length o) -> reg_mean o = Err ValueError /\ reg_variance o = Err ValueError /\ forall ys, reg_log_prob o ys = Err ValueError.
Proof.
  intros o O. assert (H : halves o = Err ValueError). { unfold halves. destruct (Nat.even (length o)) eqn:E; [|reflexivity]. apply Nat.even_spec in E. exfalso. destruct O as [a Ha], E as [b Hb]. lia. }
  unfold reg_mean, reg_variance, reg_log_prob. rewrite H. auto.
Qed.
(** the mean is the mode *)
Theorem normal_mode : forall y m v, 0 < v -> normal_log_density y m v <= normal_log_density m m v /\ (normal_log_density y m v = normal_log_density m m v -> y = m).
Proof.
  intros y m v V. assert (E : forall x, normal_log_density x m v = - (1 / 2) * gauss_term x m (ln v)). { intros x. rewrite gauss_normal, exp_ln by assumption. reflexivity. } rewrite !E. unfold gauss_term. rewrite exp_Ropp, exp_ln by assumption. assert (I := Rinv_0_lt_compat v V).
  assert (S := Rle_0_sqr (y - m)). unfold Rsqr in S. assert (X := Rmult_le_pos _ _ (Rlt_le _ _ I) S). split; [lra|]. intros Q. assert (Z : / v * ((y - m) * (y - m)) = 0) by lra. apply Rmult_integral in Z. destruct Z as [Z|Z]; [lra|]. apply Rmult_integral in Z. lra.
Qed.
(** a target sample is the mean plus the standard deviation times the normal draw *)
Theorem reg_sample_spec : forall m lv z, reg_sample1 m lv z = m + sqrt (exp lv) * z.
Proof.
  intros m lv z. unfold reg_sample1. f_equal. f_equal. assert (E := exp_pos (1 / 2 * lv)). rewrite <- (sqrt_Rsqr (exp (1 / 2 * lv))) by lra. f_equal. unfold Rsqr. rewrite <- exp_plus. f_equal. field.
Qed.
Theorem layer_std_spec : forall var i, (i < length var)%nat -> nth i (layer_std var None) 0 = sqrt (nth i var 0).
Proof. intros var i H. cbn [layer_std]. rewrite (nth_indep _ 0 (sqrt 0)) by now rewrite map_length. now rewrite map_nth. Qed.
(** variances passed by the caller come back unchanged instead of being square-rooted *)
Theorem layer_std_refuted : exists var v i, (i < length v)%nat /\ nth i (layer_std var (Some v)) 0 <> sqrt (nth i v 0).
Proof. exists [4], [4], 0%nat. split; [cbn; lia|]. cbn [layer_std nth]. replace 4 with (2 * 2) at 2 by ring. rewrite sqrt_square by lra. lra. Qed.

(** ---- toy cases ---- *)
Lemma toy_masked : exp (masked_log_prob [0; 0] 0) = 1 /\ exp (class_log_prob [0; 0] 0) = 1 / 2.
Proof.
  split. destruct (masked_spec [0; 0] 0) as [-> _]. apply exp_0. destruct (layer_log_prob [0; 0] 0 ltac:(cbn; lia)) as [-> _]. unfold class_mean. rewrite softmax_nth by (cbn; lia). cbn [nth map rsum fold_right]. rewrite exp_0. lra.
Qed.
Definition toy_out (s : nat) : list R := if (s =? 0)%nat then [0; ln 3] else [ln 3; 0].
Lemma toy_members : class_mean (toy_out 0) = [1 / 4; 3 / 4] /\ class_mean (toy_out 1) = [3 / 4; 1 / 4].
Proof.
  unfold class_mean, toy_out, softmax. cbn [Nat.eqb map rsum fold_right]. rewrite exp_0, exp_ln by lra. split; (apply (f_equal2 cons); [lra|apply (f_equal2 cons); [lra|reflexivity]]).
Qed.
Lemma toy_entropy : entropy 2 2 toy_out = ln 2 /\ 0 < epistemic_entropy 2 2 toy_out.
Proof.
  assert (H : forall s, (s < 2)%nat -> length (toy_out s) = 2%nat). { intros s _. unfold toy_out. now destruct (s =? 0)%nat. } destruct toy_members as [A B]. split.
  - destruct (entropy_meaning 2 2 toy_out ltac:(lia) ltac:(lia) H) as [-> _]. unfold shannon, raverage, rover. cbn [seq map rtotal fold_right]. rewrite A, B. cbn [nth INR].
    replace ((1 / 4 + (3 / 4 + 0)) / (1 + 1)) with (/ 2) by field. replace ((3 / 4 + (1 / 4 + 0)) / (1 + 1)) with (/ 2) by field. rewrite ln_Rinv by lra. lra.
  - destruct (entropy_bounds 2 2 toy_out ltac:(lia) ltac:(lia) H) as (_ & [E _] & _). destruct (Rle_lt_or_eq_dec _ _ E) as [C|C]; [assumption|exfalso]. symmetry in C. apply (epistemic_agreement 2 2 toy_out ltac:(lia) ltac:(lia) H) with (s := 1%nat) in C; [|lia]. rewrite A, B in C. injection C as C. lra.
Qed.
