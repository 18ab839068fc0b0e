(** Proofs about Gaussian priors and kernel regression. *)
From Coq Require Import List Arith ZArith Bool Lia Reals Lra Psatz.
From Verif Require Import Lib TempModel PredModel PredSpec PredProofs4 PredProofs5 LikModel LikSpec.
Import ListNotations.
Open Scope R_scope.

Lemma sum_cons x l : sum_R (x :: l) = x + sum_R l. Proof. reflexivity. Qed.
Lemma gauss0 x lv : normal_log_density x 0 (exp lv) = - / 2 * (exp (- lv) * (x * x) + ln (2 * PI) + lv).
Proof. rewrite <- gauss_normal. unfold gauss_term. replace ((x - 0) * (x - 0)) with (x * x) by ring. lra. Qed.
Theorem isotropic_density : forall log_var params, isotropic_log_prob log_var params = sum_R (map (fun x => normal_log_density x 0 (exp log_var)) params).
Proof.
  intros lv params. unfold isotropic_log_prob, rsquares. induction params as [|x params IH]; cbn [map length].
  - cbn. ring.
  - change rsum with sum_R in *. rewrite !sum_cons, <- IH, gauss0, S_INR. ring.
Qed.
Theorem diagonal_density : forall log_vars params, length log_vars = length params ->
  diagonal_log_prob log_vars params = sum_R (map (fun p => normal_log_density (snd p) 0 (exp (fst p))) (combine log_vars params)).
Proof.
  intros lvs params _. unfold diagonal_log_prob. induction (combine lvs params) as [|[v x] l IH]; cbn [map].
  - cbn. ring.
  - change rsum with sum_R in *. rewrite !sum_cons, <- IH. cbn [fst snd]. rewrite gauss0. ring.
Qed.
Theorem diagonal_constant : forall log_var params, diagonal_log_prob (repeat log_var (length params)) params = isotropic_log_prob log_var params.
Proof.
  intros lv params. rewrite isotropic_density, diagonal_density by apply repeat_length. induction params as [|x params IH]; cbn [length repeat combine map fst snd]. reflexivity. rewrite !sum_cons, IH. reflexivity.
Qed.
Lemma sum_le {A} (f g : A -> R) l : (forall x, In x l -> f x <= g x) -> sum_R (map f l) <= sum_R (map g l).
Proof. apply (rs_le f g l). Qed.
Lemma sum_tight {A} (f g : A -> R) l : (forall x, In x l -> f x <= g x) -> sum_R (map f l) = sum_R (map g l) -> forall x, In x l -> f x = g x.
Proof.
  intros H E x Hx. assert (Z := rs_zero (fun x => g x - f x) l). cbn beta in Z. cut (g x - f x = 0). lra. apply Z; [intros y Hy; specialize (H y Hy); lra| |exact Hx]. rewrite rs_sub. unfold rs. change (sum_R (map g l) - sum_R (map f l) = 0). lra.
Qed.
Theorem isotropic_mode : forall log_var params, isotropic_log_prob log_var params <= isotropic_log_prob log_var (repeat 0 (length params)) /\
  (isotropic_log_prob log_var params = isotropic_log_prob log_var (repeat 0 (length params)) -> forall x, In x params -> x = 0).
Proof.
  intros lv params. rewrite !isotropic_density.
  assert (E : sum_R (map (fun x => normal_log_density x 0 (exp lv)) (repeat 0 (length params))) = sum_R (map (fun _ => normal_log_density 0 0 (exp lv)) params)). { f_equal. induction params as [|x params IH]; cbn; [reflexivity|]. now rewrite IH. }
  rewrite E. assert (M : forall x, In x params -> normal_log_density x 0 (exp lv) <= normal_log_density 0 0 (exp lv)) by (intros x _; apply normal_mode, exp_pos). split.
  - now apply sum_le.
  - intros Q x Hx. assert (T := sum_tight _ _ params M Q x Hx). cbn beta in T. now apply (proj2 (normal_mode x 0 (exp lv) (exp_pos lv))).
Qed.
(** closer to zero is more likely *)
Theorem isotropic_shrink : forall log_var a b, length a = length b -> (forall i, Rabs (nth i a 0) <= Rabs (nth i b 0)) -> isotropic_log_prob log_var b <= isotropic_log_prob log_var a.
Proof.
  intros lv a b. rewrite !isotropic_density. revert b. induction a as [|x a IH]; intros [|y b] L H; try discriminate. lra. cbn [map]. rewrite !sum_cons. assert (X := IH b ltac:(now injection L) (fun i => H (S i))). cut (normal_log_density y 0 (exp lv) <= normal_log_density x 0 (exp lv)). lra.
  rewrite !gauss0. assert (H0 := H 0%nat). cbn [nth] in H0. assert (S1 : x * x <= y * y). { apply Rsqr_le_abs_1 in H0. exact H0. } assert (P := exp_pos (- lv)). nra.
Qed.
Theorem sample_scale : forall log_var noise, isotropic_sample log_var noise = map (fun e => sqrt (exp log_var) * e) noise.
Proof.
  intros lv noise. unfold isotropic_sample. apply map_ext. intros e. f_equal. symmetry. apply sqrt_lem_1; try (apply Rlt_le, exp_pos). rewrite <- exp_plus. f_equal. lra.
Qed.
Theorem diagonal_sample_scale : forall log_vars noise, diagonal_sample log_vars noise = map (fun p => sqrt (exp (fst p)) * snd p) (combine log_vars noise).
Proof.
  intros lvs noise. unfold diagonal_sample. apply map_ext. intros [lv e]. cbn [fst snd]. f_equal. symmetry. apply sqrt_lem_1; try (apply Rlt_le, exp_pos). rewrite <- exp_plus. f_equal. lra.
Qed.
Theorem diagonal_sample_constant : forall log_var noise, diagonal_sample (repeat log_var (length noise)) noise = isotropic_sample log_var noise.
Proof. intros lv noise. unfold diagonal_sample, isotropic_sample. induction noise as [|e l IH]; cbn; [reflexivity|]. now rewrite IH. Qed.

(** ---- Nadaraya-Watson ---- *)
Theorem nw_lengths : forall inputs targets, (exists r, nw_init inputs targets = Ok r) <-> length inputs = length targets.
Proof. intros i t. unfold nw_init. destruct (Nat.eqb_spec (length i) (length t)); cbn [negb]; split; intros H; eauto. destruct H; discriminate. contradiction. Qed.
Lemma wsum_affine m s : s <> 0 -> forall ks ys, length ks = length ys ->
  sum_R (map (fun p => fst p * snd p) (combine ks (map (fun y => (y - m) / s) ys))) = (sum_R (map (fun p => fst p * snd p) (combine ks ys)) - m * sum_R ks) / s.
Proof.
  intros S0. induction ks as [|k ks IH]; intros [|y ys] L; try discriminate. cbn. field. exact S0.
  cbn [map combine]. rewrite !sum_cons. cbn [fst snd]. rewrite IH by now injection L. field. exact S0.
Qed.
Lemma wmean_bounds lo hi : forall ks ys, length ks = length ys -> (forall k, In k ks -> 0 < k) -> (forall y, In y ys -> lo <= y <= hi) ->
  lo * sum_R ks <= sum_R (map (fun p => fst p * snd p) (combine ks ys)) <= hi * sum_R ks.
Proof.
  induction ks as [|k ks IH]; intros [|y ys] L K Y; try discriminate. cbn. lra. cbn [combine map]. rewrite !sum_cons. cbn [fst snd]. assert (X := IH ys ltac:(now injection L) (fun k H => K k (or_intror H)) (fun y H => Y y (or_intror H))). assert (P := K k (or_introl eq_refl)). assert (B := Y y (or_introl eq_refl)). nra.
Qed.
Lemma sum_pos (l : list R) : l <> [] -> (forall k, In k l -> 0 < k) -> 0 < sum_R l.
Proof. intros H K. assert (X := rs_pos (fun x => x) l H K). unfold rs in X. rewrite map_id in X. exact X. Qed.
Lemma kernels_pos kernel h x inputs : (forall u, 0 < kernel u) -> 0 < h -> forall k, In k (map (fun xi => scaled_kernel kernel h (x - xi)) inputs) -> 0 < k.
Proof. intros K H k I. apply in_map_iff in I. destruct I as (xi & <- & _). unfold scaled_kernel. apply Rdiv_lt_0_compat; auto. Qed.
Theorem nw_weighted_mean : forall kernel bandwidth inputs targets r x, (forall u, 0 < kernel u) -> 0 < bandwidth -> inputs <> [] ->
  nw_init inputs targets = Ok r -> rstd targets <> 0 ->
  nw_predict kernel bandwidth r x = Some (weighted_mean (map (fun xi => kernel ((x - xi) / bandwidth)) inputs) targets).
Proof.
  intros kernel h inputs targets r x K H NE I S0. unfold nw_init in I. destruct (Nat.eqb_spec (length inputs) (length targets)) as [L|]; [|discriminate]. cbn [negb] in I. injection I as <-. unfold nw_predict. cbn [nw_inputs nw_std nw_mean nw_targets].
  set (ks := map (fun xi => scaled_kernel kernel h (x - xi)) inputs). assert (KP : forall k, In k ks -> 0 < k) by (apply kernels_pos; assumption). assert (SP : 0 < rsum ks). { apply sum_pos; [|exact KP]. destruct inputs; [congruence|discriminate]. }
  destruct (Req_EM_T (rstd targets) 0); [contradiction|]. destruct (Req_EM_T (rsum ks) 0); [lra|]. f_equal. change rsum with sum_R in *. rewrite (wsum_affine _ _ S0) by (unfold ks; now rewrite map_length).
  assert (E : forall is ys, length is = length ys -> sum_R (map (fun p => fst p * snd p) (combine (map (fun xi => scaled_kernel kernel h (x - xi)) is) ys)) = sum_R (map (fun p => fst p * snd p) (combine (map (fun xi => kernel ((x - xi) / h)) is) ys)) / h).
  { induction is as [|i is IH]; intros [|y ys] L'; try discriminate. cbn. field. lra. cbn [map combine]. rewrite !sum_cons. cbn [fst snd]. rewrite IH by now injection L'. unfold scaled_kernel. field. lra. }
  assert (E2 : sum_R ks = sum_R (map (fun xi => kernel ((x - xi) / h)) inputs) / h).
  { unfold ks. clear. induction inputs as [|i is IH]. cbn. unfold Rdiv. ring. cbn [map]. rewrite !sum_cons, IH. unfold scaled_kernel, Rdiv. ring. }
  unfold weighted_mean. assert (E' := E inputs targets L). fold ks in E'. rewrite E'. rewrite E2 in *. assert (sum_R (map (fun xi => kernel ((x - xi) / h)) inputs) <> 0). { intros Z. rewrite Z in SP. unfold Rdiv in SP. rewrite Rmult_0_l in SP. lra. } field. repeat split; try assumption; lra.
Qed.
Theorem nw_bounds : forall kernel bandwidth inputs targets r x lo hi v, (forall u, 0 < kernel u) -> 0 < bandwidth -> inputs <> [] ->
  nw_init inputs targets = Ok r -> (forall y, In y targets -> lo <= y <= hi) -> nw_predict kernel bandwidth r x = Some v -> lo <= v <= hi.
Proof.
  intros kernel h inputs targets r x lo hi v K H NE I B P. assert (L : length inputs = length targets) by (apply nw_lengths; eauto).
  assert (S0 : rstd targets <> 0). { intros Z. unfold nw_init in I. rewrite L, Nat.eqb_refl in I. injection I as <-. unfold nw_predict in P. cbn [nw_std] in P. destruct (Req_EM_T (rstd targets) 0); [discriminate|contradiction]. }
  rewrite (nw_weighted_mean kernel h inputs targets r x K H NE I S0) in P. injection P as <-. unfold weighted_mean. set (ks := map (fun xi => kernel ((x - xi) / h)) inputs). assert (KP : forall k, In k ks -> 0 < k). { intros k Hk. apply in_map_iff in Hk. destruct Hk as (xi & <- & _). apply K. }
  assert (SP : 0 < sum_R ks). { apply sum_pos; [|exact KP]. destruct inputs; [congruence|discriminate]. }
  destruct (wmean_bounds lo hi ks targets) as [A1 A2]; try assumption. unfold ks. now rewrite map_length. set (w := sum_R (map (fun p => fst p * snd p) (combine ks targets))) in *. split.
  - apply (Rmult_le_reg_r (sum_R ks)); [exact SP|]. unfold Rdiv. rewrite Rmult_assoc, Rinv_l, Rmult_1_r by lra. exact A1.
  - apply (Rmult_le_reg_r (sum_R ks)); [exact SP|]. unfold Rdiv. rewrite Rmult_assoc, Rinv_l, Rmult_1_r by lra. exact A2.
Qed.
Lemma rstd_zero targets : targets <> [] -> (rstd targets = 0 <-> forall y y', In y targets -> In y' targets -> y = y').
Proof.
  intros NE. unfold rstd. set (m := rmean targets). assert (N : 0 < INR (length targets)) by (apply lt_0_INR; destruct targets; [congruence|cbn; lia]).
  assert (P : 0 <= rmean (map (fun x => (x - m) * (x - m)) targets)). { unfold rmean. rewrite map_length. unfold Rdiv. apply Rmult_le_pos; [|apply Rlt_le, Rinv_0_lt_compat, N]. apply (rs_nonneg (fun x => (x - m) * (x - m)) targets). intros z _. apply Rle_0_sqr. }
  split.
  - intros Z. apply sqrt_eq_0 in Z; [|exact P]. assert (S0 : rsum (map (fun x => (x - m) * (x - m)) targets) = 0). { unfold rmean in Z. rewrite map_length in Z. apply (Rmult_eq_reg_r (/ INR (length targets))); [|apply Rinv_neq_0_compat; lra]. unfold Rdiv in Z. rewrite Z. ring. }
    assert (A : forall y, In y targets -> y = m). { intros y Hy. assert (Q := rs_zero (fun x => (x - m) * (x - m)) targets (fun x _ => Rle_0_sqr (x - m)) S0 y Hy). cbn beta in Q. apply Rsqr_0_uniq in Q. lra. } intros y y' H H'. rewrite (A y H), (A y' H'). reflexivity.
  - intros H. assert (A : forall y, In y targets -> y = m). { intros y Hy. unfold m, rmean. assert (E : rsum targets = INR (length targets) * y). { rewrite <- (rs_const y targets). rewrite <- (map_id targets) at 1. apply (rs_ext (fun x => x) (fun _ => y) targets). intros z Hz. now apply H. } rewrite E. field. lra. }
    assert (Z : rmean (map (fun x => (x - m) * (x - m)) targets) = 0). { unfold rmean. rewrite map_length. assert (E : rsum (map (fun x => (x - m) * (x - m)) targets) = 0). { change (rs (fun x => (x - m) * (x - m)) targets = 0). rewrite (rs_ext _ (fun _ => 0)). rewrite rs_const. ring. intros y Hy. rewrite (A y Hy) at 1 2. ring. } rewrite E. unfold Rdiv. ring. }
    rewrite Z. apply sqrt_0.
Qed.
(** constant targets (in particular one training point) give NaN *)
Theorem nw_constant_refuted : forall kernel bandwidth inputs targets r x, targets <> [] -> nw_init inputs targets = Ok r ->
  (forall y y', In y targets -> In y' targets -> y = y') -> nw_predict kernel bandwidth r x = None.
Proof.
  intros kernel h inputs targets r x NE I H. unfold nw_init in I. destruct (negb _); [discriminate|]. injection I as <-. unfold nw_predict. cbn [nw_std]. destruct (Req_EM_T (rstd targets) 0) as [|n]; [reflexivity|]. exfalso. apply n. now apply rstd_zero.
Qed.
Theorem nw_defined : forall kernel bandwidth inputs targets r x, (forall u, 0 < kernel u) -> 0 < bandwidth -> targets <> [] ->
  nw_init inputs targets = Ok r -> ((exists v, nw_predict kernel bandwidth r x = Some v) <-> exists y y', In y targets /\ In y' targets /\ y <> y').
Proof.
  intros kernel h inputs targets r x K H NE I. assert (L : length inputs = length targets) by (apply nw_lengths; eauto). assert (NI : inputs <> []) by (destruct inputs, targets; try discriminate; congruence). split.
  - intros (v & P). assert (S0 : rstd targets <> 0). { intros Z. unfold nw_init in I. rewrite L, Nat.eqb_refl in I. injection I as <-. unfold nw_predict in P. cbn [nw_std] in P. destruct (Req_EM_T (rstd targets) 0); [discriminate|contradiction]. }
    clear - S0 NE. destruct targets as [|a l]; [congruence|]. destruct (Forall_Exists_dec (fun y => y = a) (fun y => Req_EM_T y a) l) as [F|F].
    + exfalso. apply S0. apply rstd_zero; [assumption|]. rewrite Forall_forall in F. intros y y' [<-|Hy] [<-|Hy']; try reflexivity; try (now apply F); try (symmetry; now apply F). rewrite (F y Hy), (F y' Hy'). reflexivity.
    + apply Exists_exists in F. destruct F as (y & Hy & D). exists y, a. repeat split; [now right|now left|exact D].
  - intros (y & y' & H1 & H2 & D). eexists. apply (nw_weighted_mean kernel h inputs targets r x K H NI I). intros Z. apply D. apply (proj1 (rstd_zero targets NE) Z); assumption.
Qed.
Theorem kernel_shape : forall x y, 0 < gaussian_kernel x /\ gaussian_kernel (- x) = gaussian_kernel x /\ gaussian_kernel x = exp (normal_log_density x 0 1) /\ (Rabs x <= Rabs y -> gaussian_kernel y <= gaussian_kernel x).
Proof.
  intros x y. assert (P : 0 < sqrt (2 * PI)) by (apply sqrt_lt_R0; assert (Q := PI_RGT_0); lra). unfold gaussian_kernel. repeat split.
  - apply Rdiv_lt_0_compat; [apply exp_pos|exact P].
  - f_equal. f_equal. ring.
  - unfold normal_log_density. rewrite exp_ln. rewrite Rmult_1_r. unfold Rdiv. rewrite Rmult_comm. f_equal. f_equal. field. apply Rmult_lt_0_compat. apply Rinv_0_lt_compat. now rewrite Rmult_1_r. apply exp_pos.
  - intros H. apply Rmult_le_compat_r; [apply Rlt_le, Rinv_0_lt_compat, P|]. apply Rsqr_le_abs_1 in H. unfold Rsqr in H. destruct (Req_dec (x * x) (y * y)) as [->|D]; [lra|]. apply Rlt_le, exp_increasing. lra.
Qed.
