(** Proofs about the Gauss-Newton diagonal, Laplace standard deviations, Gaussian
    distributions and the ADVI flow. *)
From Coq Require Import List Arith ZArith Bool Lia Reals Lra Psatz.
From Verif Require Import Lib TempModel TempProofs3 PredModel PredSpec TempSpec PredProofs4 PredProofs5 LikProofs2 LapModel LapSpec.
Import ListNotations.
Open Scope R_scope.

Lemma isum_rover n f : isum n f = rover n f. Proof. reflexivity. Qed.
Lemma rover_ext n f g : (forall i, (i < n)%nat -> f i = g i) -> rover n f = rover n g.
Proof. intros H. rewrite !rover_rs. apply rs_ext. intros i Hi. apply in_seq in Hi. apply H. lia. Qed.
Lemma rover_scale n f c : rover n (fun i => f i * c) = rover n f * c.
Proof. rewrite !rover_rs. apply rs_scale. Qed.
Lemma rover_scale_l n f c : rover n (fun i => c * f i) = c * rover n f.
Proof. rewrite Rmult_comm, <- rover_scale. apply rover_ext. intros; ring. Qed.
Lemma rover_add n f g : rover n (fun i => f i + g i) = rover n f + rover n g.
Proof. rewrite !rover_rs. apply rs_add. Qed.
Lemma rover_sub n f g : rover n (fun i => f i - g i) = rover n f - rover n g.
Proof. rewrite !rover_rs. apply rs_sub. Qed.
Lemma rover_swap n m (f : nat -> nat -> R) : rover n (fun i => rover m (f i)) = rover m (fun j => rover n (fun i => f i j)).
Proof. rewrite !rover_rs. rewrite (rs_ext _ (fun i => rs (f i) (seq 0 m))) by (intros; apply rover_rs). rewrite (rs_swap f). apply rs_ext. intros. now rewrite rover_rs. Qed.
Lemma rover_nonneg n f : (forall i, (i < n)%nat -> 0 <= f i) -> 0 <= rover n f.
Proof. intros H. rewrite rover_rs. apply rs_nonneg. intros i Hi. apply in_seq in Hi. apply H. lia. Qed.
Lemma rover_delta n i f : (i < n)%nat -> rover n (fun j => if (i =? j)%nat then f j else 0) = f i.
Proof.
  intros H. rewrite rover_rs. assert (G : forall m a, (a <= i)%nat -> (i < a + m)%nat -> rs (fun j => if (i =? j)%nat then f j else 0) (seq a m) = f i).
  { induction m as [|m IH]; intros a A B; [lia|]. cbn [seq]. rewrite rs_cons. destruct (Nat.eqb_spec i a) as [->|D].
    - rewrite (rs_ext _ (fun _ => 0)). rewrite rs_const. ring. intros j Hj. apply in_seq in Hj. destruct (Nat.eqb_spec a j); [lia|reflexivity].
    - rewrite IH by lia. ring. }
  apply G; lia.
Qed.

(** ---- Gauss-Newton ---- *)
Theorem ggn_quadratic : forall n H lam z J p, eigen_decomposition n H lam z -> ggn_point n lam z J p = - quad n H (fun o => J o p).
Proof.
  intros n H lam z J p E. unfold ggn_point, quad. f_equal. rewrite isum_rover.
  transitivity (rover n (fun k => rover n (fun o => rover n (fun o' => J o p * (lam k * (z o k * z o' k)) * J o' p)))).
  - apply rover_ext. intros k Hk. unfold ztj. rewrite !isum_rover. rewrite <- Rmult_assoc, (Rmult_comm (lam k)), Rmult_assoc. rewrite <- rover_scale. apply rover_ext. intros o Ho. rewrite <- !rover_scale_l. apply rover_ext. intros o' Ho'. ring.
  - rewrite rover_swap. apply rover_ext. intros o Ho. rewrite rover_swap. apply rover_ext. intros o' Ho'. rewrite (E o o' Ho Ho'). rewrite rover_scale, rover_scale_l. reflexivity.
Qed.
Theorem ggn_nonneg : forall n H lam z J p, eigen_decomposition n H lam z -> (forall v, quad n H v <= 0) -> 0 <= ggn_point n lam z J p.
Proof. intros n H lam z J p E N. rewrite (ggn_quadratic n H lam z J p E). specialize (N (fun o => J o p)). lra. Qed.
Lemma ggn_loader_from {X} (point : X -> nat -> R) p loader : forall h, fold_left (fun h batch => h + ggn_batch point batch p) loader h = h + rtotal (map (fun x => point x p) (concat loader)).
Proof.
  induction loader as [|b loader IH]; intros h; cbn [fold_left concat]. cbn. ring. rewrite IH, map_app. unfold ggn_batch. clear. induction b as [|x b IH]; cbn [map app]. cbn. ring.
  change (rsum (point x p :: map (fun w => point w p) b)) with (point x p + rsum (map (fun y => point y p) b)). change (rtotal (point x p :: map (fun y => point y p) b ++ map (fun y => point y p) (concat loader))) with (point x p + rtotal (map (fun y => point y p) b ++ map (fun y => point y p) (concat loader))). lra.
Qed.
Theorem ggn_batching : forall (X : Type) (point : X -> nat -> R) loader p, ggn_loader point loader p = rtotal (map (fun x => point x p) (concat loader)).
Proof. intros. unfold ggn_loader. rewrite ggn_loader_from. ring. Qed.

(** ---- softmax Hessian ---- *)
Lemma quad_softmax n p v : quad n (softmax_hessian p) v = rover n (fun i => p i * v i) * rover n (fun i => p i * v i) - rover n (fun i => p i * (v i * v i)).
Proof.
  unfold quad. rewrite (rover_ext n _ (fun o => (p o * v o) * rover n (fun o' => p o' * v o') - p o * (v o * v o))).
  - rewrite rover_sub, rover_scale. reflexivity.
  - intros o Ho. rewrite (rover_ext n _ (fun o' => (p o * v o) * (p o' * v o') - (if (o =? o')%nat then v o * p o * v o' else 0))).
    + rewrite rover_sub, rover_scale_l, rover_delta by exact Ho. ring.
    + intros o' Ho'. unfold softmax_hessian. destruct (Nat.eqb_spec o o') as [->|D]; ring.
Qed.
Lemma jensen_sq n p v : (forall i, (i < n)%nat -> 0 <= p i) -> rover n p = 1 -> rover n (fun i => p i * v i) * rover n (fun i => p i * v i) <= rover n (fun i => p i * (v i * v i)).
Proof.
  intros P T. set (m := rover n (fun i => p i * v i)). assert (N : 0 <= rover n (fun i => p i * ((v i - m) * (v i - m)))). { apply rover_nonneg. intros i Hi. apply Rmult_le_pos; [now apply P|apply Rle_0_sqr]. }
  rewrite (rover_ext n _ (fun i => p i * (v i * v i) - (2 * m) * (p i * v i) + (m * m) * p i)) in N by (intros; ring). rewrite rover_add, rover_sub, !rover_scale_l in N. fold m in N. rewrite T in N. lra.
Qed.
Lemma softmax_quad_nonpos o v : o <> [] -> quad (length o) (softmax_hessian (fun i => nth i (softmax o) 0)) v <= 0.
Proof.
  intros H. rewrite quad_softmax. assert (J := jensen_sq (length o) (fun i => nth i (softmax o) 0) v). cbn beta in J. specialize (J (fun i Hi => Rlt_le _ _ (softmax_pos o i Hi)) (softmax_sum o H)). lra.
Qed.
Lemma moved_length o v t : length (moved o v t) = length o. Proof. unfold moved. now rewrite map_length, seq_length. Qed.
Lemma moved_nth o v t i : (i < length o)%nat -> nth i (moved o v t) 0 = nth i o 0 + t * v i.
Proof. intros H. unfold moved. rewrite (nth_indep _ 0 (nth 0 o 0 + t * v 0%nat)) by (now rewrite map_length, seq_length). rewrite (map_nth (fun i => nth i o 0 + t * v i) (seq 0 (length o)) 0%nat), seq_nth by exact H. reflexivity. Qed.
Lemma moved_0 o v : moved o v 0 = o.
Proof. apply nth_ext0. apply moved_length. intros i Hi. rewrite moved_length in Hi. rewrite moved_nth by exact Hi. ring. Qed.
(** sums of exponentials and their derivatives *)
Definition expo (o : list R) (v : nat -> R) (j : nat) (t : R) : R := rover (length o) (fun i => v i ^ j * exp (nth i o 0 + t * v i)).
Lemma expo_moved o v t : rsum (map exp (moved o v t)) = expo o v 0 t.
Proof. unfold expo, moved. rewrite map_map. unfold rover. change rsum with rtotal. f_equal. apply map_ext. intros i. cbn [pow]. ring. Qed.
Lemma deriv_sum {A} (f f' : A -> R -> R) t l : (forall a, In a l -> derivable_pt_lim (f a) t (f' a t)) -> derivable_pt_lim (fun t => rs (fun a => f a t) l) t (rs (fun a => f' a t) l).
Proof.
  induction l as [|a l IH]; intros H. apply derivable_pt_lim_const. change (derivable_pt_lim (fun t => f a t + rs (fun a => f a t) l) t (f' a t + rs (fun a => f' a t) l)). apply (derivable_pt_lim_plus (f a) (fun t => rs (fun a => f a t) l)). apply H. now left. apply IH. intros b Hb. apply H. now right.
Qed.
Lemma deriv_affine a b t : derivable_pt_lim (fun t => a + t * b) t b.
Proof. assert (D : derivable_pt_lim (fun t => a + t * b) t (0 + (1 * b + t * 0))). { apply (derivable_pt_lim_plus (fct_cte a) (fun t => t * b)). apply derivable_pt_lim_const. apply (derivable_pt_lim_mult id (fct_cte b)). apply derivable_pt_lim_id. apply derivable_pt_lim_const. } replace (0 + (1 * b + t * 0)) with b in D by ring. exact D. Qed.
Lemma deriv_exp_affine a b t : derivable_pt_lim (fun t => exp (a + t * b)) t (b * exp (a + t * b)).
Proof. rewrite Rmult_comm. apply (derivable_pt_lim_comp (fun t => a + t * b) exp). apply deriv_affine. apply derivable_pt_lim_exp. Qed.
Lemma expo_deriv o v j t : derivable_pt_lim (expo o v j) t (expo o v (S j) t).
Proof.
  unfold expo. change (derivable_pt_lim (fun t => rs (fun i => v i ^ j * exp (nth i o 0 + t * v i)) (seq 0 (length o))) t (rs (fun i => v i ^ S j * exp (nth i o 0 + t * v i)) (seq 0 (length o)))).
  apply (deriv_sum (fun i t => v i ^ j * exp (nth i o 0 + t * v i)) (fun i t => v i ^ S j * exp (nth i o 0 + t * v i))). intros i _. replace (v i ^ S j * exp (nth i o 0 + t * v i)) with (v i ^ j * (v i * exp (nth i o 0 + t * v i))) by (cbn [pow]; ring). apply (derivable_pt_lim_scal (fun t => exp (nth i o 0 + t * v i))). apply deriv_exp_affine.
Qed.
Lemma expo_pos o v t : o <> [] -> 0 < expo o v 0 t.
Proof. intros H. rewrite <- expo_moved. apply rsum_exp_pos. intros E. apply H. apply length_zero_iff_nil. rewrite <- (moved_length o v t), E. reflexivity. Qed.
Lemma deriv_ext f g t d : (forall x, f x = g x) -> derivable_pt_lim f t d -> derivable_pt_lim g t d.
Proof. intros E H eps He. destruct (H eps He) as [delta D]. exists delta. intros h Hh Hd. rewrite <- !E. now apply D. Qed.
Theorem classification_hessian : forall o y v, (y < length o)%nat ->
  second_derivative_at_0 (fun t => class_log_prob (moved o v t) y) (quad (length o) (softmax_hessian (fun i => nth i (softmax o) 0)) v).
Proof.
  intros o y v Hy. assert (NE : o <> []) by (intros ->; cbn in Hy; lia).
  assert (F : forall t, (nth y o 0 + t * v y) - ln (expo o v 0 t) = class_log_prob (moved o v t) y). { intros t. rewrite log_prob_ln by (rewrite moved_length; exact Hy). rewrite softmax_nth by (rewrite moved_length; exact Hy). rewrite moved_nth, expo_moved by exact Hy. rewrite ln_div, ln_exp; [reflexivity|apply exp_pos|now apply expo_pos]. }
  exists (fun t => v y - expo o v 1 t / expo o v 0 t). split.
  - intros t. apply (deriv_ext _ _ t _ F). apply (derivable_pt_lim_minus (fun t => nth y o 0 + t * v y) (fun t => ln (expo o v 0 t))). apply deriv_affine.
    unfold Rdiv. rewrite Rmult_comm. apply (derivable_pt_lim_comp (expo o v 0) ln). apply expo_deriv. apply derivable_pt_lim_ln. now apply expo_pos.
  - assert (P := expo_pos o v 0 NE). assert (D : derivable_pt_lim (fun t => v y - expo o v 1 t / expo o v 0 t) 0 (0 - (expo o v 2 0 * expo o v 0 0 - expo o v 1 0 * expo o v 1 0) / Rsqr (expo o v 0 0))).
    { apply (derivable_pt_lim_minus (fct_cte (v y)) (fun t => expo o v 1 t / expo o v 0 t)). apply derivable_pt_lim_const. apply (derivable_pt_lim_div (expo o v 1) (expo o v 0)). apply expo_deriv. apply expo_deriv. lra. }
    replace (quad _ _ _) with (0 - (expo o v 2 0 * expo o v 0 0 - expo o v 1 0 * expo o v 1 0) / Rsqr (expo o v 0 0)); [exact D|]. rewrite quad_softmax.
    assert (W : forall j, rover (length o) (fun i => nth i (softmax o) 0 * v i ^ j) = expo o v j 0 / expo o v 0 0).
    { intros j. unfold expo at 1. unfold Rdiv. rewrite <- rover_scale. apply rover_ext. intros i Hi. rewrite softmax_nth by exact Hi. rewrite <- expo_moved, moved_0, Rmult_0_l, Rplus_0_r. unfold Rdiv. ring. }
    rewrite (rover_ext _ (fun i => nth i (softmax o) 0 * v i) (fun i => nth i (softmax o) 0 * v i ^ 1)) by (intros; cbn [pow]; ring). rewrite (rover_ext _ (fun i => nth i (softmax o) 0 * (v i * v i)) (fun i => nth i (softmax o) 0 * v i ^ 2)) by (intros; cbn [pow]; ring). rewrite !W. unfold Rsqr. field. lra.
Qed.
Theorem classification_ggn_nonneg : forall o lam z J p, o <> [] -> eigen_decomposition (length o) (softmax_hessian (fun i => nth i (softmax o) 0)) lam z -> 0 <= ggn_point (length o) lam z J p.
Proof. intros o lam z J p NE E. apply (ggn_nonneg _ _ _ _ _ _ E). intros v. now apply softmax_quad_nonpos. Qed.

(** ---- Gaussian Hessian ---- *)
Lemma quad_gauss y m lv v : quad 2 (gaussian_hessian y m lv) v = - exp (- lv) * (v 0%nat * v 0%nat + 2 * (y - m) * v 0%nat * v 1%nat + (y - m) * (y - m) * (v 1%nat * v 1%nat) / 2).
Proof. unfold quad, rover, rtotal. cbn [seq map fold_right gaussian_hessian]. field. Qed.
Theorem regression_hessian : forall y m lv v, second_derivative_at_0 (fun t => normal_log_density y (m + t * v 0%nat) (exp (lv + t * v 1%nat))) (quad 2 (gaussian_hessian y m lv) v).
Proof.
  intros y m lv v. set (a := v 0%nat). set (b := v 1%nat).
  set (e := fun t => exp (- lv + t * - b)). set (q := fun t => (y - m) + t * - a).
  assert (De : forall t, derivable_pt_lim e t (- b * e t)) by (intros t; apply deriv_exp_affine).
  assert (Dq : forall t, derivable_pt_lim q t (- a)) by (intros t; apply deriv_affine).
  assert (Dqq : forall t, derivable_pt_lim (fun t => q t * q t) t (- a * q t + q t * - a)) by (intros t; apply (derivable_pt_lim_mult q q); apply Dq).
  assert (Deqq : forall t, derivable_pt_lim (fun t => e t * (q t * q t)) t (- b * e t * (q t * q t) + e t * (- a * q t + q t * - a))) by (intros t; apply (derivable_pt_lim_mult e (fun t => q t * q t)); [apply De|apply Dqq]).
  assert (Deq : forall t, derivable_pt_lim (fun t => e t * q t) t (- b * e t * q t + e t * - a)) by (intros t; apply (derivable_pt_lim_mult e q); [apply De|apply Dq]).
  assert (F : forall t, - (1 / 2) * (e t * (q t * q t) + ((lv + ln (2 * PI)) + t * b)) = normal_log_density y (m + t * a) (exp (lv + t * b))).
  { intros t. rewrite <- gauss_normal. unfold gauss_term, e, q. replace (- (lv + t * b)) with (- lv + t * - b) by ring. ring. }
  exists (fun t => - (1 / 2) * ((- b * (e t * (q t * q t)) + - (2 * a) * (e t * q t)) + b)). split.
  - intros t. apply (deriv_ext _ _ t _ F). apply (derivable_pt_lim_scal (fun t => e t * (q t * q t) + ((lv + ln (2 * PI)) + t * b))). replace (- b * (e t * (q t * q t)) + - (2 * a) * (e t * q t) + b) with ((- b * e t * (q t * q t) + e t * (- a * q t + q t * - a)) + b) by ring. apply (derivable_pt_lim_plus (fun t => e t * (q t * q t)) (fun t => (lv + ln (2 * PI)) + t * b)). apply Deqq. apply deriv_affine.
  - rewrite quad_gauss. fold a b. assert (D : derivable_pt_lim (fun t => - (1 / 2) * ((- b * (e t * (q t * q t)) + - (2 * a) * (e t * q t)) + b)) 0 (- (1 / 2) * ((- b * (- b * e 0 * (q 0 * q 0) + e 0 * (- a * q 0 + q 0 * - a)) + - (2 * a) * (- b * e 0 * q 0 + e 0 * - a)) + 0))).
    { apply (derivable_pt_lim_scal (fun t => (- b * (e t * (q t * q t)) + - (2 * a) * (e t * q t)) + b)). apply (derivable_pt_lim_plus (fun t => - b * (e t * (q t * q t)) + - (2 * a) * (e t * q t)) (fct_cte b)); [|apply derivable_pt_lim_const]. apply (derivable_pt_lim_plus (fun t => - b * (e t * (q t * q t))) (fun t => - (2 * a) * (e t * q t))). apply (derivable_pt_lim_scal (fun t => e t * (q t * q t))), Deqq. apply (derivable_pt_lim_scal (fun t => e t * q t)), Deq. }
    match type of D with derivable_pt_lim _ _ ?d => replace (- exp (- lv) * _) with d; [exact D|] end. unfold e, q. rewrite !Rmult_0_l, !Rplus_0_r. field.
Qed.
(** ---- standard deviations ---- *)
Theorem laplace_std_spec : forall plv h, 0 <= h -> exists s, laplace_std plv h = Some s /\ 0 < s /\ / (s * s) = exp (- plv) + h /\ s <= sqrt (exp plv).
Proof.
  intros plv h H. unfold laplace_std. assert (E := exp_pos (- plv)). destruct (Rle_lt_dec _ _) as [L|L]; [lra|]. eexists. split; [reflexivity|]. set (q := exp (- plv) + h) in *. assert (S := sqrt_lt_R0 q L). assert (P : 0 < 1 / sqrt q) by (apply Rdiv_lt_0_compat; lra). split; [exact P|]. split.
  - replace (1 / sqrt q * (1 / sqrt q)) with (/ (sqrt q * sqrt q)) by (field; lra). rewrite Rinv_inv. apply sqrt_sqrt. lra.
  - replace (1 / sqrt q) with (sqrt (/ q)). apply sqrt_le_1_alt. rewrite <- (Rinv_inv (exp plv)). apply Rinv_le_contravar. apply Rinv_0_lt_compat, exp_pos. rewrite <- exp_Ropp. unfold q. lra. rewrite sqrt_inv. unfold Rdiv. ring.
Qed.
Theorem laplace_std_anti : forall plv h h' s s', h <= h' -> laplace_std plv h = Some s -> laplace_std plv h' = Some s' -> s' <= s.
Proof.
  intros plv h h' s s' H. unfold laplace_std. destruct (Rle_lt_dec (exp (- plv) + h) 0); [discriminate|]. destruct (Rle_lt_dec (exp (- plv) + h') 0); [discriminate|]. intros E1 E2. injection E1 as <-. injection E2 as <-. unfold Rdiv. apply Rmult_le_compat_l; [lra|]. apply Rinv_le_contravar. now apply sqrt_lt_R0. apply sqrt_le_1_alt. lra.
Qed.
Theorem laplace_std_prior_mono : forall plv plv' h s s', plv <= plv' -> laplace_std plv h = Some s -> laplace_std plv' h = Some s' -> s <= s'.
Proof.
  intros plv plv' h s s' H. unfold laplace_std. destruct (Rle_lt_dec (exp (- plv) + h) 0); [discriminate|]. destruct (Rle_lt_dec (exp (- plv') + h) 0); [discriminate|]. intros E1 E2. injection E1 as <-. injection E2 as <-. unfold Rdiv. apply Rmult_le_compat_l; [lra|]. apply Rinv_le_contravar. now apply sqrt_lt_R0. apply sqrt_le_1_alt. apply Rplus_le_compat_r. destruct (Req_dec plv plv') as [->|D]; [lra|]. apply Rlt_le, exp_increasing. lra.
Qed.
Theorem laplace_sample_spec : forall mean plv h e, 0 <= h -> exists s, laplace_std plv h = Some s /\ laplace_sample mean plv h e = Some (mean + s * e) /\ laplace_sample mean plv h 0 = Some mean.
Proof. intros mean plv h e H. destruct (laplace_std_spec plv h H) as (s & E & _). exists s. unfold laplace_sample. rewrite E. repeat split. f_equal. ring. Qed.
(** one Gaussian regression point can make the precision of a parameter negative, whatever the prior *)
Theorem regression_std_refuted : forall plv, exists y m lv J lam z, orthonormal 2 z /\ eigen_decomposition 2 (gaussian_hessian y m lv) lam z /\ laplace_std plv (ggn_point 2 lam z J 0) = None.
Proof.
  intros plv. set (w := exp (- plv)). assert (W := exp_pos (- plv)). fold w in W. set (s := sqrt 2). assert (S2 : s * s = 2) by (apply sqrt_sqrt; lra). assert (SP : 0 < s) by (apply sqrt_lt_R0; lra). assert (S1 : 7 / 5 < s) by nra.
  set (lam := fun k => match k with O => - (1 + s) | _ => s - 1 end). set (z := fun o k => match o, k with S _, S _ => - (s / 2) | _, _ => s / 2 end : R).
  exists s, 0, 0, (fun o _ => match o with O => 2 * (1 + w) | _ => - (2 * (1 + w)) end), lam, z.
  assert (E : eigen_decomposition 2 (gaussian_hessian s 0 0) lam z). { intros [|[|o]] [|[|o']] H H'; try lia; unfold rover, rtotal, lam, z; cbn [seq map fold_right gaussian_hessian]; rewrite Ropp_0, exp_0; nra. }
  split; [|split; [exact E|]]. { intros [|[|o]] [|[|o']] H H'; try lia; unfold rover, rtotal, z; cbn [seq map fold_right Nat.eqb]; nra. }
  rewrite (ggn_quadratic 2 _ _ _ _ 0%nat E), quad_gauss. unfold laplace_std. destruct (Rle_lt_dec _ _) as [L|L]; [reflexivity|]. exfalso. rewrite Ropp_0, exp_0 in L. fold w in L. rewrite Rminus_0_r, S2 in L.
  replace (exp (- plv)) with w in L by reflexivity. assert (Q : w + (1 + w) * (1 + w) * (8 - 8 * s) < 0) by nra. nra.
Qed.
Theorem mc_average : forall lps, lps <> [] -> exp (mc_log_prob lps) = rtotal (map exp lps) / INR (length lps).
Proof.
  intros lps H. unfold mc_log_prob. assert (P := rsum_exp_pos lps H). assert (N : 0 < INR (length lps)) by (apply INR_pos; destruct lps; [congruence|cbn; lia]). rewrite <- ln_div by assumption. apply exp_ln. now apply Rdiv_lt_0_compat.
Qed.

(** ---- Gaussian distribution and ADVI ---- *)
Lemma norm_logpdf_density x m s : 0 < s -> norm_logpdf x m s = normal_log_density x m (s * s).
Proof.
  intros S0. assert (S2 : 0 < s * s) by nra. rewrite <- (exp_ln (s * s) S2) at 1. rewrite <- gauss_normal. unfold gauss_term, norm_logpdf. rewrite exp_Ropp, exp_ln by exact S2. assert (P := PI_RGT_0). rewrite ln_mult by lra. field. lra.
Qed.
Theorem diag_density : forall mean std x, (forall s, In s std -> 0 < s) -> diag_log_prob mean std x = rtotal (map (fun q => normal_log_density (snd q) (fst (fst q)) (snd (fst q) * snd (fst q))) (combine (combine mean std) x)).
Proof.
  intros mean std x H. unfold diag_log_prob. change rsum with rtotal. f_equal. apply map_ext_in. intros [[m s] y] I. cbn [fst snd]. apply norm_logpdf_density. apply H. apply in_combine_l in I. now apply in_combine_r in I.
Qed.
Theorem advi_inverse : forall mean log_std u, length mean = length u -> length log_std = length u ->
  let v := fst (advi_forward mean log_std u) in fst (advi_backward mean log_std v) = u /\ snd (advi_backward mean log_std v) = - snd (advi_forward mean log_std u).
Proof.
  intros mean ls u L1 L2. cbn zeta. split; [|reflexivity]. unfold advi_forward, advi_backward. cbn [fst]. revert mean ls L1 L2. induction u as [|x u IH]; intros [|m mean] [|l ls] L1 L2; try discriminate; [reflexivity|]. cbn [combine map fst snd]. apply (f_equal2 cons); [|apply IH; cbn in L1, L2; lia]. rewrite exp_Ropp. assert (E := exp_pos l). field. lra.
Qed.
Theorem advi_inverse_back : forall mean log_std v, length mean = length v -> length log_std = length v ->
  fst (advi_forward mean log_std (fst (advi_backward mean log_std v))) = v.
Proof.
  intros mean ls v L1 L2. unfold advi_forward, advi_backward. cbn [fst]. revert mean ls L1 L2. induction v as [|x v IH]; intros [|m mean] [|l ls] L1 L2; try discriminate; [reflexivity|]. cbn [combine map fst snd]. apply (f_equal2 cons); [|apply IH; cbn in L1, L2; lia]. rewrite exp_Ropp. assert (E := exp_pos l). field. lra.
Qed.
(** change of variables: base density minus log-determinant is the density of the scaled normal *)
Theorem advi_density : forall lb mean log_std u, length mean = length u -> length log_std = length u ->
  advi_base_log_prob lb u - snd (advi_forward mean log_std u) =
  rtotal (map (fun q => normal_log_density (snd q) (fst (fst q)) (exp (snd (fst q) + lb) * exp (snd (fst q) + lb))) (combine (combine mean log_std) (fst (advi_forward mean log_std u)))).
Proof.
  intros lb mean ls u L1 L2. unfold advi_base_log_prob. rewrite diag_density. 2:{ intros s Hs. apply in_map_iff in Hs. destruct Hs as (x & <- & _). assert (E := exp_pos lb). lra. }
  unfold advi_forward. cbn [fst snd]. change rsum with rtotal. revert mean ls L1 L2. induction u as [|x u IH]; intros [|m mean] [|l ls] L1 L2; try discriminate. cbn. ring.
  assert (X := IH mean ls (eq_add_S _ _ L1) (eq_add_S _ _ L2)). cbn [combine map fst snd]. assert (RC : forall a b, rtotal (a :: b) = a + rtotal b) by reflexivity. rewrite !RC. clear RC.
  match goal with |- ?a + ?b - (l + ?c) = ?d + ?e => cut (a - l = d); [lra|] end.
  rewrite Rmult_1_r, <- !exp_plus, <- !gauss_normal. unfold gauss_term. replace (m + exp l * x - m) with (exp l * x) by ring.
  replace (exp (- (l + lb + (l + lb)))) with (/ (exp l * exp l) * exp (- (lb + lb))). 2:{ rewrite <- exp_plus, <- exp_Ropp, <- exp_plus. f_equal. ring. } assert (E := exp_pos l). field. lra.
Qed.
Lemma mean_add f g l : mean_R (map (fun x : list R => f x + g x) l) = mean_R (map f l) + mean_R (map g l).
Proof. unfold mean_R, Rdiv. rewrite !map_length. change (rsum (map (fun x => f x + g x) l)) with (rs (fun x => f x + g x) l). rewrite rs_add. change (rs f l) with (rsum (map f l)). change (rs g l) with (rsum (map g l)). ring. Qed.
Lemma mean_sub f g l : mean_R (map (fun x : list R => f x - g x) l) = mean_R (map f l) - mean_R (map g l).
Proof. unfold mean_R, Rdiv. rewrite !map_length. change (rsum (map (fun x => f x - g x) l)) with (rs (fun x => f x - g x) l). rewrite rs_sub. change (rs f l) with (rsum (map f l)). change (rs g l) with (rsum (map g l)). ring. Qed.
(** the loss is the Monte Carlo negative evidence lower bound up to a term that does not depend on the parameters *)
Theorem advi_elbo : forall nlj lb mean log_std us, (forall u, In u us -> length mean = length u /\ length log_std = length u) ->
  advi_loss nlj mean log_std us + mean_R (map (advi_base_log_prob lb) us) =
  mean_R (map (fun u => let v := fst (advi_forward mean log_std u) in
    nlj v + rtotal (map (fun q => normal_log_density (snd q) (fst (fst q)) (exp (snd (fst q) + lb) * exp (snd (fst q) + lb))) (combine (combine mean log_std) v))) us).
Proof.
  intros nlj lb mean ls us H. unfold advi_loss. cbn zeta. rewrite mean_add.
  assert (E : map (fun u => rtotal (map (fun q => normal_log_density (snd q) (fst (fst q)) (exp (snd (fst q) + lb) * exp (snd (fst q) + lb))) (combine (combine mean ls) (fst (advi_forward mean ls u))))) us = map (fun u => advi_base_log_prob lb u - snd (advi_forward mean ls u)) us).
  { apply map_ext_in. intros u Hu. symmetry. apply advi_density; now apply H. }
  rewrite E, mean_sub. ring.
Qed.
