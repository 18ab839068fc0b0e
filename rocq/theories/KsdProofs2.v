(** The integral of exp(-u^2), and mixtures of Gaussian kernels. *)
From Coq Require Import List Arith Reals Lra Lia.
From Verif Require Import Lib TempModel McmcModel McmcProofs4 KsdProofs.
Import ListNotations.
Open Scope R_scope.

Definition bell (u : R) : R := exp (- (u * u)).
Lemma bell_derivable : forall u, derivable_pt bell u.
Proof. intros u. unfold bell. apply derivable_pt_comp with (f1 := fun u => - (u * u)) (f2 := exp); [|apply derivable_pt_exp]. apply derivable_pt_opp, derivable_pt_mult; apply derivable_pt_id. Qed.
Lemma bell_continuous a b : forall u, a <= u <= b -> continuity_pt bell u.
Proof. intros u _. apply derivable_continuous_pt, bell_derivable. Qed.
Definition integral (u : R) : R := match Rle_dec 0 u with left h => RiemannInt (continuity_implies_RiemannInt h (bell_continuous 0 u)) | right _ => bell 0 * (u - 0) end.
Lemma integral_primitive b (h : 0 <= b) u : u <= b -> primitive h (FTC_P1 h (bell_continuous 0 b)) u = integral u.
Proof.
  intros U. unfold primitive, integral. destruct (Rle_dec 0 u) as [P|P]; [|reflexivity]. destruct (Rle_dec u b) as [Q|Q]; [|contradiction]. apply RiemannInt_P5.
Qed.
Lemma integral_derivative u : 0 <= u -> derivable_pt_lim integral u (bell u).
Proof.
  intros U. assert (h : 0 <= u + 1) by lra. apply (derivable_pt_lim_locally_ext (primitive h (FTC_P1 h (bell_continuous 0 (u + 1)))) integral u (u - 1) (u + 1)); [lra| |].
  - intros z Z. apply integral_primitive. lra.
  - apply RiemannInt_P28. lra.
Qed.
Lemma integral_zero : integral 0 = 0.
Proof. unfold integral. destruct (Rle_dec 0 0) as [P|P]; [|lra]. apply RiemannInt_P9. Qed.

(** monotone functions from their derivatives *)
Lemma grows f f' : (forall u, 0 <= u -> derivable_pt_lim f u (f' u)) -> (forall u, 0 <= u -> 0 <= f' u) -> forall a b, 0 <= a -> a <= b -> f a <= f b.
Proof.
  intros D P a b A B. destruct (Req_dec a b) as [->|N]; [lra|]. destruct (MVT_cor2 f f' a b ltac:(lra)) as (c & E & C); [intros c C; apply D; lra|].
  specialize (P c ltac:(lra)). assert (0 <= f' c * (b - a)) by (apply Rmult_le_pos; lra). lra.
Qed.
Lemma bell_pos u : 0 < bell u.
Proof. apply exp_pos. Qed.
Lemma integral_grows a b : 0 <= a -> a <= b -> integral a <= integral b.
Proof. apply (grows integral bell); [exact integral_derivative|]. intros u _. apply Rlt_le, bell_pos. Qed.
Lemma integral_bounded u : 0 <= u -> integral u <= PI / 2.
Proof.
  intros U. assert (G : atan 0 - integral 0 <= atan u - integral u).
  { apply (grows (fun u => atan u - integral u) (fun u => / (1 + u ^ 2) - bell u)); [| |lra|exact U].
    - intros v V. apply (derivable_pt_lim_minus atan integral); [apply derivable_pt_lim_atan|now apply integral_derivative].
    - intros v V. unfold bell. rewrite exp_Ropp. assert (E := exp_ineq1_le (v * v)). assert (0 <= v * v) by apply Rle_0_sqr. replace (v ^ 2) with (v * v) by ring. assert (/ exp (v * v) <= / (1 + v * v)) by (apply Rinv_le_contravar; lra). lra. }
  rewrite atan_0, integral_zero in G. destruct (atan_bound u). lra.
Qed.
Lemma integral_positive : 0 < integral 1.
Proof.
  destruct (MVT_cor2 integral bell 0 1 ltac:(lra)) as (c & E & C); [intros c C; apply integral_derivative; lra|]. rewrite integral_zero in E. pose proof (bell_pos c). lra.
Qed.
Lemma multiple_above s u : 0 < s -> 0 <= u -> exists N, u < INR N * s.
Proof.
  intros S U. destruct (archimed_cor1 (s / (u + 1))) as (N & A & B); [apply Rdiv_lt_0_compat; lra|]. exists N. assert (P : 0 < INR N) by now apply lt_0_INR.
  assert (X : / INR N * (INR N * (u + 1)) < s / (u + 1) * (INR N * (u + 1))) by (apply Rmult_lt_compat_r; [apply Rmult_lt_0_compat; lra|exact A]).
  replace (/ INR N * (INR N * (u + 1))) with (u + 1) in X by (field; lra). replace (s / (u + 1) * (INR N * (u + 1))) with (INR N * s) in X by (field; lra). lra.
Qed.
(** the whole integral *)
Lemma integral_total : exists L, 0 < L /\ forall s, 0 < s -> Un_cv (fun n => integral (INR n * s)) L.
Proof.
  destruct (completeness (fun v => exists u, 0 <= u /\ v = integral u)) as (L & UB & LUB).
  - exists (PI / 2). intros v (u & U & ->). now apply integral_bounded.
  - exists (integral 0), 0. split; [lra|reflexivity].
  - exists L. split.
    + assert (integral 1 <= L) by (apply UB; exists 1; split; [lra|reflexivity]). pose proof integral_positive. lra.
    + intros s S e E. assert (X : exists u, 0 <= u /\ L - e < integral u).
      { destruct (Classical_Prop.classic (exists u, 0 <= u /\ L - e < integral u)) as [X|X]; [exact X|]. assert (L <= L - e); [|lra]. apply LUB. intros v (u & U & ->). destruct (Rle_lt_dec (integral u) (L - e)) as [Y|Y]; [exact Y|]. elim X. now exists u. }
      destruct X as (u & U & B). destruct (multiple_above s u S U) as (N & HN). exists N. intros n HL. unfold R_dist.
      assert (u <= INR n * s). { assert (INR N <= INR n) by (apply le_INR; lia). assert (INR N * s <= INR n * s) by (apply Rmult_le_compat_r; lra). lra. }
      pose proof (integral_grows u (INR n * s) U H). assert (integral (INR n * s) <= L) by (apply UB; exists (INR n * s); split; [|reflexivity]; lra).
      apply Rabs_def1; lra.
Qed.

(** the mixture of Gaussian kernels over their widths *)
Lemma dsum_derivable {T} (l : list T) (M M' : R -> T -> T -> R) u : (forall p q, In p l -> In q l -> derivable_pt_lim (fun u => M u p q) u (M' u p q)) -> derivable_pt_lim (fun u => dsum l (M u)) u (dsum l (M' u)).
Proof.
  assert (S : forall (l : list T) (f f' : R -> T -> R), (forall p, In p l -> derivable_pt_lim (fun u => f u p) u (f' u p)) -> derivable_pt_lim (fun u => rsum (map (f u) l)) u (rsum (map (f' u) l))).
  { clear. induction l as [|p l IH]; intros f f' H; [exact (derivable_pt_lim_const 0 u)|]. cbn [map]. rewrite rsum_cons. apply (derivable_pt_lim_ext (fun u => f u p + rsum (map (f u) l))); [intros z; now rewrite rsum_cons|].
    apply (derivable_pt_lim_plus (fun u => f u p) (fun u => rsum (map (f u) l))); [apply H; now left|apply IH; intros; apply H; now right]. }
  intros H. unfold dsum. apply (S l (fun u p => rsum (map (M u p) l)) (fun u p => rsum (map (M' u p) l))). intros p I. apply (S l (fun u q => M u p q) (fun u q => M' u p q)). intros q J. now apply H.
Qed.
Definition base (c : R) (x y : list R) : R := c * c + rdot (rminus x y) (rminus x y).
Lemma rdot_self_nonneg : forall x, 0 <= rdot x x.
Proof. intros x. unfold rdot. induction x as [|a x IH]; [cbn; lra|]. cbn [combine map fst snd]. rewrite rsum_cons. assert (0 <= a * a) by apply Rle_0_sqr. lra. Qed.
Lemma base_pos c x y : 0 < c -> 0 < base c x y.
Proof. intros C. unfold base. pose proof (rdot_self_nonneg (rminus x y)). assert (0 < c * c) by nra. lra. Qed.
Lemma psd_imq D c : 0 < c -> psd D (fun x y => / sqrt (base c x y)).
Proof.
  intros C l LD. destruct integral_total as (L & LP & CV).
  set (H := fun u => dsum l (fun p q => fst p * fst q * (integral (u * sqrt (base c (snd p) (snd q))) * / sqrt (base c (snd p) (snd q))))).
  assert (SP : forall x y, 0 < sqrt (base c x y)) by (intros; apply sqrt_lt_R0, base_pos, C).
  assert (HP : forall u, 0 <= u -> 0 <= H u).
  { intros u U. assert (H0 : H 0 = 0). { unfold H. rewrite (dsum_ext _ _ (fun p q => 0 * 1)). - rewrite dsum_scale. lra. - intros p q _ _. rewrite Rmult_0_l, integral_zero. lra. }
    rewrite <- H0. apply (grows H (fun u => dsum l (fun p q => fst p * fst q * exp (- (u * u) * base c (snd p) (snd q))))); [| |lra|exact U].
    - intros v V. unfold H. apply (dsum_derivable l (fun u p q => fst p * fst q * (integral (u * sqrt (base c (snd p) (snd q))) * / sqrt (base c (snd p) (snd q)))) (fun u p q => fst p * fst q * exp (- (u * u) * base c (snd p) (snd q)))).
      intros p q _ _. set (s := sqrt (base c (snd p) (snd q))). assert (S0 : 0 < s) by apply SP. assert (SS : s * s = base c (snd p) (snd q)) by (apply sqrt_sqrt, Rlt_le, base_pos, C).
      apply (derivable_pt_lim_scal (fun u => integral (u * s) * / s)). apply (derivable_pt_lim_ext (fun u => / s * integral (u * s))); [intros; ring|].
      replace (exp (- (v * v) * base c (snd p) (snd q))) with (/ s * (bell (v * s) * s)).
      + apply (derivable_pt_lim_scal (fun u => integral (u * s))). apply (derivable_pt_lim_comp (fun u => u * s) integral v s (bell (v * s))).
        * apply (derivable_pt_lim_ext (fun u => s * u)); [intros; ring|]. pose proof (derivable_pt_lim_scal id s v 1 (derivable_pt_lim_id v)) as DS. rewrite Rmult_1_r in DS. exact DS.
        * apply integral_derivative. apply Rmult_le_pos; lra.
      + unfold bell. rewrite <- SS. replace (- (v * s * (v * s))) with (- (v * v) * (s * s)) by ring. field. lra.
    - intros v V. pose proof (psd_gauss D (v * v) (Rle_0_sqr v) l LD) as G. rewrite (dsum_ext _ _ (fun p q => exp (- (v * v) * (c * c)) * (fst p * fst q * exp (- (v * v) * rdot (rminus (snd p) (snd q)) (rminus (snd p) (snd q)))))).
      + rewrite dsum_scale. apply Rmult_le_pos; [apply Rlt_le, exp_pos|exact G].
      + intros p q _ _. unfold base. rewrite Rmult_plus_distr_l, exp_plus. ring. }
  assert (CVH : Un_cv (fun n => H (INR n)) (dsum l (fun p q => fst p * fst q * (L * / sqrt (base c (snd p) (snd q)))))).
  { unfold H. apply (cv_dsum (fun n p q => fst p * fst q * (integral (INR n * sqrt (base c (snd p) (snd q))) * / sqrt (base c (snd p) (snd q))))). intros p q _ _. apply cv_scale. apply CV_mult; [|apply cv_const]. apply CV, SP. }
  assert (LIM : 0 <= dsum l (fun p q => fst p * fst q * (L * / sqrt (base c (snd p) (snd q))))).
  { apply (cv_nonneg (fun n => H (INR n))); [|exact CVH]. intros n. apply HP, pos_INR. }
  rewrite (dsum_ext _ _ (fun p q => L * (fst p * fst q * / sqrt (base c (snd p) (snd q))))) in LIM by (intros; ring). rewrite dsum_scale in LIM.
  destruct (Rle_lt_dec 0 (dsum l (fun p q => fst p * fst q * / sqrt (base c (snd p) (snd q))))) as [X|X]; [exact X|]. assert (0 < L * - dsum l (fun p q => fst p * fst q * / sqrt (base c (snd p) (snd q)))) by (apply Rmult_lt_0_compat; lra). lra.
Qed.
