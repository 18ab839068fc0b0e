From Coq Require Import List Arith Lia Reals Lra.
From Verif Require Import Lib SchedModel SchedSpec.
Import ListNotations.
Open Scope list_scope.
Open Scope R_scope.

Definition ssq (l : list R) : R := fold_right (fun z acc => z * z + acc) 0 l.
Lemma ssq_cons z l : ssq (z :: l) = z * z + ssq l.
Proof. reflexivity. Qed.
Lemma ssq_nil : ssq [] = 0.
Proof. reflexivity. Qed.
Lemma ssq_nonneg l : 0 <= ssq l.
Proof. induction l as [|z l IH]; [cbn; lra|]. rewrite ssq_cons. pose proof (Rle_0_sqr z) as H. unfold Rsqr in H. lra. Qed.
Lemma ssq_app l m : ssq (l ++ m) = ssq l + ssq m.
Proof. induction l as [|z l IH]; [cbn [app]; rewrite ssq_nil; lra|]. cbn [app]. rewrite !ssq_cons, IH. lra. Qed.
Lemma sum_squares_eq g : sum_squares g = ssq (concat g).
Proof.
  unfold sum_squares.
  assert (H : forall g x, fold_left (fun x y => x + fold_right Rplus 0 (map (fun z => z ^ 2) y)) g x = x + ssq (concat g)).
  { clear. induction g as [|a g IH]; intros x; cbn [fold_left concat].
    - cbn. lra.
    - rewrite IH, ssq_app. assert (E : fold_right Rplus 0 (map (fun z => z ^ 2) a) = ssq a).
      { clear. induction a as [|z a IH]; [reflexivity|]. cbn [map fold_right]. rewrite IH, ssq_cons. lra. }
      rewrite E. lra. }
  rewrite H. lra.
Qed.
Lemma norm_eq g : norm g = sqrt (sum_squares g).
Proof. rewrite sum_squares_eq. reflexivity. Qed.
Lemma ssq_scale c l : ssq (map (fun z => c * z) l) = c * c * ssq l.
Proof. induction l as [|z l IH]; [cbn [map]; rewrite ssq_nil; lra|]. cbn [map]. rewrite !ssq_cons, IH. ring. Qed.
Lemma norm_scale c g : 0 <= c -> norm (map (map (fun z => c * z)) g) = c * norm g.
Proof.
  intros H. unfold norm. rewrite <- concat_map. fold (ssq (map (fun z => c * z) (concat g))) (ssq (concat g)).
  rewrite ssq_scale, sqrt_mult_alt by nra. f_equal. apply sqrt_square. exact H.
Qed.
Lemma norm_nonneg g : 0 <= norm g.
Proof. apply sqrt_pos. Qed.
Lemma eps_pos : 0 < / 10 ^ 7.
Proof. apply Rinv_0_lt_compat. lra. Qed.

Definition mult_of (g : list (list R)) (m : R) : R := Rmin 1 (m / (/ 10 ^ 7 + norm g)).
Lemma clip_by_norm_eq g m : clip_by_norm g m = map (map (fun z => mult_of g m * z)) g.
Proof. unfold clip_by_norm, mult_of. rewrite norm_eq. reflexivity. Qed.
Lemma mult_range g m : 0 <= m -> 0 <= mult_of g m <= 1.
Proof.
  intros H. unfold mult_of. pose proof (norm_nonneg g). pose proof eps_pos. split; [|apply Rmin_l].
  apply Rmin_glb; [lra|]. apply Rmult_le_pos; [exact H|]. apply Rlt_le, Rinv_0_lt_compat. lra.
Qed.

Theorem clip_norm_bound : forall g m, 0 <= m -> norm (clip_by_norm g m) <= m.
Proof.
  intros g m H. rewrite clip_by_norm_eq. pose proof (mult_range g m H) as [M0 M1]. rewrite norm_scale by exact M0.
  pose proof (norm_nonneg g) as N. pose proof eps_pos as E.
  apply Rle_trans with (m / (/ 10 ^ 7 + norm g) * norm g).
  - apply Rmult_le_compat_r; [exact N|apply Rmin_r].
  - unfold Rdiv. rewrite Rmult_assoc. rewrite <- (Rmult_1_r m) at 2. apply Rmult_le_compat_l; [exact H|].
    apply Rmult_le_reg_l with (/ 10 ^ 7 + norm g); [lra|]. rewrite <- Rmult_assoc, Rinv_r by lra. lra.
Qed.

Theorem clip_norm_direction : forall g m, 0 <= m -> exists c, 0 <= c <= 1 /\ clip_by_norm g m = map (map (fun z => c * z)) g.
Proof. intros g m H. exists (mult_of g m). split; [now apply mult_range|apply clip_by_norm_eq]. Qed.

Lemma scale_one g : map (map (fun z => 1 * z)) g = g.
Proof.
  rewrite <- (map_id g) at 2. apply map_ext. intros a. rewrite <- (map_id a) at 2. apply map_ext. intros z. lra.
Qed.
Theorem clip_norm_small : forall g m, norm g + / 10 ^ 7 <= m -> clip_by_norm g m = g.
Proof.
  intros g m H. rewrite clip_by_norm_eq. assert (E : mult_of g m = 1).
  { unfold mult_of. apply Rmin_left. pose proof (norm_nonneg g) as N. pose proof eps_pos as E.
    apply Rmult_le_reg_r with (/ 10 ^ 7 + norm g); [lra|]. unfold Rdiv. rewrite Rmult_assoc, Rinv_l by lra. lra. }
  rewrite E. apply scale_one.
Qed.

Lemma subtract_scale c g : subtract (map (map (fun z => c * z)) g) g = map (map (fun z => (c - 1) * z)) g.
Proof.
  unfold subtract. induction g as [|a g IH]; cbn [map combine]; [reflexivity|]. rewrite IH. f_equal. cbn [fst snd].
  clear. induction a as [|z a IH]; cbn [map combine]; [reflexivity|]. rewrite IH. f_equal. cbn. lra.
Qed.
Lemma norm_scale_abs c g : norm (map (map (fun z => c * z)) g) = Rabs c * norm g.
Proof.
  unfold norm. rewrite <- concat_map. fold (ssq (map (fun z => c * z) (concat g))) (ssq (concat g)).
  rewrite ssq_scale, sqrt_mult_alt by nra. f_equal. apply sqrt_Rsqr_abs.
Qed.
(** a gradient within the bound moves by at most 1e-7 *)
Theorem clip_norm_nearly : forall g m, norm g <= m -> norm (subtract (clip_by_norm g m) g) <= / 10 ^ 7.
Proof.
  intros g m H. pose proof (norm_nonneg g) as N. pose proof eps_pos as E.
  rewrite clip_by_norm_eq, subtract_scale, norm_scale_abs.
  destruct (mult_range g m) as [M0 M1]; [lra|]. rewrite Rabs_left1 by lra.
  unfold mult_of in *. set (e := / 10 ^ 7) in *. set (n := norm g) in *.
  assert (D : 0 < / (e + n)) by (apply Rinv_0_lt_compat; lra).
  assert (Dn : (e + n) * / (e + n) = 1) by (apply Rinv_r; lra).
  destruct (Rle_dec 1 (m / (e + n))) as [L|G].
  - rewrite Rmin_left by exact L. lra.
  - rewrite Rmin_right by lra. unfold Rdiv in *.
    apply Rle_trans with (- (n * / (e + n) - 1) * n).
    + apply Rmult_le_compat_r; [exact N|]. apply Ropp_le_contravar. apply Rplus_le_compat_r. apply Rmult_le_compat_r; lra.
    + assert (- (n * / (e + n) - 1) = e * / (e + n)) by lra. rewrite H0.
      rewrite Rmult_assoc. apply Rle_trans with (e * 1); [|lra]. apply Rmult_le_compat_l; [lra|].
      apply Rmult_le_reg_l with (e + n); [lra|]. rewrite <- Rmult_assoc, Dn. lra.
Qed.

(** the toy gradient of the example *)
Lemma clip_case : norm [[3]; [4]] = 5 /\ norm (clip_by_norm [[3]; [4]] 1) < 1 /\ clip_by_norm [[3]; [4]] 6 = [[3]; [4]].
Proof.
  assert (N : norm [[3]; [4]] = 5).
  { unfold norm. cbn. replace (3 * 3 + (4 * 4 + 0)) with (5 * 5) by lra. apply sqrt_square. lra. }
  split; [exact N|]. split.
  - rewrite clip_by_norm_eq. unfold mult_of. rewrite N. pose proof eps_pos as E. set (e := / 10 ^ 7) in *.
    assert (D : 0 < / (e + 5)) by (apply Rinv_0_lt_compat; lra).
    assert (Dn : (e + 5) * / (e + 5) = 1) by (apply Rinv_r; lra).
    rewrite Rmin_right by (unfold Rdiv; nra). rewrite norm_scale by (unfold Rdiv; nra). rewrite N. unfold Rdiv. nra.
  - apply clip_norm_small. rewrite N. assert (X : / 10 ^ 7 <= / 1) by (apply Rinv_le_contravar; lra). rewrite Rinv_1 in X. lra.
Qed.
