(** Derivatives of the inverse multiquadric kernel, and the sum of the Stein kernel over a chain. *)
From Coq Require Import List Arith Reals Lra Lia.
From Verif Require Import Lib TempModel McmcModel McmcProofs4 KsdSpec KsdProofs KsdProofs2.
Import ListNotations.
Open Scope R_scope.

(** one coordinate: h |-> 1 / sqrt (B + 2 a h + h^2) *)
Definition quad (B a h : R) : R := B + 2 * a * h + h * h.
Definition phi (B a h : R) : R := / sqrt (quad B a h).
Definition phi1 (B a h : R) : R := - (a + h) / (quad B a h * sqrt (quad B a h)).
Definition phi2 (B a : R) : R := (3 * a * a - B) / (B * B * sqrt B).
Section Line.
Variables B a : R.
Hypothesis PB : 0 < B - a * a.
Lemma quad_pos h : 0 < quad B a h.
Proof. unfold quad. assert (0 <= (h + a) * (h + a)) by apply Rle_0_sqr. lra. Qed.
Lemma quad_derivative h : derivable_pt_lim (quad B a) h (2 * a + 2 * h).
Proof.
  unfold quad. replace (2 * a + 2 * h) with ((0 + 2 * a * 1) + (1 * id h + id h * 1)) by (unfold id; ring).
  apply (derivable_pt_lim_plus (fun h => B + 2 * a * h) (fun h => id h * id h)); [|exact (derivable_pt_lim_mult id id h 1 1 (derivable_pt_lim_id h) (derivable_pt_lim_id h))].
  apply (derivable_pt_lim_plus (fun _ => B) (fun h => 2 * a * h)); [apply derivable_pt_lim_const|]. exact (derivable_pt_lim_scal id (2 * a) h 1 (derivable_pt_lim_id h)).
Qed.
Lemma root_derivative h : derivable_pt_lim (fun h => sqrt (quad B a h)) h ((a + h) / sqrt (quad B a h)).
Proof.
  assert (P := quad_pos h). assert (SP := sqrt_lt_R0 _ P). replace ((a + h) / sqrt (quad B a h)) with (/ (2 * sqrt (quad B a h)) * (2 * a + 2 * h)) by (field; lra).
  apply (derivable_pt_lim_comp (quad B a) sqrt); [apply quad_derivative|now apply derivable_pt_lim_sqrt].
Qed.
Lemma phi_derivative h : derivable_pt_lim (phi B a) h (phi1 B a h).
Proof.
  assert (P := quad_pos h). assert (SP := sqrt_lt_R0 _ P). assert (SS := sqrt_sqrt _ (Rlt_le _ _ P)).
  apply (derivable_pt_lim_ext (fun h => 1 / sqrt (quad B a h))); [intros; unfold phi; lra|].
  pose proof (derivable_pt_lim_div (fun _ => 1) (fun h => sqrt (quad B a h)) h 0 _ (derivable_pt_lim_const 1 h) (root_derivative h) ltac:(lra)) as X. cbv beta in X.
  replace (phi1 B a h) with ((0 * sqrt (quad B a h) - (a + h) / sqrt (quad B a h) * 1) / (sqrt (quad B a h))²); [exact X|]. unfold phi1, Rsqr. set (s := sqrt (quad B a h)) in *. rewrite <- SS. field. lra.
Qed.
Lemma phi1_derivative : derivable_pt_lim (phi1 B a) 0 (phi2 B a).
Proof.
  assert (P := quad_pos 0). assert (SP := sqrt_lt_R0 _ P). assert (SS := sqrt_sqrt _ (Rlt_le _ _ P)).
  assert (N : derivable_pt_lim (fun h => - (a + h)) 0 (- (0 + 1))) by (apply (derivable_pt_lim_opp (fun h => a + h)), (derivable_pt_lim_plus (fun _ => a) id); [apply derivable_pt_lim_const|apply derivable_pt_lim_id]).
  pose proof (derivable_pt_lim_mult _ _ 0 _ _ (quad_derivative 0) (root_derivative 0)) as M.
  pose proof (derivable_pt_lim_div _ _ 0 _ _ N M) as X. unfold mult_fct in X.
  assert (Z : quad B a 0 * sqrt (quad B a 0) <> 0) by (apply Rgt_not_eq, Rmult_lt_0_compat; assumption). specialize (X Z).
  assert (Q0 : quad B a 0 = B) by (unfold quad; ring). rewrite Q0 in *. unfold phi1. 
  replace (phi2 B a) with ((- (0 + 1) * (B * sqrt B) - ((2 * a + 2 * 0) * sqrt B + B * ((a + 0) / sqrt B)) * - (a + 0)) / (B * sqrt B)²); [exact X|].
  unfold phi2, Rsqr. set (s := sqrt B) in *. rewrite <- SS. field. lra.
Qed.
End Line.

(** difference quotients along 1, 1/2, 1/3, ... *)
Definition step (n : nat) : R := / INR (Datatypes.S n).
Lemma step_pos n : 0 < step n.
Proof. apply Rinv_0_lt_compat, lt_0_INR. lia. Qed.
Lemma step_small (d : R) : 0 < d -> exists N, forall n, (n >= N)%nat -> step n < d.
Proof.
  intros P. destruct (archimed_cor1 d P) as (N & A & B). exists N. intros n H. apply Rle_lt_trans with (/ INR N); [|exact A]. unfold step. apply Rinv_le_contravar; [now apply lt_0_INR|apply le_INR; lia].
Qed.
Lemma quotient_right f v : derivable_pt_lim f 0 v -> Un_cv (fun n => (f (step n) - f 0) / step n) v.
Proof.
  intros D e E. destruct (D e E) as (d & H). destruct (step_small d (cond_pos d)) as (N & HN). exists N. intros n L. unfold R_dist. specialize (H (step n)). rewrite Rplus_0_l in H. pose proof (step_pos n). apply H; [lra|]. rewrite Rabs_right by lra. now apply HN.
Qed.
Lemma quotient_left f v : derivable_pt_lim f 0 v -> Un_cv (fun n => (f (- step n) - f 0) / step n) (- v).
Proof.
  intros D e E. destruct (D e E) as (d & H). destruct (step_small d (cond_pos d)) as (N & HN). exists N. intros n L. unfold R_dist. specialize (H (- step n)). rewrite Rplus_0_l in H. pose proof (step_pos n). rewrite <- Rabs_Ropp.
  replace (- ((f (- step n) - f 0) / step n - - v)) with ((f (- step n) - f 0) / - step n - v) by (field; lra). apply H; [lra|]. rewrite Rabs_Ropp, Rabs_right by lra. now apply HN.
Qed.
Lemma quotient_second f f' v : (forall h, derivable_pt_lim f h (f' h)) -> derivable_pt_lim f' 0 v -> Un_cv (fun n => (f (step n) + f (- step n) - 2 * f 0) / (step n * step n)) v.
Proof.
  intros D D2 e E. destruct (D2 (e / 2) ltac:(lra)) as (d & H). destruct (step_small d (cond_pos d)) as (N & HN). exists N. intros n L. unfold R_dist. pose proof (step_pos n) as P. specialize (HN n L). set (s := step n) in *.
  set (psi := fun h => f h + f (- h) - 2 * f 0). change (f s + f (- s) - 2 * f 0) with (psi s).
  assert (DP : forall h, derivable_pt_lim psi h (f' h - f' (- h))).
  { intros h. unfold psi. replace (f' h - f' (- h)) with (f' h + (f' (- h) * - 1) - 0) by ring. apply (derivable_pt_lim_minus (fun h => f h + f (- h)) (fun _ => 2 * f 0)); [|apply derivable_pt_lim_const].
    apply (derivable_pt_lim_plus f (fun h => f (- h))); [apply D|]. apply (derivable_pt_lim_comp Ropp f); [|apply D]. apply (derivable_pt_lim_opp id), derivable_pt_lim_id. }
  destruct (MVT_cor2 (fun h => psi h * (s * s) - psi s * (h * h)) (fun h => (f' h - f' (- h)) * (s * s) - psi s * (2 * h)) 0 s P) as (c & X & C).
  { intros h _. apply (derivable_pt_lim_minus (fun h => psi h * (s * s)) (fun h => psi s * (h * h))).
    - apply (derivable_pt_lim_ext (fun h => s * s * psi h)); [intros; ring|]. rewrite (Rmult_comm _ (s * s)). apply (derivable_pt_lim_scal psi), DP.
    - apply (derivable_pt_lim_scal (fun h => h * h)). replace (2 * h) with (1 * id h + id h * 1) by (unfold id; ring). exact (derivable_pt_lim_mult id id h 1 1 (derivable_pt_lim_id h) (derivable_pt_lim_id h)). }
  assert (P0 : psi 0 = 0) by (unfold psi; rewrite Ropp_0; ring). rewrite P0 in X.
  assert (Y : psi s / (s * s) = (f' c - f' (- c)) / (2 * c)).
  { assert (Z : ((f' c - f' (- c)) * (s * s) - psi s * (2 * c)) * s = 0) by (rewrite Rminus_0_r in X; rewrite <- X; ring). apply Rmult_integral in Z. destruct Z as [Z|Z]; [|lra]. apply Rmult_eq_reg_r with (s * s * (2 * c)); [|apply Rgt_not_eq; repeat apply Rmult_lt_0_compat; lra].
    replace (psi s / (s * s) * (s * s * (2 * c))) with (psi s * (2 * c)) by (field; lra). replace ((f' c - f' (- c)) / (2 * c) * (s * s * (2 * c))) with ((f' c - f' (- c)) * (s * s)) by (field; lra). lra. }
  rewrite Y. pose proof (H c ltac:(lra)) as H1. pose proof (H (- c) ltac:(lra)) as H2. rewrite Rplus_0_l in H1, H2. rewrite Rabs_Ropp in H2. rewrite Rabs_right in H1, H2 by lra. specialize (H1 ltac:(lra)). specialize (H2 ltac:(lra)).
  replace ((f' c - f' (- c)) / (2 * c) - v) with (/ 2 * ((f' c - f' 0) / c - v) + / 2 * ((f' (- c) - f' 0) / - c - v)) by (field; lra).
  eapply Rle_lt_trans; [apply Rabs_triang|]. rewrite !Rabs_mult, (Rabs_right (/ 2)) by lra. lra.
Qed.

(** points moved along a coordinate *)
Lemma moved_length : forall d h x, length (moved d h x) = length x.
Proof. intros d h x. revert d. induction x as [|b x IH]; intros [|d]; cbn [moved length]; auto. Qed.
Lemma moved_zero : forall d x, moved d 0 x = x.
Proof. intros d x. revert d. induction x as [|b x IH]; intros [|d]; cbn [moved]; try reflexivity; [now rewrite Rplus_0_r|now rewrite IH]. Qed.
Definition coord (d : nat) (x y : list R) : R := nth d x 0 - nth d y 0.
Lemma sq_dist_moved : forall d h e x y, length x = length y -> (d < length x)%nat -> sq_dist (moved d h x) (moved d e y) = sq_dist x y + 2 * coord d x y * (h - e) + (h - e) * (h - e).
Proof.
  intros d h e x. revert d. induction x as [|b x IH]; intros d [|b' y] L D; try (cbn in *; lia). destruct d as [|d].
  - unfold sq_dist, coord. cbn [moved combine map fst snd fold_right nth]. ring.
  - cbn [length] in *. specialize (IH d y ltac:(lia) ltac:(lia)). unfold sq_dist, coord in *. cbn [moved combine map fst snd fold_right nth] in *. rewrite IH. ring.
Qed.
Lemma sq_dist_nonneg x y : 0 <= sq_dist x y.
Proof. unfold sq_dist. induction (combine x y) as [|p l IH]; cbn [map fold_right]; [lra|]. assert (0 <= (fst p - snd p) * (fst p - snd p)) by apply Rle_0_sqr. lra. Qed.
Lemma coord_below : forall d x y, length x = length y -> (d < length x)%nat -> coord d x y * coord d x y <= sq_dist x y.
Proof.
  intros d x. revert d. induction x as [|b x IH]; intros d [|b' y] L D; try (cbn in *; lia). pose proof (sq_dist_nonneg x y) as P. destruct d as [|d]; unfold sq_dist, coord in *; cbn [combine map fst snd fold_right nth length] in *; [lra|].
  specialize (IH d y ltac:(lia) ltac:(lia)). assert (0 <= (b - b') * (b - b')) by apply Rle_0_sqr. lra.
Qed.
Lemma imq_moved c d h e x y : length x = length y -> (d < length x)%nat -> imq c (moved d h x) (moved d e y) = phi (c * c + sq_dist x y) (coord d x y) (h - e).
Proof. intros L D. unfold imq, phi, quad. rewrite sq_dist_moved by assumption. do 2 f_equal. ring. Qed.
Lemma imq_moved_left c d h x y : length x = length y -> (d < length x)%nat -> imq c (moved d h x) y = phi (c * c + sq_dist x y) (coord d x y) h.
Proof. intros L D. rewrite <- (moved_zero d y) at 1. rewrite imq_moved by assumption. f_equal. ring. Qed.
Lemma imq_here c d x y : imq c x y = phi (c * c + sq_dist x y) (coord d x y) 0.
Proof. unfold imq, phi, quad. do 2 f_equal. ring. Qed.
Lemma spread c d x y : 0 < c -> length x = length y -> (d < length x)%nat -> 0 < c * c + sq_dist x y - coord d x y * coord d x y.
Proof. intros C L D. pose proof (coord_below d x y L D). assert (0 < c * c) by nra. lra. Qed.

Lemma imq_left c d x y : 0 < c -> length x = length y -> (d < length x)%nat -> partial_left (imq c) d x y (phi1 (c * c + sq_dist x y) (coord d x y) 0).
Proof.
  intros C L D. unfold partial_left. apply (derivable_pt_lim_ext (phi (c * c + sq_dist x y) (coord d x y))); [intros; now rewrite imq_moved_left|]. now apply phi_derivative, spread.
Qed.
Lemma imq_right_at c d h x y : 0 < c -> length x = length y -> (d < length x)%nat -> partial_right (imq c) d (moved d h x) y (- phi1 (c * c + sq_dist x y) (coord d x y) h).
Proof.
  intros C L D. unfold partial_right. apply (derivable_pt_lim_ext (fun e => phi (c * c + sq_dist x y) (coord d x y) (h - e))); [intros; now rewrite imq_moved|].
  replace (- phi1 (c * c + sq_dist x y) (coord d x y) h) with (phi1 (c * c + sq_dist x y) (coord d x y) (h - 0) * (0 - 1)) by (rewrite Rminus_0_r; ring).
  apply (derivable_pt_lim_comp (fun e => h - e) (phi (c * c + sq_dist x y) (coord d x y))); [|now apply phi_derivative, spread].
  apply (derivable_pt_lim_minus (fun _ => h) id); [apply derivable_pt_lim_const|apply derivable_pt_lim_id].
Qed.
Lemma imq_right c d x y : 0 < c -> length x = length y -> (d < length x)%nat -> partial_right (imq c) d x y (- phi1 (c * c + sq_dist x y) (coord d x y) 0).
Proof. intros C L D. pose proof (imq_right_at c d 0 x y C L D) as X. now rewrite moved_zero in X. Qed.
Lemma imq_both c d x y : 0 < c -> length x = length y -> (d < length x)%nat -> partial_both (imq c) d x y (- phi2 (c * c + sq_dist x y) (coord d x y)).
Proof.
  intros C L D. exists (fun h => - phi1 (c * c + sq_dist x y) (coord d x y) h). split; [intros h; now apply imq_right_at|]. apply (derivable_pt_lim_opp (phi1 (c * c + sq_dist x y) (coord d x y))). now apply phi1_derivative, spread.
Qed.

(** the kernel of the model in coordinates *)
Lemma rdot_coord : forall x y, length x = length y -> rdot x y = rsum (map (fun d => nth d x 0 * nth d y 0) (seq 0 (length x))).
Proof.
  unfold rdot. induction x as [|b x IH]; intros [|b' y] L; try (cbn in *; lia); [reflexivity|]. cbn [length] in *. cbn [combine map fst snd seq nth]. rewrite !rsum_cons, IH by lia. f_equal. rewrite <- seq_shift, map_map. reflexivity.
Qed.
Lemma rminus_length x : forall y, length x = length y -> length (rminus x y) = length x.
Proof. intros y L. unfold rminus. rewrite map_length, combine_length. lia. Qed.
Lemma rminus_nth : forall x y d, length x = length y -> nth d (rminus x y) 0 = coord d x y.
Proof.
  unfold rminus, coord. induction x as [|b x IH]; intros [|b' y] d L; try (cbn in *; lia); [destruct d; cbn; lra|]. cbn [length] in L. cbn [combine map fst snd]. destruct d as [|d]; cbn [nth]; [reflexivity|apply IH; lia].
Qed.
Lemma sq_dist_rdot x y : sq_dist x y = rdot (rminus x y) (rminus x y).
Proof. unfold sq_dist, rdot, rminus. induction (combine x y) as [|p l IH]; [reflexivity|]. cbn [map combine fst snd fold_right]. rewrite rsum_cons, IH. reflexivity. Qed.
Lemma rpower_half B : 0 < B -> Rpower B (- / 2) = / sqrt B.
Proof. intros P. rewrite Rpower_Ropp, Rpower_sqrt by assumption. reflexivity. Qed.
Lemma rpower_half1 B : 0 < B -> Rpower B (- / 2 - 1) = / (B * sqrt B).
Proof. intros P. unfold Rminus. rewrite Rpower_plus, rpower_half, Rpower_Ropp, Rpower_1 by assumption. pose proof (sqrt_lt_R0 _ P). field. lra. Qed.
Lemma rpower_half2 B : 0 < B -> Rpower B (- / 2 - 2) = / (B * B * sqrt B).
Proof. intros P. replace (- / 2 - 2) with ((- / 2 - 1) + - (1)) by ring. rewrite Rpower_plus, rpower_half1, Rpower_Ropp, Rpower_1 by assumption. pose proof (sqrt_lt_R0 _ P). field. lra. Qed.
Lemma rsum_one n : rsum (map (fun _ : nat => 1) (seq 0 n)) = INR n.
Proof. generalize 0%nat. induction n as [|n IH]; intros k; [reflexivity|]. cbn [seq map]. rewrite rsum_cons, IH, S_INR. ring. Qed.
Definition stein_coord (c : R) (x y gx gy : list R) (d : nat) : R :=
  nth d gx 0 * nth d gy 0 * imq c x y - nth d gx 0 * phi1 (c * c + sq_dist x y) (coord d x y) 0 + nth d gy 0 * phi1 (c * c + sq_dist x y) (coord d x y) 0 - phi2 (c * c + sq_dist x y) (coord d x y).
Lemma stein_sum c x y gx gy : 0 < c -> length x = length y -> length gx = length x -> length gy = length x -> stein_kernel c (- / 2) x y gx gy = rsum (map (stein_coord c x y gx gy) (seq 0 (length x))).
Proof.
  intros C L GX GY. pose proof (sq_dist_nonneg x y) as SD. assert (PB : 0 < c * c + sq_dist x y) by nra. unfold stein_kernel. rewrite <- sq_dist_rdot. set (B := c * c + sq_dist x y) in *. pose proof (sqrt_lt_R0 _ PB) as SP.
  rewrite rpower_half, rpower_half1, rpower_half2 by assumption.
  rewrite (rdot_coord gx gy) by lia. rewrite (rdot_coord gx (rminus x y)) by (rewrite rminus_length; lia). rewrite (rdot_coord gy (rminus x y)) by (rewrite rminus_length; lia). rewrite (sq_dist_rdot x y), (rdot_coord (rminus x y) (rminus x y)), rminus_length by (try lia; reflexivity). rewrite GX, GY, <- (rsum_one (length x)).
  rewrite (rsum_map_ext (stein_coord c x y gx gy) (fun d => / sqrt B * (nth d gx 0 * nth d gy 0) + (/ (B * sqrt B) * (nth d gx 0 * nth d (rminus x y) 0) + (- / (B * sqrt B) * (nth d gy 0 * nth d (rminus x y) 0) + (/ (B * sqrt B) * 1 + -3 * / (B * B * sqrt B) * (nth d (rminus x y) 0 * nth d (rminus x y) 0)))))).
  - rewrite !rsum_map_plus, !rsum_map_scale. field. lra.
  - intros d _. rewrite rminus_nth by assumption. unfold stein_coord, imq, phi1, phi2. fold B. replace (quad B (coord d x y) 0) with B by (unfold quad; ring). field. lra.
Qed.
Theorem stein_langevin : forall c x y gx gy, 0 < c -> length y = length x -> length gx = length x -> length gy = length x -> langevin (imq c) x y gx gy (stein_kernel c (- / 2) x y gx gy).
Proof.
  intros c x y gx gy C L GX GY. exists (fun d => phi1 (c * c + sq_dist x y) (coord d x y) 0), (fun d => - phi1 (c * c + sq_dist x y) (coord d x y) 0), (fun d => - phi2 (c * c + sq_dist x y) (coord d x y)). split.
  - intros d D. repeat split; [apply imq_left|apply imq_right|apply imq_both]; auto.
  - rewrite stein_sum by auto. change (fold_right Rplus 0) with rsum. apply rsum_map_ext. intros d _. unfold stein_coord. ring.
Qed.

(** the sum over a chain, as a limit of sums of the kernel over perturbed chains *)
Lemma dsum_pairs {S T} (f g : S -> T) l M : dsum (flat_map (fun p => [f p; g p]) l) M = dsum l (fun p q => M (f p) (f q) + M (f p) (g q) + M (g p) (f q) + M (g p) (g q)).
Proof.
  assert (X : forall (h : T -> R) l, rsum (map h (flat_map (fun p => [f p; g p]) l)) = rsum (map (fun p => h (f p) + h (g p)) l)).
  { clear. intros h. induction l as [|p l IH]; [reflexivity|]. cbn [flat_map app map]. rewrite !rsum_cons, IH. ring. }
  unfold dsum. rewrite X. apply rsum_map_ext. intros p _. rewrite !X, <- rsum_map_plus. apply rsum_map_ext. intros q _. ring.
Qed.
Lemma psd_imq' D c : 0 < c -> psd D (imq c).
Proof. intros C l L. pose proof (psd_imq D c C l L) as H. rewrite (dsum_ext _ _ (fun p q => fst p * fst q * / sqrt (base c (snd p) (snd q)))); [exact H|]. intros p q _ _. unfold imq, base. now rewrite sq_dist_rdot. Qed.
Lemma chain_coord D c d (l : list (list R * list R)) : 0 < c -> (d < D)%nat -> (forall p, In p l -> length (fst p) = D) -> 0 <= dsum l (fun p q => stein_coord c (fst p) (fst q) (snd p) (snd q) d).
Proof.
  intros C HD L. set (v := fun p : list R * list R => nth d (snd p) 0).
  set (form := fun n (p q : list R * list R) => v p * v q * imq c (fst p) (fst q) + (v p * ((phi (c * c + sq_dist (fst p) (fst q)) (coord d (fst p) (fst q)) (- step n) - phi (c * c + sq_dist (fst p) (fst q)) (coord d (fst p) (fst q)) 0) / step n) + (v q * ((phi (c * c + sq_dist (fst p) (fst q)) (coord d (fst p) (fst q)) (step n) - phi (c * c + sq_dist (fst p) (fst q)) (coord d (fst p) (fst q)) 0) / step n) + -1 * ((phi (c * c + sq_dist (fst p) (fst q)) (coord d (fst p) (fst q)) (step n) + phi (c * c + sq_dist (fst p) (fst q)) (coord d (fst p) (fst q)) (- step n) - 2 * phi (c * c + sq_dist (fst p) (fst q)) (coord d (fst p) (fst q)) 0) / (step n * step n))))).
  apply (cv_nonneg (fun n => dsum l (form n))).
  - intros n. pose proof (step_pos n) as SP. pose proof (psd_imq' D c C (flat_map (fun p => [(v p - / step n, fst p); (/ step n, moved d (step n) (fst p))]) l)) as H.
    rewrite dsum_pairs in H. cbn [fst snd] in H. rewrite (dsum_ext _ _ (form n)) in H; [apply H|].
    + intros p I. apply in_flat_map in I. destruct I as (q & I & [E|[E|[]]]); subst p; cbn [snd]; [|rewrite moved_length]; now apply L.
    + intros p q I J. assert (LP := L p I). assert (LQ := L q J). rewrite imq_moved, imq_moved_left by lia. rewrite <- (moved_zero d (fst p)) at 2. rewrite imq_moved by lia. rewrite (imq_here c d (fst p) (fst q)). unfold form. rewrite (imq_here c d (fst p) (fst q)).
      replace (step n - step n) with 0 by ring. replace (0 - step n) with (- step n) by ring. field. lra.
  - apply cv_dsum. intros p q I J. assert (LP := L p I). assert (LQ := L q J). unfold form, stein_coord. fold (v p). fold (v q). set (f := phi (c * c + sq_dist (fst p) (fst q)) (coord d (fst p) (fst q))). set (f1 := phi1 (c * c + sq_dist (fst p) (fst q)) (coord d (fst p) (fst q))).
    assert (SPR := spread c d (fst p) (fst q) C ltac:(lia) ltac:(lia)). assert (DF : forall h, derivable_pt_lim f h (f1 h)) by (intros h; now apply phi_derivative).
    replace (v p * v q * imq c (fst p) (fst q) - v p * f1 0 + v q * f1 0 - phi2 (c * c + sq_dist (fst p) (fst q)) (coord d (fst p) (fst q))) with (v p * v q * imq c (fst p) (fst q) + (v p * - f1 0 + (v q * f1 0 + -1 * phi2 (c * c + sq_dist (fst p) (fst q)) (coord d (fst p) (fst q))))) by ring.
    apply CV_plus; [apply cv_const|]. apply CV_plus; [apply cv_scale; now apply quotient_left|]. apply CV_plus; [apply cv_scale; now apply quotient_right|]. apply cv_scale. apply (quotient_second f f1); [exact DF|now apply phi1_derivative].
Qed.
Theorem stein_nonnegative : forall D c (l : list (list R * list R)), 0 < c -> (forall p, In p l -> length (fst p) = D /\ length (snd p) = D) ->
  0 <= pair_sum (fun p q => stein_kernel c (- / 2) (fst p) (fst q) (snd p) (snd q)) l.
Proof.
  intros D c l C L. change (0 <= dsum l (fun p q => stein_kernel c (- / 2) (fst p) (fst q) (snd p) (snd q))). rewrite (dsum_ext _ _ (fun p q => rsum (map (fun d => stein_coord c (fst p) (fst q) (snd p) (snd q) d) (seq 0 D)))).
  - rewrite (dsum_sum l (fun d p q => stein_coord c (fst p) (fst q) (snd p) (snd q) d)). 
    assert (X : forall ds, (forall d, In d ds -> (d < D)%nat) -> 0 <= rsum (map (fun d => dsum l (fun p q => stein_coord c (fst p) (fst q) (snd p) (snd q) d)) ds)).
    { induction ds as [|d ds IH]; intros H; [cbn; lra|]. cbn [map]. rewrite rsum_cons. assert (0 <= dsum l (fun p q => stein_coord c (fst p) (fst q) (snd p) (snd q) d)) by (apply (chain_coord D); [exact C|apply H; now left|intros p I; now apply L]). specialize (IH ltac:(intros; apply H; now right)). lra. }
    apply X. intros d I. apply in_seq in I. lia.
  - intros p q I J. destruct (L p I) as [P1 P2], (L q J) as [Q1 Q2]. rewrite stein_sum by (assumption || congruence). now rewrite P1.
Qed.
Theorem ksd_real : forall D samples grads, samples <> [] -> Forall (fun x => length x = D) samples -> Forall (fun g => length g = D) grads ->
  exists v, ksd None None samples grads = Ok v /\ 0 <= v /\
    (v * INR (length samples)) * (v * INR (length samples)) = pair_sum (fun p q => stein_kernel 1 (- / 2) (fst p) (fst q) (snd p) (snd q)) (combine samples grads).
Proof.
  intros D samples grads N FS FG. unfold ksd. eexists. split; [reflexivity|]. change (rsum (map (fun xg => rsum (map (fun yh => stein_kernel 1 (- / 2) (fst xg) (fst yh) (snd xg) (snd yh)) (combine samples grads))) (combine samples grads))) with (pair_sum (fun p q : list R * list R => stein_kernel 1 (- / 2) (fst p) (fst q) (snd p) (snd q)) (combine samples grads)).
  assert (P : 0 <= pair_sum (fun p q => stein_kernel 1 (- / 2) (fst p) (fst q) (snd p) (snd q)) (combine samples grads)).
  { apply (stein_nonnegative D); [lra|]. intros [x g] I. rewrite Forall_forall in FS, FG. split; [apply FS; now apply in_combine_l in I|apply FG; now apply in_combine_r in I]. }
  set (T := pair_sum _ _) in *. assert (LP : 0 < INR (length samples)) by (apply lt_0_INR; destruct samples; [congruence|cbn; lia]). pose proof (sqrt_pos T) as SP. pose proof (sqrt_sqrt T P) as SS. split.
  - apply Rmult_le_pos; [exact SP|apply Rlt_le, Rinv_0_lt_compat, LP].
  - replace (sqrt T / INR (length samples) * INR (length samples)) with (sqrt T) by (field; lra). exact SS.
Qed.
Theorem ksd_discrepancy : forall D samples grads, samples <> [] -> Forall (fun x => length x = D) samples -> Forall (fun g => length g = D) grads ->
  exists v u, ksd None None samples grads = Ok v /\ 0 <= v /\
    (forall p q, In p (combine samples grads) -> In q (combine samples grads) -> langevin (imq 1) (fst p) (fst q) (snd p) (snd q) (u p q)) /\
    (v * INR (length samples)) * (v * INR (length samples)) = pair_sum u (combine samples grads).
Proof.
  intros D samples grads N FS FG. destruct (ksd_real D samples grads N FS FG) as (v & E & P & Q). exists v, (fun p q => stein_kernel 1 (- / 2) (fst p) (fst q) (snd p) (snd q)). repeat split; try assumption.
  rewrite Forall_forall in FS, FG. intros [x g] [y h] I J. cbn [fst snd]. pose proof (FS x (in_combine_l _ _ _ _ I)). pose proof (FS y (in_combine_l _ _ _ _ J)). pose proof (FG g (in_combine_r _ _ _ _ I)). pose proof (FG h (in_combine_r _ _ _ _ J)). apply stein_langevin; [lra|congruence|congruence|congruence].
Qed.
Theorem langevin_unique : forall k x y gx gy v w, langevin k x y gx gy v -> langevin k x y gx gy w -> v = w.
Proof.
  intros k x y gx gy v w (l & r & b & H & ->) (l' & r' & b' & H' & ->). change (fold_right Rplus 0) with rsum. apply rsum_map_ext. intros d I. apply in_seq in I. destruct (H d ltac:(lia)) as (A & B & s & C1 & C2). destruct (H' d ltac:(lia)) as (A' & B' & s' & C1' & C2').
  assert (l d = l' d) by exact (uniqueness_limite _ _ _ _ A A'). assert (r d = r' d) by exact (uniqueness_limite _ _ _ _ B B').
  assert (E : forall h, s h = s' h) by (intros h; exact (uniqueness_limite _ _ _ _ (C1 h) (C1' h))). assert (b d = b' d). { apply (uniqueness_limite s 0); [exact C2|]. apply (derivable_pt_lim_ext s' s); [intros; now rewrite E|exact C2']. } congruence.
Qed.
Lemma ksd_case2 : ksd None None [[5]; [5]] [[1]; [-1]] = Ok 1.
Proof.
  unfold ksd. cbn [combine map fst snd length INR]. unfold stein_kernel, rdot, rminus. cbn [combine map fst snd length INR]. unfold rsum. cbn [fold_right].
  replace (1 * 1 + ((5 - 5) * (5 - 5) + 0)) with 1 by ring. rewrite !Rpower_one_base. f_equal.
  match goal with |- sqrt ?a / _ = _ => replace a with (2 * 2) by field end. rewrite sqrt_square by lra. field.
Qed.
