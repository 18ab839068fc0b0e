From Coq Require Import List Arith Bool Reals Lra Lia.
From Verif Require Import Lib TempModel TempSpec PredSpec PredProofs4 LapModel LapSpec LapProofs2 SngpModel SngpSpec.
Import ListNotations.
Open Scope R_scope.

Lemma rover_S n f : rover (S n) f = rover n f + f n.
Proof. unfold rover. rewrite seq_S, map_app. cbn [plus map]. unfold rtotal. induction (map f (seq 0 n)) as [|x l IH]; cbn [app fold_right]; [lra|]. rewrite IH. lra. Qed.
Lemma rover_0 f : rover 0 f = 0. Proof. reflexivity. Qed.
Lemma rover_shift n f : rover (S n) f = f 0%nat + rover n (fun i => f (S i)).
Proof. induction n as [|n IH]; [unfold rover; cbn; lra|]. rewrite rover_S, IH, rover_S. lra. Qed.
Lemma rover_const0 n f : (forall i, (i < n)%nat -> f i = 0) -> rover n f = 0.
Proof. intros H. rewrite (rover_ext n f (fun _ => 0)) by exact H. induction n; [reflexivity|]. rewrite rover_S, IHn; [lra|]. intros; apply H; lia. Qed.
Lemma rover_le n f g : (forall i, (i < n)%nat -> f i <= g i) -> rover n f <= rover n g.
Proof. intros H. assert (0 <= rover n (fun i => g i - f i)) by (apply rover_nonneg; intros i Hi; specialize (H i Hi); lra). rewrite rover_sub in H0. lra. Qed.
Lemma inner_comm n x y : inner n x y = inner n y x. Proof. apply rover_ext; intros; ring. Qed.
Lemma inner_nonneg n x : 0 <= inner n x x. Proof. apply rover_nonneg. intros i _. replace (x i * x i) with (Rsqr (x i)) by reflexivity. apply Rle_0_sqr. Qed.
Lemma inner_scale_l n c x y : inner n (fun i => c * x i) y = c * inner n x y.
Proof. unfold inner. rewrite <- rover_scale_l. apply rover_ext; intros; ring. Qed.
Lemma inner_scale_r n c x y : inner n x (fun i => c * y i) = c * inner n x y.
Proof. now rewrite inner_comm, inner_scale_l, inner_comm. Qed.
Lemma inner_zero n x : inner n x x = 0 -> forall i, (i < n)%nat -> x i = 0.
Proof.
  intros H i Hi. assert (x i * x i = 0); [|destruct (Rmult_integral _ _ H0); assumption].
  apply (rs_zero (fun i => x i * x i) (seq 0 n)); [intros; apply (Rle_0_sqr (x x0)) | exact H | apply in_seq; lia].
Qed.
(** Cauchy-Schwarz *)
Lemma cauchy n x y : inner n x y * inner n x y <= inner n x x * inner n y y.
Proof.
  set (a := inner n x x). set (b := inner n x y). set (c := inner n y y).
  assert (Q : forall s t, 0 <= s * s * a + 2 * s * t * b + t * t * c).
  { intros s t. pose proof (inner_nonneg n (fun i => s * x i + t * y i)) as H.
    replace (inner n (fun i => s * x i + t * y i) (fun i => s * x i + t * y i)) with (s * s * a + 2 * s * t * b + t * t * c) in H; [exact H|].
    unfold a, b, c, inner. rewrite <- !rover_scale_l, <- !rover_add. apply rover_ext; intros; ring. }
  assert (A : 0 <= a) by apply inner_nonneg. assert (C : 0 <= c) by apply inner_nonneg.
  destruct (Req_EM_T a 0) as [Z|Z].
  - rewrite Z in *. destruct (Req_EM_T b 0) as [B|B]; [rewrite B; lra|]. exfalso.
    pose proof (Q (- (c + 1) / b) 1) as H. replace (2 * (- (c + 1) / b) * 1 * b) with (- 2 * (c + 1)) in H by (field; exact B). lra.
  - pose proof (Q (- b) a) as H. assert (0 < a) by lra. assert (0 <= a * (a * c - b * b)) by nra.
    apply Rmult_le_reg_l with a; [lra|]. nra.
Qed.
Lemma norm_nonneg n x : 0 <= norm n x. Proof. apply sqrt_pos. Qed.
Lemma norm_sq n x : norm n x * norm n x = inner n x x. Proof. apply sqrt_sqrt, inner_nonneg. Qed.
Lemma cauchy_norm n x y : inner n x y <= norm n x * norm n y.
Proof.
  unfold norm. rewrite <- sqrt_mult by apply inner_nonneg.
  apply Rle_trans with (Rabs (inner n x y)); [apply Rle_abs|]. rewrite <- sqrt_Rsqr_abs. apply sqrt_le_1_alt. exact (cauchy n x y).
Qed.

(** ---- precision matrices ---- *)
Lemma batch_gram feats i j : batch_precision feats i j = gram feats i j.
Proof. unfold batch_precision, gram. rewrite sqrt_1. change rsum with rtotal. f_equal. apply (@map_ext vec R). intros f. ring. Qed.
Lemma gram_app l l' i j : gram (l ++ l') i j = gram l i j + gram l' i j.
Proof. unfold gram. rewrite map_app. unfold rtotal. induction (map (fun f => f i * f j) l) as [|x m IH]; cbn [app fold_right]; [lra|]. rewrite IH. lra. Qed.
Lemma gram_cons f l i j : gram (f :: l) i j = f i * f j + gram l i j. Proof. reflexivity. Qed.
Lemma fold_none batches i j : forall P, fold_left (fun prec feats => update_precision None feats prec) batches P i j = P i j + gram (concat batches) i j.
Proof.
  induction batches as [|b bs IH]; intros P; [cbn; unfold gram; cbn; lra|].
  cbn [fold_left concat]. rewrite IH. unfold update_precision. rewrite batch_gram, gram_app. lra.
Qed.
Theorem precision_exact : forall ridge batches i j, precision_after_epoch ridge None batches i j = (if (i =? j)%nat then ridge else 0) + gram (concat batches) i j.
Proof. intros. unfold precision_after_epoch. rewrite fold_none. unfold initial_precision, eye. destruct (i =? j)%nat; lra. Qed.
Lemma quad_add n A B v : quad n (fun i j => A i j + B i j) v = quad n A v + quad n B v.
Proof. unfold quad. rewrite <- rover_add. apply rover_ext; intros. rewrite <- rover_add. apply rover_ext; intros; ring. Qed.
Lemma quad_scale n c A v : quad n (fun i j => c * A i j) v = c * quad n A v.
Proof. unfold quad. rewrite <- rover_scale_l. apply rover_ext; intros. rewrite <- rover_scale_l. apply rover_ext; intros; ring. Qed.
Lemma quad_ext n A B v : (forall i j, (i < n)%nat -> (j < n)%nat -> A i j = B i j) -> quad n A v = quad n B v.
Proof. intros H. apply rover_ext; intros. apply rover_ext; intros. now rewrite H. Qed.
Lemma quad_outer n f v : quad n (fun i j => f i * f j) v = inner n f v * inner n f v.
Proof.
  unfold quad, inner. rewrite <- rover_scale. apply rover_ext; intros. rewrite <- rover_scale_l. apply rover_ext; intros; ring.
Qed.
Lemma quad_gram n l v : quad n (gram l) v = rtotal (map (fun f => inner n f v * inner n f v) l).
Proof.
  induction l as [|f l IH].
  - unfold quad. apply rover_const0; intros. apply rover_const0; intros. unfold gram. cbn. ring.
  - rewrite (quad_ext n _ (fun i j => f i * f j + gram l i j)) by reflexivity. rewrite quad_add, quad_outer, IH. reflexivity.
Qed.
Lemma rtotal_nonneg {A} (g : A -> R) l : (forall x, In x l -> 0 <= g x) -> 0 <= rtotal (map g l).
Proof. exact (rs_nonneg g l). Qed.
Lemma quad_gram_nonneg n l v : 0 <= quad n (gram l) v.
Proof. rewrite quad_gram. apply rtotal_nonneg. intros; apply (Rle_0_sqr (inner n x v)). Qed.
Lemma quad_diag n c v : quad n (fun i j => if (i =? j)%nat then c else 0) v = c * inner n v v.
Proof.
  unfold quad, inner. rewrite <- rover_scale_l. apply rover_ext; intros i Hi.
  rewrite (rover_ext n _ (fun j => if (i =? j)%nat then v i * c * v j else 0)) by (intros j Hj; destruct (i =? j)%nat; ring).
  rewrite rover_delta by exact Hi. ring.
Qed.
Lemma update_quad n m feats P v : quad n (update_precision m feats P) v =
  match m with None => quad n P v + quad n (gram feats) v | Some m => m * quad n P v + (1 - m) / INR (length feats) * quad n (gram feats) v end.
Proof.
  destruct m as [m|].
  - rewrite <- !quad_scale, <- quad_add. apply quad_ext; intros. unfold update_precision. rewrite batch_gram. unfold Rdiv. ring.
  - rewrite <- quad_add. apply quad_ext; intros. unfold update_precision. now rewrite batch_gram.
Qed.
Lemma update_sym n m feats P : symmetric n P -> symmetric n (update_precision m feats P).
Proof.
  intros H i j Hi Hj. unfold update_precision. rewrite !batch_gram, (H i j Hi Hj).
  assert (E : gram feats i j = gram feats j i) by (unfold gram; f_equal; apply (@map_ext vec R); intros f; ring). now rewrite E.
Qed.
Lemma initial_sym n ridge : symmetric n (initial_precision ridge).
Proof. intros i j _ _. unfold initial_precision, eye. now rewrite Nat.eqb_sym. Qed.
Lemma initial_quad n ridge v : quad n (initial_precision ridge) v = ridge * inner n v v.
Proof. rewrite <- quad_diag. apply quad_ext; intros. unfold initial_precision, eye. destruct (i =? j)%nat; ring. Qed.
Lemma epoch_sym n m ridge batches : symmetric n (precision_after_epoch ridge m batches).
Proof.
  unfold precision_after_epoch. generalize (initial_sym n ridge). generalize (initial_precision ridge).
  induction batches as [|b bs IH]; intros P H; [exact H|]. cbn [fold_left]. now apply IH, update_sym.
Qed.
Lemma epoch_lower n m batches v : 0 <= m <= 1 -> forall P c, c * inner n v v <= quad n P v -> 0 <= c ->
  c * m ^ length batches * inner n v v <= quad n (fold_left (fun prec feats => update_precision (Some m) feats prec) batches P) v.
Proof.
  intros M. induction batches as [|b bs IH]; intros P c H C; [cbn; lra|].
  cbn [fold_left length]. replace (c * m ^ S (length bs)) with ((c * m) * m ^ length bs) by (cbn; ring).
  apply IH; [|apply Rmult_le_pos; lra]. rewrite update_quad.
  assert (0 <= (1 - m) / INR (length b) * quad n (gram b) v).
  { apply Rmult_le_pos; [|apply quad_gram_nonneg]. destruct b as [|x b]; [cbn; unfold Rdiv; rewrite Rinv_0; lra|].
    apply Rmult_le_pos; [lra|]. left. apply Rinv_0_lt_compat. apply INR_pos. cbn; lia. }
  assert (m * (c * inner n v v) <= m * quad n P v) by (apply Rmult_le_compat_l; lra). lra.
Qed.
Theorem precision_bound : forall n ridge momentum batches v, 0 <= ridge -> check_momentum momentum = Ok tt ->
  symmetric n (precision_after_epoch ridge momentum batches) /\
  match momentum with
  | None => ridge * inner n v v <= quad n (precision_after_epoch ridge momentum batches) v
  | Some m => ridge * m ^ length batches * inner n v v <= quad n (precision_after_epoch ridge momentum batches) v
  end.
Proof.
  intros n ridge mo batches v R0 M. split; [apply epoch_sym|]. destruct mo as [m|].
  - cbn in M. destruct (Rlt_dec m 0); [discriminate|]. destruct (Rlt_dec 1 m); [discriminate|].
    unfold precision_after_epoch. apply epoch_lower; [lra| |lra]. rewrite initial_quad. lra.
  - rewrite (quad_ext n _ (fun i j => (if (i =? j)%nat then ridge else 0) + gram (concat batches) i j)) by (intros; apply precision_exact).
    rewrite quad_add, quad_diag. pose proof (quad_gram_nonneg n (concat batches) v). lra.
Qed.
Theorem momentum_check : forall m, check_momentum (Some m) = Ok tt <-> 0 <= m <= 1.
Proof. intros m. cbn. destruct (Rlt_dec m 0); [split; [discriminate|lra]|]. destruct (Rlt_dec 1 m); split; (discriminate || lra || reflexivity). Qed.

(** ---- forward substitution ---- *)
Lemma fs_length L b n : length (forward_subst L b n) = n.
Proof. induction n; [reflexivity|]. cbn [forward_subst]. rewrite app_length, IHn. cbn. lia. Qed.
Lemma fs_prefix L b n m i : (i < n)%nat -> (n <= m)%nat -> nth i (forward_subst L b m) 0 = nth i (forward_subst L b n) 0.
Proof.
  intros Hi. induction 1 as [|m Hm IH]; [reflexivity|]. cbn [forward_subst]. rewrite app_nth1 by (rewrite fs_length; lia). exact IH.
Qed.
Lemma fs_spec L b n i : (i < n)%nat -> L i i <> 0 -> rover (S i) (fun j => L i j * nth j (forward_subst L b n) 0) = b i.
Proof.
  intros Hi Hd. rewrite rover_S. rewrite (fs_prefix L b (S i) n i) by lia. cbn [forward_subst].
  rewrite app_nth2 by (rewrite fs_length; lia). rewrite fs_length, Nat.sub_diag. cbn [nth].
  rewrite (rover_ext i _ (fun j => L i j * nth j (forward_subst L b i) 0)).
  2:{ intros j Hj. now rewrite (fs_prefix L b i n j) by lia. }
  change (isum i (fun j => L i j * nth j (forward_subst L b i) 0)) with (rover i (fun j => L i j * nth j (forward_subst L b i) 0)).
  field. exact Hd.
Qed.
Lemma rover_trunc n m f : (m <= n)%nat -> (forall i, (m <= i < n)%nat -> f i = 0) -> rover n f = rover m f.
Proof. intros H. induction H as [|n H IH]; intros Z; [reflexivity|]. rewrite rover_S, IH, (Z n) by (intros; try apply Z; lia). lra. Qed.
(** L (half feature) = feature *)
Lemma half_spec n A L f : cholesky_factor n A L -> solves n L (fun i => nth i (forward_subst L f n) 0) f.
Proof.
  intros (T & D & _) i Hi. rewrite (rover_trunc n (S i)) by (try lia; intros j Hj; rewrite T by lia; ring).
  apply fs_spec; [exact Hi|]. pose proof (D i Hi). lra.
Qed.
Lemma lower_injective n L x y : (forall i j, (i < j < n)%nat -> L i j = 0) -> (forall i, (i < n)%nat -> 0 < L i i) ->
  (forall i, (i < n)%nat -> rover n (fun j => L i j * x j) = rover n (fun j => L i j * y j)) -> forall i, (i < n)%nat -> x i = y i.
Proof.
  intros T D E i. induction i as [i IH] using lt_wf_ind. intros Hi. specialize (E i Hi).
  rewrite !(rover_trunc n (S i)) in E by (try lia; intros j Hj; rewrite T by lia; ring).
  rewrite !rover_S in E. rewrite (rover_ext i _ (fun j => L i j * y j)) in E by (intros j Hj; rewrite IH by lia; reflexivity).
  pose proof (D i Hi). apply Rmult_eq_reg_l with (L i i); lra.
Qed.
(** L' w is the half feature when A w = f *)
Lemma half_is n A L f w : cholesky_factor n A L -> solves n A w f ->
  forall k, (k < n)%nat -> nth k (forward_subst L f n) 0 = rover n (fun i => L i k * w i).
Proof.
  intros C S. apply (lower_injective n L); [apply C | apply C |]. intros i Hi. rewrite (half_spec n A L f C i Hi), <- (S i Hi).
  destruct C as (_ & _ & C). rewrite (rover_ext n (fun k => L i k * rover n (fun j => L j k * w j)) (fun k => rover n (fun j => L i k * L j k * w j))).
  2:{ intros k Hk. rewrite <- rover_scale_l. apply rover_ext; intros; ring. }
  rewrite rover_swap. apply rover_ext; intros j Hj. rewrite (C i j Hi Hj), <- rover_scale. apply rover_ext; intros; ring.
Qed.
Theorem covariance_is_kernel : forall chol n ridge P f g w, cholesky_factor n P (chol P) -> solves n P w g ->
  covariance_full chol n ridge P f g = ridge * inner n f w.
Proof.
  intros chol n ridge P f g w C S. unfold covariance_full, half_feature. f_equal.
  change (isum n) with (rover n). set (y := fun i => nth i (forward_subst (chol P) f n) 0).
  rewrite (rover_ext n _ (fun k => rover n (fun i => y k * (chol P i k * w i)))).
  2:{ intros k Hk. rewrite (half_is n P (chol P) g w C S k Hk), <- rover_scale_l. reflexivity. }
  rewrite rover_swap. apply rover_ext; intros i Hi. rewrite <- (half_spec n P (chol P) f C i Hi), <- rover_scale. apply rover_ext; intros; unfold y; ring.
Qed.
Theorem covariance_diag_full : forall chol n ridge P f, covariance_diag chol n ridge P f = covariance_full chol n ridge P f f.
Proof. intros. unfold covariance_diag, covariance_full. f_equal. apply rover_ext; intros; ring. Qed.

(** ---- variances through quadratic forms ---- *)
Definition qf n A x y := rover n (fun i => rover n (fun j => x i * A i j * y j)).
Lemma qf_solves n A w b x : solves n A w b -> qf n A x w = inner n x b.
Proof. intros S. apply rover_ext; intros i Hi. rewrite <- (S i Hi), <- rover_scale_l. apply rover_ext; intros; ring. Qed.
Lemma qf_sym n A x y : symmetric n A -> qf n A x y = qf n A y x.
Proof. intros S. unfold qf. rewrite rover_swap. apply rover_ext; intros i Hi. apply rover_ext; intros j Hj. rewrite (S j i Hj Hi). ring. Qed.
Lemma quad_sub n A x y : symmetric n A -> quad n A (fun i => x i - y i) = quad n A x - 2 * qf n A x y + quad n A y.
Proof.
  intros S. replace (2 * qf n A x y) with (qf n A x y + qf n A y x) by (rewrite (qf_sym n A y x S); ring).
  unfold quad, qf. rewrite <- rover_add, <- rover_sub, <- rover_add. apply rover_ext; intros.
  rewrite <- rover_add, <- rover_sub, <- rover_add. apply rover_ext; intros. ring.
Qed.
Lemma quad_qf n A w b : solves n A w b -> quad n A w = inner n w b.
Proof. exact (qf_solves n A w b w). Qed.
(** completing the square *)
Lemma variational n A w b v : symmetric n A -> (forall x, 0 <= quad n A x) -> solves n A w b -> 2 * inner n b v - quad n A v <= inner n b w.
Proof.
  intros S P H. pose proof (P (fun i => v i - w i)) as Q. rewrite quad_sub in Q by exact S.
  rewrite (qf_solves n A w b v H), (quad_qf n A w b H) in Q. rewrite (inner_comm n v b), (inner_comm n w b) in Q. lra.
Qed.
Lemma monotone n A B w w' b : symmetric n A -> (forall x, 0 <= quad n A x) -> (forall x, quad n A x <= quad n B x) ->
  solves n A w b -> solves n B w' b -> inner n b w' <= inner n b w.
Proof.
  intros S P LE H H'. pose proof (variational n A w b w' S P H) as V. pose proof (LE w') as L.
  rewrite (quad_qf n B w' b H'), (inner_comm n w' b) in L. lra.
Qed.
