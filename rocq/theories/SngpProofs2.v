From Coq Require Import List Arith Bool Reals Lra Lia.
From Verif Require Import Lib TempModel TempSpec PredSpec PredProofs4 LapModel LapSpec LapProofs2 SngpModel SngpSpec SngpProofs.
Import ListNotations.
Open Scope R_scope.

(** triangular systems have solutions *)
Lemma upper_solvable n U : (forall i j, (j < i < n)%nat -> U i j = 0) -> (forall i, (i < n)%nat -> U i i <> 0) -> forall b, exists w, solves n U w b.
Proof.
  induction n as [|n IH]; intros T D b; [exists b; intros i Hi; lia|].
  destruct (IH (fun i j Hij => T i j ltac:(lia)) (fun i Hi => D i ltac:(lia)) (fun i => b i - U i n * (b n / U n n))) as [w Hw].
  exists (fun i => if (i =? n)%nat then b n / U n n else w i). intros i Hi. rewrite rover_S, Nat.eqb_refl.
  rewrite (rover_ext n _ (fun j => U i j * w j)) by (intros j Hj; destruct (Nat.eqb_spec j n); [lia|reflexivity]).
  destruct (Nat.eq_dec i n) as [->|Hn].
  - rewrite rover_const0 by (intros j Hj; rewrite T by lia; ring). field. apply D. lia.
  - rewrite (Hw i) by lia. ring.
Qed.
Lemma cholesky_solvable n A L b : cholesky_factor n A L -> exists w, solves n A w b.
Proof.
  intros C. destruct (upper_solvable n (fun i j => L j i)) with (b := fun i => nth i (forward_subst L b n) 0) as [w Hw].
  - intros i j H. apply C. lia.
  - intros i Hi. pose proof (proj1 (proj2 C) i Hi). lra.
  - exists w. intros i Hi. pose proof (half_spec n A L b C i Hi) as E. cbv beta in E. rewrite <- E.
    rewrite (rover_ext n (fun k => L i k * nth k (forward_subst L b n) 0) (fun k => rover n (fun j => L i k * L j k * w j))).
    2:{ intros k Hk. rewrite <- (Hw k Hk), <- rover_scale_l. apply rover_ext; intros; ring. }
    rewrite rover_swap. apply rover_ext; intros j Hj. destruct C as (_ & _ & C). rewrite (C i j Hi Hj), <- rover_scale. apply rover_ext; intros; ring.
Qed.
(** Cholesky factors exist *)
Lemma schur_quad n A v : symmetric (S n) A -> A 0%nat 0%nat <> 0 ->
  quad n (fun i j => A (S i) (S j) - A (S i) 0%nat * A 0%nat (S j) / A 0%nat 0%nat) v =
  quad (S n) A (fun i => match i with O => - rover n (fun j => A 0%nat (S j) * v j) / A 0%nat 0%nat | S i => v i end).
Proof.
  intros Sy N. set (a := A 0%nat 0%nat) in *. set (r := rover n (fun j => A 0%nat (S j) * v j)).
  unfold quad at 2. rewrite rover_shift, rover_shift. fold a.
  assert (E1 : rover n (fun i => - r / a * A 0%nat (S i) * v i) = - r / a * r).
  { rewrite (rover_ext n _ (fun i => (- r / a) * (A 0%nat (S i) * v i))) by (intros; ring). now rewrite rover_scale_l. }
  rewrite E1.
  assert (E2 : rover n (fun i => rover (S n) (fun o' => v i * A (S i) o' * match o' with O => - r / a | S i => v i end)) =
               - r / a * r + quad n (fun i j => A (S i) (S j)) v).
  { transitivity (rover n (fun i => (- r / a) * (A 0%nat (S i) * v i)) + quad n (fun i j => A (S i) (S j)) v).
    - unfold quad. rewrite <- rover_add. apply rover_ext; intros i Hi. rewrite rover_shift. rewrite (Sy (S i) 0%nat) by lia. ring.
    - now rewrite rover_scale_l. }
  rewrite E2.
  assert (E3 : quad n (fun i j => A (S i) (S j) - A (S i) 0%nat * A 0%nat (S j) / a) v = quad n (fun i j => A (S i) (S j)) v - r * r / a).
  { unfold quad. rewrite (rover_ext n _ (fun i => rover n (fun j => v i * A (S i) (S j) * v j) - v i * A 0%nat (S i) * (r / a))).
    - rewrite rover_sub. f_equal. unfold Rdiv. rewrite rover_scale. unfold r. rewrite (rover_ext n (fun i => v i * A 0%nat (S i)) (fun j => A 0%nat (S j) * v j)) by (intros; ring). ring.
    - intros i Hi. unfold r, Rdiv. rewrite <- rover_scale, <- rover_scale_l, <- rover_sub. apply rover_ext; intros j Hj. rewrite (Sy (S i) 0%nat) by lia. ring. }
  rewrite E3. field. exact N.
Qed.
Theorem cholesky_exists : forall n A c, symmetric n A -> 0 < c -> (forall v, c * inner n v v <= quad n A v) -> exists L, cholesky_factor n A L.
Proof.
  induction n as [|n IH]; intros A c Sy C P.
  - exists A. repeat split; intros; lia.
  - assert (a0 : 0 < A 0%nat 0%nat).
    { pose proof (P (fun i => match i with O => 1 | _ => 0 end)) as H. unfold inner, quad in H. rewrite !rover_shift in H.
      rewrite !rover_const0 in H by (intros; try rewrite !rover_shift, rover_const0 by (intros; ring); ring). lra. }
    set (a := A 0%nat 0%nat) in *.
    destruct (IH (fun i j => A (S i) (S j) - A (S i) 0%nat * A 0%nat (S j) / a) c) as [L (T & D & E)].
    + intros i j Hi Hj. rewrite (Sy (S i) (S j)), (Sy (S i) 0%nat), (Sy 0%nat (S j)) by lia. unfold Rdiv. ring.
    + exact C.
    + intros v. unfold a. rewrite schur_quad by (try assumption; fold a; lra).
      match goal with |- _ <= quad (S n) A ?z => pose proof (P z) as H; set (zz := z) in * end.
      assert (c * inner n v v <= c * inner (S n) zz zz); [|lra]. apply Rmult_le_compat_l; [lra|].
      unfold inner. rewrite rover_shift. unfold zz. cbv beta iota. match goal with |- _ <= ?x * ?x + _ => pose proof (Rle_0_sqr x) as Q; unfold Rsqr in Q end. lra.
    + assert (sa : 0 < sqrt a) by now apply sqrt_lt_R0. assert (ss : sqrt a * sqrt a = a) by (apply sqrt_sqrt; lra).
      exists (fun i j => match i, j with O, O => sqrt a | O, S _ => 0 | S i, O => A (S i) 0%nat / sqrt a | S i, S j => L i j end).
      split; [|split].
      * intros [|i] [|j] H; try lia; [reflexivity|]. apply T. lia.
      * intros [|i] H; [exact sa|]. apply D. lia.
      * intros [|i] [|j] Hi Hj; rewrite rover_shift.
        -- rewrite rover_const0 by (intros; ring). fold a. lra.
        -- rewrite rover_const0 by (intros; ring). rewrite (Sy 0%nat (S j)) by lia. field. lra.
        -- rewrite rover_const0 by (intros; ring). field. lra.
        -- rewrite <- E by lia. rewrite (Sy 0%nat (S j)) by lia. replace (A (S i) 0%nat / sqrt a * (A (S j) 0%nat / sqrt a)) with (A (S i) 0%nat * A (S j) 0%nat / (sqrt a * sqrt a)) by (field; lra). rewrite ss. ring.
Qed.

(** ---- the predictive variance ---- *)
Section Var.
Variable chol : mat -> mat.
Variable n : nat.
Lemma diag_solution ridge P f w : cholesky_factor n P (chol P) -> solves n P w f -> covariance_diag chol n ridge P f = ridge * inner n f w.
Proof. intros C S. rewrite covariance_diag_full. now apply covariance_is_kernel. Qed.
Lemma diag_nonneg ridge P f : 0 <= ridge -> 0 <= covariance_diag chol n ridge P f.
Proof. intros R0. unfold covariance_diag. apply Rmult_le_pos; [exact R0|]. apply rover_nonneg. intros. apply pow2_ge_0. Qed.
Lemma diag_monotone ridge P P' f : 0 <= ridge -> symmetric n P -> (forall v, 0 <= quad n P v) -> (forall v, quad n P v <= quad n P' v) ->
  cholesky_factor n P (chol P) -> cholesky_factor n P' (chol P') -> covariance_diag chol n ridge P' f <= covariance_diag chol n ridge P f.
Proof.
  intros R0 Sy Po LE C C'. destruct (cholesky_solvable n P (chol P) f C) as [w W]. destruct (cholesky_solvable n P' (chol P') f C') as [w' W'].
  rewrite (diag_solution ridge P f w C W), (diag_solution ridge P' f w' C' W'). apply Rmult_le_compat_l; [exact R0|]. now apply (monotone n P P').
Qed.
End Var.
Lemma ridge_solves n ridge f : ridge <> 0 -> solves n (fun i j => if (i =? j)%nat then ridge else 0) (fun i => f i / ridge) f.
Proof.
  intros N i Hi. rewrite (rover_ext n _ (fun j => if (i =? j)%nat then ridge * (f j / ridge) else 0)) by (intros j Hj; destruct (i =? j)%nat; ring).
  rewrite rover_delta by exact Hi. field. exact N.
Qed.
Lemma epoch_quad n ridge batches v : quad n (precision_after_epoch ridge None batches) v = ridge * inner n v v + quad n (gram (concat batches)) v.
Proof. rewrite (quad_ext n _ _ v (fun i j _ _ => precision_exact ridge batches i j)), quad_add, quad_diag. reflexivity. Qed.
(** P w = ridge w + sum of inner f w * f *)
Lemma epoch_apply n ridge batches w i : (i < n)%nat -> rover n (fun j => precision_after_epoch ridge None batches i j * w j) =
  ridge * w i + rtotal (map (fun f => f i * inner n f w) (concat batches)).
Proof.
  intros Hi. rewrite (rover_ext n _ (fun j => (if (i =? j)%nat then ridge * w j else 0) + gram (concat batches) i j * w j)).
  2:{ intros j Hj. rewrite precision_exact. destruct (i =? j)%nat; ring. }
  rewrite rover_add, rover_delta by exact Hi. f_equal. clear Hi. induction (concat batches) as [|f l IH].
  - apply rover_const0. intros. unfold gram. cbn. ring.
  - rewrite (rover_ext n _ (fun j => f i * (f j * w j) + gram l i j * w j)) by (intros; rewrite gram_cons; ring).
    rewrite rover_add, IH, rover_scale_l. reflexivity.
Qed.
Theorem variance_bounds : forall chol n ridge batches f, 0 < ridge ->
  cholesky_factor n (precision_after_epoch ridge None batches) (chol (precision_after_epoch ridge None batches)) ->
  0 <= covariance_diag chol n ridge (precision_after_epoch ridge None batches) f <= inner n f f.
Proof.
  intros chol n ridge batches f R0 C. split; [apply diag_nonneg; lra|].
  set (P := precision_after_epoch ridge None batches) in *.
  destruct (cholesky_solvable n P (chol P) f C) as [w W]. rewrite (diag_solution chol n ridge P f w C W).
  assert (M : inner n f w <= inner n f (fun i => f i / ridge)).
  { apply (monotone n (fun i j => if (i =? j)%nat then ridge else 0) P).
    - intros i j _ _. now rewrite Nat.eqb_sym.
    - intros x. rewrite quad_diag. apply Rmult_le_pos; [lra|apply inner_nonneg].
    - intros x. unfold P. rewrite quad_diag, epoch_quad. pose proof (quad_gram_nonneg n (concat batches) x). lra.
    - apply ridge_solves. lra.
    - exact W. }
  apply Rmult_le_compat_l with (r := ridge) in M; [|lra]. apply Rle_trans with (1 := M). right.
  unfold inner. rewrite <- rover_scale_l. apply rover_ext; intros. field. lra.
Qed.
(** the factor exists for every epoch *)
Theorem epoch_cholesky : forall n ridge batches, 0 < ridge -> exists L, cholesky_factor n (precision_after_epoch ridge None batches) L.
Proof.
  intros n ridge batches R0. apply (cholesky_exists n _ ridge); [apply epoch_sym | exact R0|].
  intros v. rewrite epoch_quad. pose proof (quad_gram_nonneg n (concat batches) v). lra.
Qed.
Theorem variance_more_data : forall chol n ridge batches more f, 0 < ridge ->
  (forall bs, cholesky_factor n (precision_after_epoch ridge None bs) (chol (precision_after_epoch ridge None bs))) ->
  covariance_diag chol n ridge (precision_after_epoch ridge None (batches ++ more)) f <= covariance_diag chol n ridge (precision_after_epoch ridge None batches) f.
Proof.
  intros chol n ridge batches more f R0 C. apply diag_monotone; [lra | apply epoch_sym | | | apply C | apply C].
  - intros v. rewrite epoch_quad. pose proof (quad_gram_nonneg n (concat batches) v). pose proof (inner_nonneg n v). nra.
  - intros v. rewrite !epoch_quad, concat_app. rewrite (quad_ext n (gram (concat batches ++ concat more)) (fun i j => gram (concat batches) i j + gram (concat more) i j)) by (intros; apply gram_app).
    rewrite quad_add. pose proof (quad_gram_nonneg n (concat more) v). lra.
Qed.
Theorem variance_away : forall chol n ridge batches f, 0 < ridge ->
  cholesky_factor n (precision_after_epoch ridge None batches) (chol (precision_after_epoch ridge None batches)) ->
  (forall g, In g (concat batches) -> inner n g f = 0) ->
  covariance_diag chol n ridge (precision_after_epoch ridge None batches) f = inner n f f.
Proof.
  intros chol n ridge batches f R0 C O. rewrite (diag_solution chol n ridge _ f (fun i => / ridge * f i) C).
  - rewrite inner_scale_r. field. lra.
  - intros i Hi. rewrite epoch_apply by exact Hi.
    replace (rtotal (map (fun g => g i * inner n g (fun i => / ridge * f i)) (concat batches))) with 0; [field; lra|].
    symmetry. change rtotal with (fun l : list R => fold_right Rplus 0 l). cbv beta. induction (concat batches) as [|g l IH]; [reflexivity|].
    cbn [map fold_right]. rewrite IH by (intros; apply O; now right). rewrite inner_scale_r, (O g) by now left. ring.
Qed.
Theorem variance_seen : forall chol n ridge batches f, 0 < ridge ->
  cholesky_factor n (precision_after_epoch ridge None batches) (chol (precision_after_epoch ridge None batches)) ->
  In f (concat batches) ->
  covariance_diag chol n ridge (precision_after_epoch ridge None batches) f <= ridge * inner n f f / (ridge + inner n f f) /\
  covariance_diag chol n ridge (precision_after_epoch ridge None batches) f < ridge.
Proof.
  intros chol n ridge batches f R0 C I. set (P := precision_after_epoch ridge None batches) in *.
  assert (F0 := inner_nonneg n f).
  assert (H : covariance_diag chol n ridge P f <= ridge * inner n f f / (ridge + inner n f f)).
  { destruct (cholesky_solvable n P (chol P) f C) as [w W]. rewrite (diag_solution chol n ridge P f w C W).
    unfold Rdiv. rewrite Rmult_assoc. apply Rmult_le_compat_l; [lra|].
    set (A := fun i j => (if (i =? j)%nat then ridge else 0) + f i * f j).
    assert (M : inner n f w <= inner n f (fun i => / (ridge + inner n f f) * f i)).
    { apply (monotone n A P).
      - intros i j _ _. unfold A. rewrite Nat.eqb_sym. ring.
      - intros x. unfold A. rewrite quad_add, quad_diag, quad_outer. pose proof (inner_nonneg n x). pose proof (Rle_0_sqr (inner n f x)) as Q. unfold Rsqr in Q. nra.
      - intros x. unfold A, P. rewrite quad_add, quad_diag, quad_outer, epoch_quad, quad_gram. apply Rplus_le_compat_l.
        apply (rs_ge (fun g => inner n g x * inner n g x)); [intros; apply (Rle_0_sqr (inner n x0 x)) | exact I].
      - intros i Hi. unfold A. rewrite (rover_ext n _ (fun j => (if (i =? j)%nat then ridge * (/ (ridge + inner n f f) * f j) else 0) + f i * / (ridge + inner n f f) * (f j * f j))).
        2:{ intros j Hj. destruct (i =? j)%nat; ring. }
        rewrite rover_add, rover_delta by exact Hi. rewrite rover_scale_l. change (rover n (fun j => f j * f j)) with (inner n f f). field. lra.
      - exact W. }
    rewrite inner_scale_r in M. lra. }
  split; [exact H|]. apply Rle_lt_trans with (1 := H). apply Rmult_lt_reg_r with (ridge + inner n f f); [lra|].
  unfold Rdiv. rewrite Rmult_assoc, Rinv_l by lra. nra.
Qed.
Theorem rff_bounded : forall features input_dim ks K b x, (1 <= features)%nat ->
  (forall s j, Rabs (rff input_dim s ks K b x j) <= Rabs s) /\ inner features (rff input_dim (rff_scale None features) ks K b x) (rff input_dim (rff_scale None features) ks K b x) <= 2.
Proof.
  intros F d ks K b x HF.
  assert (B : forall s j, Rabs (rff d s ks K b x j) <= Rabs s).
  { intros s j. unfold rff. rewrite Rabs_mult. rewrite <- (Rmult_1_r (Rabs s)) at 2. apply Rmult_le_compat_l; [apply Rabs_pos|]. apply Rabs_le. apply COS_bound. }
  split; [exact B|].
  assert (I : 0 < INR F) by now apply INR_pos.
  assert (S2 : 0 <= 2 / INR F) by (left; apply Rdiv_lt_0_compat; lra).
  apply Rle_trans with (rover F (fun _ => 2 / INR F)).
  - apply rover_le. intros j Hj. pose proof (B (rff_scale None F) j) as H. cbn [rff_scale] in *. rewrite (Rabs_right (sqrt (2 / INR F))) in H by (apply Rle_ge, sqrt_pos).
    set (z := rff d (sqrt (2 / INR F)) ks K b x j) in *. replace (z * z) with (Rabs z * Rabs z) by (rewrite <- Rabs_mult; apply Rabs_right, Rle_ge, (Rle_0_sqr z)).
    rewrite <- (sqrt_sqrt (2 / INR F)) by exact S2. apply Rmult_le_compat; auto using Rabs_pos.
  - change (rover F (fun _ => 2 / INR F)) with (rs (fun _ : nat => 2 / INR F) (seq 0 F)). rewrite rs_const, seq_length. right. field. lra.
Qed.
