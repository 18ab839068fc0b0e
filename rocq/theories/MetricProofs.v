(** Proofs about the regression metrics. *)
From Coq Require Import List Arith ZArith QArith Qminmax Qabs Bool Lia Lqa Reals Qreals.
From Verif Require Import Lib QuantModel QuantSpec QuantProofs ConfRegModel ConfRegProofs ConfClassModel ConfClassProofs2 MetricModel MetricSpec.
Import ListNotations.
Open Scope Q_scope.

Lemma mapM_ok {A B} (f : A -> B) l : mapM (fun x => Ok (f x)) l = Ok (map f l).
Proof. induction l as [|x l IH]; cbn [mapM]; [reflexivity|]. now rewrite IH. Qed.
Lemma mapM_ext {A B} (f g : A -> result B) l : (forall x, In x l -> f x = g x) -> mapM f l = mapM g l.
Proof.
  induction l as [|x l IH]; intros H; cbn [mapM]; [reflexivity|].
  rewrite (H x) by now left. rewrite IH; [reflexivity|]. intros y Hy. apply H. now right.
Qed.
Lemma bc1_same {A B C} (f : A -> B -> C) l m : length l = length m -> bc1 f l m = Ok (zip_with f l m).
Proof. intros H. unfold bc1, bc. rewrite H, Nat.eqb_refl. now rewrite mapM_ok. Qed.
Lemma bc_bc1_same {A B C} (f : A -> B -> C) l m : length l = length m ->
  (forall p, In p (combine l m) -> length (fst p) = length (snd p)) ->
  bc (bc1 f) l m = Ok (zip_with (zip_with f) l m).
Proof.
  intros H P. unfold bc. rewrite H, Nat.eqb_refl. unfold zip_with at 1. rewrite <- mapM_ok. apply mapM_ext.
  intros p Hp. apply bc1_same. now apply P.
Qed.
Lemma matrix_pairs n d a b : matrix n d a -> matrix n d b ->
  length a = length b /\ forall p : list Q * list Q, In p (combine a b) -> length (fst p) = length (snd p).
Proof.
  intros [L1 F1] [L2 F2]. split; [congruence|]. intros [x y] Hp.
  rewrite Forall_forall in F1, F2. cbn [fst snd].
  rewrite (F1 x) by (eapply in_combine_l; eauto). rewrite (F2 y) by (eapply in_combine_r; eauto). reflexivity.
Qed.
Lemma asub_same n d a b : matrix n d a -> matrix n d b -> asub (A2 a) (A2 b) = Ok (A2 (zip_with (zip_with Qminus) a b)).
Proof. intros H1 H2. destruct (matrix_pairs n d a b H1 H2) as [L P]. unfold asub. now rewrite bc_bc1_same. Qed.

Lemma sum2_zip {A B} (f : A -> B -> Q) l : forall m, qsum (zip_with f l m) = sum2 f l m.
Proof. induction l as [|x l IH]; intros [|y m]; try reflexivity. cbn [sum2]. rewrite <- IH. reflexivity. Qed.
Lemma sum2_ext {A B} (f g : A -> B -> Q) l : forall m, (forall x y, f x y == g x y) -> sum2 f l m == sum2 g l m.
Proof. induction l as [|x l IH]; intros [|y m] H; cbn [sum2]; try reflexivity. now rewrite H, IH. Qed.
Lemma zip_map {A B C D} (h : C -> D) (f : A -> B -> C) l m : map h (zip_with f l m) = zip_with (fun x y => h (f x y)) l m.
Proof. unfold zip_with. now rewrite map_map. Qed.

Lemma metric_value (h : Q -> Q) n d a b : matrix n d a -> matrix n d b ->
  bind (asub (A2 a) (A2 b)) (fun x => rmap qmean (sum_axis1 h x)) =
  Ok (sum2 (fun r s => sum2 (fun x y => h (x - y)) r s) a b / nQ n).
Proof.
  intros H1 H2. rewrite (asub_same n d) by assumption. cbn [bind sum_axis1 rmap]. apply (f_equal Ok). unfold qmean, qlen.
  rewrite zip_map. rewrite map_length || idtac.
  replace (length (zip_with _ a b)) with n.
  2: { unfold zip_with. rewrite map_length, combine_length. destruct H1 as [<- _], H2 as [H2 _]. lia. }
  rewrite sum2_zip. unfold nQ. f_equal.
  destruct H1 as [_ _]. clear H2. revert b. induction a as [|r a IH]; intros [|s b]; cbn [sum2]; try reflexivity.
  rewrite IH, zip_map, sum2_zip. reflexivity.
Qed.

Lemma mse_value_eq n d a b : matrix n d a -> matrix n d b -> mse (A2 a) (A2 b) = Ok (sum2 sq_dist a b / nQ n).
Proof. intros. unfold mse. rewrite (metric_value _ n d) by assumption. reflexivity. Qed.
Lemma mae_value_eq n d a b : matrix n d a -> matrix n d b -> mae (A2 a) (A2 b) = Ok (sum2 abs_dist a b / nQ n).
Proof. intros. unfold mae. rewrite (metric_value _ n d) by assumption. reflexivity. Qed.

Theorem mse_value : forall n d preds targets, matrix n d preds -> matrix n d targets ->
  exists v, mse (A2 preds) (A2 targets) = Ok v /\ v * nQ n == (if (n =? 0)%nat then 0 else sum2 sq_dist preds targets).
Proof.
  intros n d p t H1 H2. exists (sum2 sq_dist p t / nQ n). split; [now apply (mse_value_eq n d)|].
  destruct n; cbn [Nat.eqb]. { change (nQ 0) with 0. lra. }
  field. unfold nQ. intros E. assert (0 < inject_Z (Z.of_nat (S n))) by (rewrite <- (Zlt_Qlt 0); lia). lra.
Qed.
Theorem mae_value : forall n d preds targets, matrix n d preds -> matrix n d targets ->
  exists v, mae (A2 preds) (A2 targets) = Ok v /\ v * nQ n == (if (n =? 0)%nat then 0 else sum2 abs_dist preds targets).
Proof.
  intros n d p t H1 H2. exists (sum2 abs_dist p t / nQ n). split; [now apply (mae_value_eq n d)|].
  destruct n; cbn [Nat.eqb]. { change (nQ 0) with 0. lra. }
  field. unfold nQ. intros E. assert (0 < inject_Z (Z.of_nat (S n))) by (rewrite <- (Zlt_Qlt 0); lia). lra.
Qed.

(** non-negative sums that vanish *)
Lemma sum2_nonneg {A B} (f : A -> B -> Q) l : forall m, (forall x y, 0 <= f x y) -> 0 <= sum2 f l m.
Proof. induction l as [|x l IH]; intros [|y m] H; cbn [sum2]; try lra. specialize (IH m H). specialize (H x y). lra. Qed.
Lemma sum2_zero {A B} (f : A -> B -> Q) (E : A -> B -> Prop) l : forall m, length l = length m ->
  (forall x y, 0 <= f x y) -> (forall x y, f x y == 0 <-> E x y) -> (sum2 f l m == 0 <-> Forall2 E l m).
Proof.
  induction l as [|x l IH]; intros [|y m] L Hf He; cbn [sum2]; try discriminate.
  - split; [constructor|reflexivity].
  - injection L as L. specialize (IH m L Hf He). assert (P := Hf x y). assert (P2 := sum2_nonneg f l m Hf).
    split.
    + intros S0. constructor. apply He. lra. apply IH. lra.
    + intros F. inversion F; subst. rewrite (proj2 (He x y)) by assumption. rewrite (proj2 IH) by assumption. lra.
Qed.
Lemma sq_nonneg x : 0 <= x * x.
Proof. destruct (Qlt_le_dec x 0). assert (0 <= (-x) * (-x)) by (apply Qmult_le_0_compat; lra). lra. apply Qmult_le_0_compat; lra. Qed.
Lemma sq_zero x : x * x == 0 <-> x == 0.
Proof. split; [|intros ->; ring]. intros H. apply Qmult_integral in H. tauto. Qed.
Lemma abs_zero x : Qabs x == 0 <-> x == 0.
Proof.
  split; [|intros ->; reflexivity]. intros H. revert H. apply Qabs_case; intros; lra.
Qed.
Lemma sq_dist_nonneg r s : 0 <= sq_dist r s. Proof. apply sum2_nonneg. intros. apply sq_nonneg. Qed.
Lemma abs_dist_nonneg r s : 0 <= abs_dist r s. Proof. apply sum2_nonneg. intros. apply Qabs_nonneg. Qed.

Lemma nQ_pos n : (0 < n)%nat -> 0 < nQ n. Proof. intros. unfold nQ. rewrite <- (Zlt_Qlt 0). lia. Qed.
Lemma nQ_nonneg n : 0 <= nQ n. Proof. unfold nQ. rewrite <- (Zle_Qle 0). lia. Qed.
Lemma div_zero x n : (0 < n)%nat -> (x / nQ n == 0 <-> x == 0).
Proof.
  intros Hn. assert (P := nQ_pos n Hn). split; intros H.
  - assert (X : x == (x / nQ n) * nQ n) by (field; lra). rewrite X, H. ring.
  - rewrite H. field. lra.
Qed.
Lemma div_nonneg x n : 0 <= x -> 0 <= x / nQ n.
Proof.
  intros H. destruct n. change (x / nQ 0) with (x * 0). lra.
  apply Qle_shift_div_l. apply nQ_pos; lia. lra.
Qed.

Lemma dist_zero (f : Q -> Q) (Hf : forall z, 0 <= f z) (Hz : forall z, f z == 0 <-> z == 0) (Hp : forall y z, y == z -> f y == f z) a : forall b,
  length a = length b -> (forall p : list Q * list Q, In p (combine a b) -> length (fst p) = length (snd p)) ->
  (sum2 (fun r s => sum2 (fun x y => f (x - y)) r s) a b == 0 <-> same a b).
Proof.
  induction a as [|r a IH]; intros [|s b] L P; cbn [sum2]; try discriminate.
  - split; [constructor|reflexivity].
  - injection L as L. assert (Q0 : forall r s, 0 <= sum2 (fun x y => f (x - y)) r s) by (intros; apply sum2_nonneg; intros; apply Hf).
    assert (P1 := Q0 r s). assert (P2 := sum2_nonneg (fun r s => sum2 (fun x y => f (x - y)) r s) a b Q0).
    assert (E : sum2 (fun x y => f (x - y)) r s == 0 <-> Forall2 Qeq r s).
    { apply sum2_zero. apply (P (r, s)). now left. intros; apply Hf. intros x y. rewrite Hz. split; lra. }
    assert (T : sum2 (fun r s => sum2 (fun x y => f (x - y)) r s) a b == 0 <-> same a b).
    { apply IH. assumption. intros p Hp'. apply P. now right. }
    split.
    + intros S0. constructor. apply E. lra. apply T. lra.
    + intros F. inversion F; subst. rewrite (proj2 E) by assumption. rewrite (proj2 T) by assumption. lra.
Qed.

Theorem mse_zero : forall n d preds targets v, (0 < n)%nat -> matrix n d preds -> matrix n d targets ->
  mse (A2 preds) (A2 targets) = Ok v -> 0 <= v /\ (v == 0 <-> same preds targets).
Proof.
  intros n d p t v Hn H1 H2 E. rewrite (mse_value_eq n d) in E by assumption. injection E as <-.
  destruct (matrix_pairs n d p t H1 H2) as [L P]. split.
  - apply div_nonneg. apply sum2_nonneg. intros. apply sq_dist_nonneg.
  - rewrite div_zero by assumption. apply (dist_zero (fun z => z * z)); auto.
    apply sq_nonneg. intros. apply sq_zero. intros y z Hy. now rewrite Hy.
Qed.
Theorem mae_zero : forall n d preds targets v, (0 < n)%nat -> matrix n d preds -> matrix n d targets ->
  mae (A2 preds) (A2 targets) = Ok v -> 0 <= v /\ (v == 0 <-> same preds targets).
Proof.
  intros n d p t v Hn H1 H2 E. rewrite (mae_value_eq n d) in E by assumption. injection E as <-.
  destruct (matrix_pairs n d p t H1 H2) as [L P]. split.
  - apply div_nonneg. apply sum2_nonneg. intros. apply abs_dist_nonneg.
  - rewrite div_zero by assumption. apply (dist_zero Qabs); auto.
    intros; apply Qabs_nonneg. intros. apply abs_zero. intros y z Hy. now rewrite Hy.
Qed.

Lemma root_sq q : 0 <= q -> (0 <= sqrt (Q2R q) /\ sqrt (Q2R q) * sqrt (Q2R q) = Q2R q)%R.
Proof.
  intros H. split. apply sqrt_pos. apply sqrt_sqrt. replace 0%R with (Q2R 0) by (unfold Q2R; cbn; field). now apply Qle_Rle.
Qed.
Theorem rmse_square : forall n d preds targets, matrix n d preds -> matrix n d targets ->
  exists r v, rmse (A2 preds) (A2 targets) = Ok r /\ mse (A2 preds) (A2 targets) = Ok v /\ (0 <= r)%R /\ (r * r = Q2R v)%R.
Proof.
  intros n d p t H1 H2. unfold rmse. rewrite (mse_value_eq n d) by assumption. cbn [rmap]. eexists _, _. split; [reflexivity|]. split; [reflexivity|].
  apply root_sq. apply div_nonneg. apply sum2_nonneg. intros. apply sq_dist_nonneg.
Qed.
Theorem rmae_square : forall n d preds targets, matrix n d preds -> matrix n d targets ->
  exists r v, rmae (A2 preds) (A2 targets) = Ok r /\ mae (A2 preds) (A2 targets) = Ok v /\ (0 <= r)%R /\ (r * r = Q2R v)%R.
Proof.
  intros n d p t H1 H2. unfold rmae. rewrite (mae_value_eq n d) by assumption. cbn [rmap]. eexists _, _. split; [reflexivity|]. split; [reflexivity|].
  apply root_sq. apply div_nonneg. apply sum2_nonneg. intros. apply abs_dist_nonneg.
Qed.

(** Cauchy-Schwarz in the form (sum of n numbers)^2 <= n * (sum of squares), for numbers
    with weights: (s_i)^2 <= c q_i for each i implies (sum s)^2 <= n c (sum q) *)
Lemma cs_step (c n s q S0 Q0 : Q) : 0 <= c -> 0 <= n -> 0 <= s -> 0 <= S0 -> 0 <= q -> 0 <= Q0 -> s * s <= c * q -> S0 * S0 <= n * (c * Q0) ->
  (s + S0) * (s + S0) <= (1 + n) * (c * (q + Q0)).
Proof.
  intros Hc Hn Hs HS Hq HQ H1 H2.
  (* 2 s S0 <= n c q + c Q0 *)
  assert (K : 2 * (s * S0) <= n * (c * q) + c * Q0).
  { destruct (Qlt_le_dec 0 n) as [Np|Nz].
    - (* n * 2 s S0 <= n^2 s^2 + S0^2 <= n^2 c q + n c Q0 *)
      assert (A := sq_nonneg (n * s - S0)).
      assert (B : (n * n) * (s * s) <= (n * n) * (c * q)).
      { rewrite !(Qmult_comm (n * n)). apply Qmult_le_compat_r; [assumption|]. apply sq_nonneg. }
      assert (C : n * (2 * (s * S0)) <= n * (n * (c * q) + c * Q0)).
      { assert ((n * s - S0) * (n * s - S0) == n * n * (s * s) - n * (2 * (s * S0)) + S0 * S0) as X by ring.
        rewrite X in A. assert (n * (n * (c * q) + c * Q0) == n * n * (c * q) + n * (c * Q0)) as Y by ring. rewrite Y. lra. }
      rewrite !(Qmult_comm n) in C. apply Qmult_le_r in C; [|assumption].
      eapply Qle_trans; [exact C|]. apply Qle_lteq. right. ring.
    - assert (n == 0) by lra. assert (S0 == 0).
      { assert (S0 * S0 == 0). { assert (n * (c * Q0) == 0) by (rewrite H; ring). assert (P := sq_nonneg S0). lra. } now apply sq_zero. }
      assert (2 * (s * S0) == 0) by (rewrite H0; ring). assert (n * (c * q) == 0) by (rewrite H; ring). assert (0 <= c * Q0) by now apply Qmult_le_0_compat. lra. }
  assert ((s + S0) * (s + S0) == s * s + 2 * (s * S0) + S0 * S0) as -> by ring.
  assert ((1 + n) * (c * (q + Q0)) == c * q + (n * (c * q) + c * Q0) + n * (c * Q0)) as -> by ring. lra.
Qed.
Lemma nQ_S n : nQ (S n) == 1 + nQ n.
Proof. unfold nQ. rewrite nat_S_Q. ring. Qed.
Lemma row_cs r : forall s, length r = length s -> abs_dist r s * abs_dist r s <= nQ (length r) * sq_dist r s.
Proof.
  induction r as [|x r IH]; intros [|y s] L; try discriminate.
  injection L as L. specialize (IH s L).
  assert (H := cs_step 1 (nQ (length r)) (Qabs (x - y)) ((x - y) * (x - y)) (abs_dist r s) (sq_dist r s)).
  change (abs_dist (x :: r) (y :: s)) with (Qabs (x - y) + abs_dist r s). change (sq_dist (x :: r) (y :: s)) with ((x - y) * (x - y) + sq_dist r s).
  cbn [length]. rewrite nQ_S.
  assert (Hx : Qabs (x - y) * Qabs (x - y) == (x - y) * (x - y)) by (apply Qabs_case; intros; ring).
  assert ((1 + nQ (length r)) * ((x - y) * (x - y) + sq_dist r s) == (1 + nQ (length r)) * (1 * ((x - y) * (x - y) + sq_dist r s))) as -> by ring.
  apply H; try lra.
  - apply nQ_nonneg.
  - apply Qabs_nonneg.
  - apply abs_dist_nonneg.
  - apply sq_nonneg.
  - apply sq_dist_nonneg.
Qed.
Lemma rows_cs d a : forall b, length a = length b -> Forall (fun r => length r = d) a -> Forall (fun r => length r = d) b ->
  sum2 abs_dist a b * sum2 abs_dist a b <= nQ (length a) * (nQ d * sum2 sq_dist a b).
Proof.
  induction a as [|r a IH]; intros [|s b] L F1 F2; try discriminate.
  injection L as L. inversion F1; inversion F2; subst. specialize (IH b L H2 H6).
  cbn [sum2 length]. rewrite nQ_S. apply cs_step.
  - apply nQ_nonneg.
  - apply nQ_nonneg.
  - apply abs_dist_nonneg.
  - apply sum2_nonneg. intros. apply abs_dist_nonneg.
  - apply sq_dist_nonneg.
  - apply sum2_nonneg. intros. apply sq_dist_nonneg.
  - apply row_cs. congruence.
  - assumption.
Qed.
Theorem mae_mse : forall n d preds targets a s, (0 < n)%nat -> matrix n d preds -> matrix n d targets ->
  mae (A2 preds) (A2 targets) = Ok a -> mse (A2 preds) (A2 targets) = Ok s -> a * a <= nQ d * s.
Proof.
  intros n d p t a s Hn H1 H2 E1 E2. rewrite (mae_value_eq n d) in E1 by assumption. rewrite (mse_value_eq n d) in E2 by assumption.
  injection E1 as <-. injection E2 as <-.
  assert (L : length p = length t) by (destruct H1, H2; congruence).
  assert (X := rows_cs d p t L (proj2 H1) (proj2 H2)). rewrite (proj1 H1) in X.
  assert (P := nQ_pos n Hn). set (A := sum2 abs_dist p t) in *. set (S0 := sum2 sq_dist p t) in *.
  assert (A / nQ n * (A / nQ n) == (A * A) / (nQ n * nQ n)) as -> by (field; lra).
  assert (nQ d * (S0 / nQ n) == (nQ n * (nQ d * S0)) / (nQ n * nQ n)) as -> by (field; lra).
  unfold Qdiv. apply Qmult_le_compat_r; [assumption|]. apply Qinv_le_0_compat. apply sq_nonneg.
Qed.

Theorem one_dim : forall preds targets, length preds = length targets ->
  mse (A1 preds) (A1 targets) = Err ValueError /\ mae (A1 preds) (A1 targets) = Err ValueError.
Proof. intros p t L. unfold mse, mae, asub. rewrite bc1_same by assumption. now split. Qed.

(** predictions as a column, targets as a flat array: perfect predictions have a positive error *)
Theorem mixed_shapes_refuted : exists ys : list Q, exists v,
  mse (A2 (map (fun y => [y]) ys)) (A1 ys) = Ok v /\ 0 < v.
Proof. exists [0; 1]. eexists. split; [reflexivity|]. reflexivity. Qed.
Lemma bc_row {A B C} (f : A -> B -> result C) l y : bc f l [y] = mapM (fun x => f x y) l.
Proof.
  unfold bc. destruct l as [|x [|x2 l]]; try reflexivity.
Qed.
Theorem mixed_shapes : forall ps ys, (length ps = length ys) ->
  exists v, mse (A2 (map (fun y => [y]) ps)) (A1 ys) = Ok v /\
    v == qmean (map (fun p => total (map (fun y => (p - y) * (p - y)) ys)) ps).
Proof.
  intros ps ys L. unfold mse, asub. rewrite bc_row.
  assert (E : mapM (fun x => bc1 Qminus x ys) (map (fun y => [y]) ps) = Ok (map (fun p => map (fun y => p - y) ys) ps)).
  { clear L. induction ps as [|p ps IH]; cbn [map mapM]; [reflexivity|]. rewrite IH.
    assert (bc1 Qminus [p] ys = Ok (map (fun y => p - y) ys)) as ->; [|reflexivity].
    unfold bc1, bc. destruct ys as [|y [|y2 ys]]; try reflexivity. cbn [length Nat.eqb]. apply mapM_ok. }
  rewrite E. cbn [rmap bind sum_axis1]. eexists. split; [reflexivity|].
  rewrite map_map. assert (map (fun x => qsum (map (fun z => z * z) (map (fun y => x - y) ys))) ps = map (fun p => total (map (fun y => (p - y) * (p - y)) ys)) ps) as ->; [|reflexivity].
  apply map_ext. intros p. now rewrite map_map.
Qed.

(** ---- picp ---- *)
Lemma picp_eq ls us ts : length ls = length ts -> length us = length ts ->
  picp (A1 ls) (A1 us) (A1 ts) = Ok (qmean (map of_bool (map inside_b (combine (combine ls us) ts)))).
Proof.
  intros L1 L2. unfold picp. cbn [as_column bind]. rewrite bc1_same by congruence. cbn [bind]. rewrite bc1_same by congruence. cbn [bind].
  assert (length (zip_with (fun t l => Qle_bool l t) ts ls) = length ts) by (unfold zip_with; rewrite map_length, combine_length; lia).
  assert (length (zip_with Qle_bool ts us) = length ts) by (unfold zip_with; rewrite map_length, combine_length; lia).
  rewrite bc1_same by congruence. cbn [rmap]. apply (f_equal Ok). apply (f_equal (fun l => qmean (map of_bool l))).
  clear H H0. revert us ts L1 L2. induction ls as [|l ls IH]; intros [|u us] [|t ts] L1 L2; try discriminate; [reflexivity|].
  injection L1 as L1. injection L2 as L2. specialize (IH us ts L1 L2). cbn [combine map inside_b].
  change (zip_with (fun t0 l0 => Qle_bool l0 t0) (t :: ts) (l :: ls)) with (Qle_bool l t :: zip_with (fun t0 l0 => Qle_bool l0 t0) ts ls).
  change (zip_with Qle_bool (t :: ts) (u :: us)) with (Qle_bool t u :: zip_with Qle_bool ts us).
  rewrite <- IH. reflexivity.
Qed.
Lemma qsum_bools {A} (f : A -> bool) l : qsum (map of_bool (map f l)) == nQ (num f l).
Proof.
  induction l as [|x l IH]; [reflexivity|]. cbn [map num]. change (qsum (of_bool (f x) :: map of_bool (map f l))) with (of_bool (f x) + qsum (map of_bool (map f l))).
  rewrite IH. destruct (f x). cbn [Nat.add]. rewrite nQ_S. unfold of_bool. ring. cbn [Nat.add]. unfold of_bool. ring.
Qed.
Lemma num_le {A} (f : A -> bool) l : (num f l <= length l)%nat.
Proof. induction l as [|x l IH]; cbn [num length]; [lia|]. destruct (f x); lia. Qed.
Lemma num_all {A} (f : A -> bool) l : num f l = length l <-> forall x, In x l -> f x = true.
Proof.
  induction l as [|x l IH]; cbn [num length]. split; [intros _ ? []|reflexivity].
  assert (P := num_le f l). destruct (f x) eqn:E; split.
  - intros H y [<-|Hy]; [assumption|]. apply IH; [lia|assumption].
  - intros H. rewrite (proj2 IH). reflexivity. intros y Hy. apply H. now right.
  - lia.
  - intros H. rewrite H in E by now left. discriminate.
Qed.
Lemma nQ_le a b : nQ a <= nQ b <-> (a <= b)%nat. Proof. unfold nQ. rewrite <- Zle_Qle. lia. Qed.
Lemma fraction n k : (0 < n)%nat -> (k <= n)%nat -> in_unit (nQ k / nQ n) /\ (nQ k / nQ n == 1 <-> k = n).
Proof.
  intros Hn Hk. assert (P := nQ_pos n Hn). assert (A := nQ_nonneg k). assert (B := proj2 (nQ_le k n) Hk).
  split; [split|split].
  - apply Qle_shift_div_l; lra.
  - apply Qle_shift_div_r; lra.
  - intros E. assert (nQ k == nQ k / nQ n * nQ n) as X by (field; lra). rewrite E in X. assert (nQ n <= nQ k) as Y by lra. apply nQ_le in Y. lia.
  - intros ->. field. lra.
Qed.
Lemma picp_num ls us ts : length ls = length ts -> length us = length ts ->
  exists v, picp (A1 ls) (A1 us) (A1 ts) = Ok v /\ v == nQ (num inside_b (combine (combine ls us) ts)) / nQ (length ts).
Proof.
  intros L1 L2. rewrite picp_eq by assumption. eexists. split; [reflexivity|]. unfold qmean, qlen. rewrite qsum_bools.
  rewrite !map_length, !combine_length. replace (Nat.min (Nat.min (length ls) (length us)) (length ts)) with (length ts) by lia. reflexivity.
Qed.
Lemma inside_b_iff l u t : inside_b (l, u, t) = true <-> inside l u t.
Proof. unfold inside_b, inside. rewrite andb_true_iff, !Qleb_true. tauto. Qed.
Theorem picp_range : forall ls us ts, ts <> [] -> length ls = length ts -> length us = length ts ->
  exists v, picp (A1 ls) (A1 us) (A1 ts) = Ok v /\ in_unit v /\
    (v == 1 <-> forall l u t, In (l, u, t) (combine (combine ls us) ts) -> inside l u t).
Proof.
  intros ls us ts Hne L1 L2. destruct (picp_num ls us ts L1 L2) as [v [E Hv]]. exists v. split; [assumption|].
  assert (Hn : (0 < length ts)%nat) by (destruct ts; [easy|cbn; lia]).
  assert (Lc : length (combine (combine ls us) ts) = length ts) by (rewrite !combine_length; lia).
  destruct (fraction (length ts) (num inside_b (combine (combine ls us) ts)) Hn) as [F1 F2].
  { rewrite <- Lc. apply num_le. }
  split. unfold in_unit in *. rewrite Hv. assumption.
  rewrite Hv, F2. rewrite <- Lc, num_all. split.
  - intros H l u t Hin. apply inside_b_iff. now apply H.
  - intros H [[l u] t] Hin. apply inside_b_iff. now apply H.
Qed.
Lemma num_mono3 ts : forall ls us ls' us', length ls = length ts -> length us = length ts -> Forall2 Qle ls' ls -> Forall2 Qle us us' ->
  (num inside_b (combine (combine ls us) ts) <= num inside_b (combine (combine ls' us') ts))%nat.
Proof.
  induction ts as [|t ts IH]; intros [|l ls] [|u us] ls' us' L1 L2 F1 F2; try discriminate; try (inversion F1; inversion F2; subst; cbn; lia).
  injection L1 as L1. injection L2 as L2. inversion F1; inversion F2; subst. cbn [combine num].
  specialize (IH ls us l0 l'0 L1 L2 H3 H8).
  destruct (inside_b (l, u, t)) eqn:E; [|destruct (inside_b (x, y0, t)); lia].
  apply inside_b_iff in E. destruct E. replace (inside_b (x, y0, t)) with true; [lia|]. symmetry. apply inside_b_iff. split; lra.
Qed.
Theorem picp_widen : forall ls us ls' us' ts v v', length ls = length ts -> length us = length ts ->
  Forall2 Qle ls' ls -> Forall2 Qle us us' ->
  picp (A1 ls) (A1 us) (A1 ts) = Ok v -> picp (A1 ls') (A1 us') (A1 ts) = Ok v' -> v <= v'.
Proof.
  intros ls us ls' us' ts v v' L1 L2 F1 F2 E1 E2.
  destruct (picp_num ls us ts L1 L2) as [w [E Hw]]. rewrite E in E1. injection E1 as <-.
  assert (L3 : length ls' = length ts) by (rewrite (Forall2_len _ _ _ F1); assumption).
  assert (L4 : length us' = length ts) by (rewrite <- (Forall2_len _ _ _ F2); assumption).
  destruct (picp_num ls' us' ts L3 L4) as [w' [E' Hw']]. rewrite E' in E2. injection E2 as <-.
  rewrite Hw, Hw'. unfold Qdiv. apply Qmult_le_compat_r. apply nQ_le. now apply num_mono3.
  apply Qinv_le_0_compat. apply nQ_nonneg.
Qed.
(** the metric is the mean of the indicator used by the conformal regressors *)
Theorem picp_are_in : forall ls us ts, length ls = length ts -> length us = length ts ->
  picp (A1 ls) (A1 us) (A1 ts) = Ok (qmean (map of_bool (are_in ts (combine ls us)))).
Proof.
  intros ls us ts L1 L2. rewrite picp_eq by assumption. apply (f_equal (fun l => Ok (qmean (map of_bool l)))).
  unfold are_in. revert us ts L1 L2. induction ls as [|l ls IH]; intros [|u us] [|t ts] L1 L2; try discriminate; try reflexivity.
  injection L1 as L1. injection L2 as L2. cbn [combine map]. rewrite <- IH by assumption. unfold is_in, inside_b. cbn [fst snd]. now rewrite andb_comm.
Qed.
Theorem picp_columns : forall ls us ts, length ls = length ts -> length us = length ts ->
  let col := fun l : list Q => A2 (map (fun x => [x]) l) in
  picp (col ls) (col us) (col ts) = picp (A1 ls) (A1 us) (A1 ts) /\
  (forall d rows, (d <> 1)%nat -> rows <> [] -> Forall (fun r => length r = d) rows -> picp (A1 ls) (A1 us) (A2 rows) = Err ValueError).
Proof.
  intros ls us ts L1 L2 col. assert (C : forall l, as_column (col l) = Ok l).
  { intros l. unfold col, as_column. induction l as [|x l IH]; [reflexivity|]. cbn [map mapM bind]. now rewrite IH. }
  split. { unfold picp. now rewrite !C. }
  intros d rows Hd Hr F. unfold picp. destruct rows as [|r rows]; [easy|]. inversion F; subst. cbn [as_column mapM].
  destruct r as [|x [|y r]]; try reflexivity. now cbn in Hd.
Qed.
