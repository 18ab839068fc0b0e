(** Proofs about the Brier score. *)
From Coq Require Import List Arith ZArith QArith Qminmax Qabs Bool Lia Lqa Permutation.
From Verif Require Import Lib QuantModel QuantSpec QuantProofs ConfRegModel ConfRegProofs ConfClassModel ConfClassProofs2 MetricModel MetricSpec MetricProofs MetricProofs2.
Import ListNotations.
Open Scope Q_scope.

Lemma one_hot_length d y : length (one_hot d y) = d.
Proof. unfold one_hot. now rewrite map_length, seq_length. Qed.
Lemma one_hot_nth d y j : (j < d)%nat -> nth j (one_hot d y) 0 = of_bool (y =? Z.of_nat j)%Z.
Proof.
  intros H. unfold one_hot. rewrite (nth_indep _ 0 (of_bool (y =? Z.of_nat 0)%Z)) by now rewrite map_length, seq_length.
  rewrite (map_nth (fun j => of_bool (y =? Z.of_nat j)%Z)), seq_nth by assumption. reflexivity.
Qed.
Lemma one_hot_matrix d ys : matrix (length ys) d (map (one_hot d) ys).
Proof. split. apply map_length. apply Forall_forall. intros r Hr. apply in_map_iff in Hr. destruct Hr as [y [<- _]]. apply one_hot_length. Qed.
Lemma matrix_columns n d rows : (0 < n)%nat -> matrix n d rows -> n_columns rows = d.
Proof. intros Hn [L F]. destruct rows as [|r rows]; [cbn in L; lia|]. now inversion F. Qed.
Lemma brier_eq n d rows ys : (0 < n)%nat -> matrix n d rows -> length ys = n ->
  brier_score (A2 rows) ys = Ok (sum2 (fun r y => sq_dist r (one_hot d y)) rows ys / nQ n).
Proof.
  intros Hn M L. unfold brier_score. rewrite (matrix_columns n d) by assumption. rewrite (mse_value_eq n d). 
  - apply (f_equal (fun z => Ok (z / nQ n))). clear. revert ys. induction rows as [|r rows IH]; intros [|y ys]; try reflexivity. cbn [sum2 map]. now rewrite IH.
  - assumption.
  - rewrite <- L. apply one_hot_matrix.
Qed.
Lemma sum2_nth (f : Q -> Q -> Q) r : forall s, length r = length s -> sum2 f r s == tot (fun j => f (nth j r 0) (nth j s 0)) (seq 0 (length r)).
Proof.
  induction r as [|x r IH]; intros [|y s] L; try discriminate; [reflexivity|]. injection L as L. cbn [sum2 length seq]. rewrite tot_cons, IH by assumption.
  cbn [nth]. rewrite <- seq_shift. unfold tot. rewrite map_map. reflexivity.
Qed.
Lemma sq_one_hot d r y : length r = d -> sq_dist r (one_hot d y) == tot (fun j => (nth j r 0 - of_bool (y =? Z.of_nat j)%Z) * (nth j r 0 - of_bool (y =? Z.of_nat j)%Z)) (seq 0 d).
Proof.
  intros L. unfold sq_dist. rewrite sum2_nth by (now rewrite one_hot_length). rewrite L. apply tot_ext. intros j Hj. apply in_seq in Hj. rewrite one_hot_nth by lia. reflexivity.
Qed.
Lemma tot_nth r : tot (fun j => nth j r 0) (seq 0 (length r)) == total r.
Proof.
  induction r as [|x r IH]; [reflexivity|]. cbn [length seq]. rewrite tot_cons. cbn [nth]. rewrite <- seq_shift. unfold tot. rewrite map_map. cbn [nth].
  fold (tot (fun j => nth j r 0) (seq 0 (length r))). rewrite IH. reflexivity.
Qed.
Lemma one_hot_sum d y a : tot (fun j => of_bool (y =? Z.of_nat j)%Z) (seq a d) <= 1.
Proof.
  revert a. induction d as [|d IH]; intros a; [discriminate|]. cbn [seq]. rewrite tot_cons. destruct (Z.eqb_spec y (Z.of_nat a)).
  - assert (tot (fun j => of_bool (y =? Z.of_nat j)%Z) (seq (S a) d) == 0) as ->; [|discriminate].
    rewrite <- (tot_zero (seq (S a) d)). apply tot_ext. intros j Hj. apply in_seq in Hj. destruct (Z.eqb_spec y (Z.of_nat j)); [lia|reflexivity].
  - specialize (IH (S a)). unfold of_bool at 1. lra.
Qed.
Lemma sq_bound r e : in_unit r -> (e = 0 \/ e = 1) -> 0 <= (r - e) * (r - e) <= r + e.
Proof.
  intros [A B] [->| ->]; split; try apply sq_nonneg.
  - assert (r * r <= 1 * r) by (apply Qmult_le_compat_r; lra). lra.
  - assert (0 <= r * (3 - r)) by (apply Qmult_le_0_compat; lra). lra.
Qed.
Lemma of_bool_01 b : of_bool b = 0 \/ of_bool b = 1. Proof. destruct b; [right|left]; reflexivity. Qed.
Lemma sq_dist_le2 d r y : length r = d -> distribution r -> sq_dist r (one_hot d y) <= 2.
Proof.
  intros L [F T]. rewrite sq_one_hot by assumption.
  eapply Qle_trans. apply (tot_le _ (fun j => nth j r 0 + of_bool (y =? Z.of_nat j)%Z)).
  { intros j Hj. apply in_seq in Hj. apply sq_bound. rewrite Forall_forall in F. apply F. apply nth_In. lia. apply of_bool_01. }
  rewrite <- (tot_add (fun j => nth j r 0)). rewrite <- L, tot_nth, T. assert (X := one_hot_sum (length r) y 0). lra.
Qed.
Lemma sum2_le_n {A B} (f : A -> B -> Q) c l : forall m, (forall x y, In x l -> f x y <= c) -> length l = length m -> sum2 f l m <= c * nQ (length l).
Proof.
  induction l as [|x l IH]; intros [|y m] H L; try discriminate. change (0 <= c * 0). apply Qle_lteq. right. ring. injection L as L. cbn [sum2 length]. rewrite nQ_S.
  assert (A0 := IH m ltac:(intros; apply H; now right) L). assert (B0 := H x y ltac:(now left)). assert (c * (1 + nQ (length l)) == c + c * nQ (length l)) as -> by ring. lra.
Qed.
Theorem brier_range : forall n d rows ys, (0 < n)%nat -> matrix n d rows -> length ys = n -> Forall distribution rows ->
  exists v, brier_score (A2 rows) ys = Ok v /\ 0 <= v <= 2.
Proof.
  intros n d rows ys Hn M L F. exists (sum2 (fun r y => sq_dist r (one_hot d y)) rows ys / nQ n). split; [now apply brier_eq|]. split.
  - apply div_nonneg. apply sum2_nonneg. intros. apply sq_dist_nonneg.
  - apply Qle_shift_div_r. now apply nQ_pos. destruct M as [M1 M2]. rewrite <- M1. apply sum2_le_n; [|congruence].
    intros r y Hr. rewrite Forall_forall in F, M2. apply sq_dist_le2. now apply M2. now apply F.
Qed.
Lemma sum2_zero_in {A B} (f : A -> B -> Q) l : forall m, length l = length m -> (forall x y, 0 <= f x y) ->
  (sum2 f l m == 0 <-> forall x y, In (x, y) (combine l m) -> f x y == 0).
Proof.
  intros m L H. rewrite (sum2_zero f (fun x y => f x y == 0)); [|assumption|assumption|tauto]. revert m L. induction l as [|x l IH]; intros [|y m] L; try discriminate.
  - split; [intros _ ? ? []|constructor].
  - injection L as L. split.
    + intros F a b Hin. inversion F; subst. destruct Hin as [E|Hin]. injection E as <- <-. assumption. apply (proj1 (IH m L)); assumption.
    + intros G. constructor. apply G. now left. apply IH. assumption. intros. apply G. now right.
Qed.
Theorem brier_zero : forall n d rows ys v, (0 < n)%nat -> matrix n d rows -> length ys = n -> brier_score (A2 rows) ys = Ok v ->
  (v == 0 <-> forall r y, In (r, y) (combine rows ys) -> is_indicator d y r).
Proof.
  intros n d rows ys v Hn M L E. rewrite (brier_eq n d) in E by assumption. injection E as <-. rewrite div_zero by assumption.
  rewrite sum2_zero_in; [|destruct M; congruence|intros; apply sq_dist_nonneg].
  assert (Z0 : forall r y, length r = d -> (sq_dist r (one_hot d y) == 0 <-> is_indicator d y r)).
  { intros r y Hr. rewrite sq_one_hot by assumption. rewrite tot_all_zero by (intros; apply sq_nonneg). unfold is_indicator. split.
    - intros H. split; [assumption|]. intros j Hj. specialize (H j ltac:(apply in_seq; lia)). apply (proj1 (sq_zero _)) in H. unfold of_bool in H. destruct (y =? Z.of_nat j)%Z; lra.
    - intros [_ H] j Hj. apply in_seq in Hj. specialize (H j ltac:(lia)). apply sq_zero. rewrite H. unfold of_bool. destruct (y =? Z.of_nat j)%Z; ring. }
  destruct M as [_ M2]. rewrite Forall_forall in M2. split; intros H r y Hin.
  - apply Z0. apply M2. now apply in_combine_l in Hin. now apply H.
  - apply Z0. apply M2. now apply in_combine_l in Hin. now apply H.
Qed.
Theorem brier_binary : forall ps ys, ps <> [] -> length ps = length ys ->
  exists v, brier_score (A1 ps) ys = Ok v /\ v * nQ (length ps) == sum2 (fun p y => (p - inject_Z y) * (p - inject_Z y)) ps ys /\
    (Forall in_unit ps -> Forall (fun y => y = 0%Z \/ y = 1%Z) ys -> in_unit v).
Proof.
  intros ps ys Hne L. unfold brier_score. rewrite bc1_same by now rewrite map_length. cbn [rmap]. eexists. split; [reflexivity|].
  set (v := qmean _).
  assert (P := nQ_pos (length ps) (ne_len _ Hne)).
  assert (E : v * nQ (length ps) == sum2 (fun p y => (p - inject_Z y) * (p - inject_Z y)) ps ys).
  { unfold v, qmean, qlen. rewrite zip_map, sum2_zip.
    replace (length (zip_with (fun x y => (x - y) * (x - y)) ps (map inject_Z ys))) with (length ps) by (unfold zip_with; rewrite map_length, combine_length, map_length; lia).
    assert (S0 : sum2 (fun x y => (x - y) * (x - y)) ps (map inject_Z ys) = sum2 (fun p y => (p - inject_Z y) * (p - inject_Z y)) ps ys).
    { clear. revert ys. induction ps as [|p ps IH]; intros [|y ys]; try reflexivity. cbn [map sum2]. now rewrite IH. }
    rewrite S0. unfold nQ in *. field. lra. }
  split; [assumption|]. intros F1 F2.
  assert (0 <= v * nQ (length ps)) by (rewrite E; apply sum2_nonneg; intros; apply sq_nonneg).
  assert (v * nQ (length ps) <= 1 * nQ (length ps)).
  { rewrite E. clear E v H P Hne. revert ys L F2. induction ps as [|p ps IH]; intros [|y ys] L F2; try discriminate. injection L as L. inversion F1; inversion F2; subst.
    specialize (IH H2 ys L H6). cbn [sum2 length]. rewrite nQ_S.
    assert ((p - inject_Z y) * (p - inject_Z y) <= 1).
    { destruct H1. destruct H5 as [->| ->].
      - change (inject_Z 0) with 0. assert (p * p <= 1 * p) by (apply Qmult_le_compat_r; lra). lra.
      - change (inject_Z 1) with 1. assert ((1 - p) * (1 - p) <= 1 * (1 - p)) by (apply Qmult_le_compat_r; lra). lra. }
    lra. }
  unfold in_unit. split.
  - apply (Qmult_le_r _ _ (nQ (length ps))); [assumption|]. lra.
  - apply (Qmult_le_r _ _ (nQ (length ps))); [assumption|]. lra.
Qed.

(** constant predictions: the relative frequencies are best *)
Lemma const_sum d p ys : length p = d ->
  sum2 (fun r y => sq_dist r (one_hot d y)) (repeat p (length ys)) ys ==
  tot (fun j => tot (fun y => (nth j p 0 - of_bool (y =? Z.of_nat j)%Z) * (nth j p 0 - of_bool (y =? Z.of_nat j)%Z)) ys) (seq 0 d).
Proof.
  intros L. rewrite <- (tot_swap (fun y j => (nth j p 0 - of_bool (y =? Z.of_nat j)%Z) * (nth j p 0 - of_bool (y =? Z.of_nat j)%Z))).
  induction ys as [|y ys IH]; [reflexivity|]. cbn [length repeat sum2]. rewrite tot_cons, IH, sq_one_hot by assumption. reflexivity.
Qed.
Lemma mean_best (b : Z -> Q) ys c m : m * nQ (length ys) == tot b ys ->
  tot (fun y => (c - b y) * (c - b y)) ys == tot (fun y => (m - b y) * (m - b y)) ys + nQ (length ys) * ((c - m) * (c - m)).
Proof.
  intros Hm. assert (G : forall c, tot (fun y => (c - b y) * (c - b y)) ys == nQ (length ys) * (c * c) - 2 * (c * tot b ys) + tot (fun y => b y * b y) ys).
  { intros c0. clear. induction ys as [|y ys IH]. change (0 == 0 * (c0 * c0) - 2 * (c0 * 0) + 0). ring. rewrite !tot_cons, IH. cbn [length]. rewrite nQ_S. ring. }
  rewrite (G c), (G m), <- Hm. ring.
Qed.
Theorem brier_proper : forall d p ys v w, (0 < d)%nat -> length p = d -> ys <> [] ->
  brier_score (A2 (repeat p (length ys))) ys = Ok v ->
  brier_score (A2 (repeat (frequencies d ys) (length ys))) ys = Ok w ->
  v == w + sq_dist p (frequencies d ys).
Proof.
  intros d p ys v w Hd Lp Hne E1 E2. assert (Hn := ne_len _ Hne). assert (P := nQ_pos _ Hn).
  assert (Lf : length (frequencies d ys) = d) by (unfold frequencies; now rewrite map_length, seq_length).
  assert (M : forall q, length q = d -> matrix (length ys) d (repeat q (length ys))).
  { intros q Hq. split. apply repeat_length. apply Forall_forall. intros r Hr. apply repeat_spec in Hr. now subst. }
  rewrite (brier_eq (length ys) d) in E1 by auto. rewrite (brier_eq (length ys) d) in E2 by auto. injection E1 as <-. injection E2 as <-.
  rewrite !const_sum by assumption.
  assert (Fj : forall j, (j < d)%nat -> nth j (frequencies d ys) 0 == nQ (num (fun y => (y =? Z.of_nat j)%Z) ys) / nQ (length ys)).
  { intros j Hj. unfold frequencies. rewrite (nth_indep _ 0 (nQ (num (fun y => (y =? Z.of_nat 0)%Z) ys) / nQ (length ys))) by now rewrite map_length, seq_length.
    rewrite (map_nth (fun j => nQ (num (fun y => (y =? Z.of_nat j)%Z) ys) / nQ (length ys))), seq_nth by assumption. reflexivity. }
  assert (S0 : sq_dist p (frequencies d ys) == tot (fun j => (nth j p 0 - nth j (frequencies d ys) 0) * (nth j p 0 - nth j (frequencies d ys) 0)) (seq 0 d)).
  { unfold sq_dist. rewrite sum2_nth by congruence. now rewrite Lp. }
  assert (T : tot (fun j => tot (fun y => (nth j p 0 - of_bool (y =? Z.of_nat j)%Z) * (nth j p 0 - of_bool (y =? Z.of_nat j)%Z)) ys) (seq 0 d) ==
     tot (fun j => tot (fun y => (nth j (frequencies d ys) 0 - of_bool (y =? Z.of_nat j)%Z) * (nth j (frequencies d ys) 0 - of_bool (y =? Z.of_nat j)%Z)) ys) (seq 0 d) + nQ (length ys) * sq_dist p (frequencies d ys)).
  { rewrite S0, Qmult_comm, <- tot_scale, tot_add. apply tot_ext. intros j Hj. apply in_seq in Hj.
    rewrite (mean_best (fun y => of_bool (y =? Z.of_nat j)%Z) ys (nth j p 0) (nth j (frequencies d ys) 0)). ring.
    rewrite Fj by lia. rewrite tot_num. field. lra. }
  rewrite T. field. lra.
Qed.
