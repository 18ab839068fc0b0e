(** Proofs about F1 temperature scaling and the grid search. *)
From Coq Require Import List Arith ZArith QArith Qminmax Qabs Bool Lia Lqa.
From Verif Require Import Lib QuantModel QuantProofs ConfRegModel ConfClassModel ConfClassProofs ConfClassProofs2 ConfClassProofs3 MetricModel MetricSpec MetricProofs MetricProofs2 TempModel TempSpec TempProofs.
Import ListNotations.
Open Scope Q_scope.

Section BruteProofs.
Variables (N T : Type) (leb : N -> N -> bool) (ok : N -> Prop).
Hypothesis total_ok : forall a b, ok a -> ok b -> leb a b = false -> leb b a = true.
Hypothesis refl_ok : forall a, ok a -> leb a a = true.
Hypothesis trans_ok : forall a b c, ok a -> ok b -> ok c -> leb a b = true -> leb b c = true -> leb a c = true.
Lemma best_from_spec (loss : T -> N) : (forall t, ok (loss t)) -> forall l b,
  In (best_from N leb T loss b l) (b :: l) /\ forall x, In x (b :: l) -> leb (loss (best_from N leb T loss b l)) (loss x) = true.
Proof.
  intros K. induction l as [|y l IH]; intros b; cbn [best_from].
  - split; [now left|]. intros x [->|[]]. now apply refl_ok.
  - destruct (leb (loss b) (loss y)) eqn:E.
    + destruct (IH b) as [A B]. split. destruct A as [A|A]; [now left|right; now right].
      intros x [->|[->|Hx]]. apply B. now left. eapply trans_ok; [apply K|apply (K b)|apply K| |exact E]. apply B. now left. apply B. now right.
    + destruct (IH y) as [A B]. split. destruct A as [A|A]; [right; now left|right; now right].
      assert (E' := total_ok _ _ (K b) (K y) E).
      intros x [->|[->|Hx]]. eapply trans_ok; [apply K|apply (K y)|apply K| |exact E']. apply B. now left. apply B. now left. apply B. now right.
Qed.
End BruteProofs.

Lemma preds_sum c ps : qsum (map (fun p => of_bool (Qle_bool c p)) ps) == nQ (num (fun b => b) (map (Qle_bool c) ps)).
Proof. rewrite <- (tot_num (fun b => b)). unfold tot. rewrite !map_map. reflexivity. Qed.
Lemma targets_sum ys : binary ys -> qsum (map inject_Z ys) == nQ (positives ys).
Proof.
  intros B. rewrite <- (tot_num (fun y => (y =? 1)%Z)). apply tot_ext. intros y Hy. unfold binary in B. rewrite Forall_forall in B. destruct (B y Hy) as [->| ->]; reflexivity.
Qed.
Lemma joint_sum c : forall ps ys, binary ys ->
  qsum (zip_with (fun y b => inject_Z y * b) ys (map (fun p => of_bool (Qle_bool c p)) ps)) == nQ (true_positives (map (Qle_bool c) ps) ys).
Proof.
  intros ps ys B. unfold true_positives. rewrite <- (tot_num (fun p => fst p && (snd p =? 1)%Z)). revert ps. induction ys as [|y ys IH]; intros [|p ps]; try reflexivity.
  inversion B; subst. specialize (IH H2 ps). cbn [map combine]. rewrite tot_cons. cbn [fst snd]. unfold zip_with in *. cbn [map combine]. rewrite qsum_cons, IH. cbn [fst snd].
  destruct (Qle_bool c p); destruct H1 as [->| ->]; reflexivity.
Qed.
Lemma num_split {A} (f g : A -> bool) l : (num (fun x => f x && g x) l <= num f l)%nat.
Proof. induction l as [|x l IH]; [cbn; lia|]. unfold num in *. cbn [filter]. destruct (f x), (g x); cbn [andb length]; lia. Qed.
Lemma tp_le_preds : forall bs ys, (true_positives bs ys <= num (fun b => b) bs)%nat.
Proof. induction bs as [|b bs IH]; intros [|y ys]; unfold true_positives, num in *; cbn [combine filter fst snd]; try (cbn; lia). specialize (IH ys). destruct b; cbn [andb]; [destruct (y =? 1)%Z|]; cbn [length]; lia. Qed.
Lemma tp_le_pos : forall bs ys, (true_positives bs ys <= positives ys)%nat.
Proof. induction bs as [|b bs IH]; intros [|y ys]; unfold true_positives, positives, num in *; cbn [combine filter fst snd]; try (cbn; lia). specialize (IH ys). destruct b; cbn [andb]; destruct (y =? 1)%Z; cbn [length]; lia. Qed.

Lemma f1_alg J P T : 0 < P -> 0 < T -> ~ J == 0 -> 0 < J -> - (2) * (J / P) * (J / T) / (J / P + J / T) == - (2 * J / (P + T)).
Proof.
  intros HP HT HJ Jp. assert (~ P == 0) by lra. assert (~ T == 0) by lra. assert (~ P + T == 0) by lra.
  assert (E : J / P + J / T == J * (P + T) / (P * T)) by (field; split; assumption). rewrite E. field. repeat split; try assumption; lra.
Qed.
Theorem f1_loss_spec : forall ps ys threshold tau, binary ys ->
  (positives ys = O -> f1_loss ps ys threshold tau = None) /\
  ((0 < positives ys)%nat -> exists l, f1_loss ps ys threshold tau = Some l /\ l == - f1_score (map (Qle_bool (threshold * tau)) ps) ys).
Proof.
  intros ps ys th tau B. unfold f1_loss. cbv zeta.
  assert (EP := preds_sum (th * tau) ps). assert (ET := targets_sum ys B). assert (EJ := joint_sum (th * tau) ps ys B).
  set (P := qsum (map (fun p => of_bool (Qle_bool (th * tau) p)) ps)) in *. set (T := qsum (map inject_Z ys)) in *.
  set (J := qsum (zip_with _ ys _)) in *. unfold f1_score. set (bs := map (Qle_bool (th * tau)) ps) in *.
  assert (JP := tp_le_preds bs ys). split.
  - intros Z. rewrite Z in ET. destruct (np_div J T) eqn:E; [|reflexivity]. apply np_div_some in E. destruct E as [E _]. exfalso. apply E. exact ET.
  - intros Z. assert (PT := nQ_pos _ Z). assert (HT : 0 < T) by lra. unfold np_div. rewrite nz_eqb by lra.
    destruct (Nat.eq_dec (true_positives bs ys) 0) as [J0|J0].
    + rewrite J0 in *. change (nQ 0) with 0 in *. assert (A : (if Qlt_bool 0 P then J / P else 0) == 0). { destruct (Qlt_bool 0 P) eqn:X; [|reflexivity]. rewrite EJ. unfold Qdiv. ring. }
      assert (C : J / T == 0) by (rewrite EJ; unfold Qdiv; ring). set (pr := if Qlt_bool 0 P then J / P else 0) in *. 
      assert (D : pr + J / T == 0) by (rewrite A, C; ring). apply Qeq_bool_iff in D. rewrite D. exists 0. split; [reflexivity|]. unfold Qdiv. ring.
    + assert (PJ := nQ_pos _ (proj1 (Nat.neq_0_lt_0 _) J0)). assert (PP := nQ_pos (num (fun b => b) bs) ltac:(lia)).
      assert (HJ : 0 < J) by lra. assert (HP : 0 < P) by lra.
      assert (X : Qlt_bool 0 P = true) by (now apply Qltb_true). rewrite X.
      assert (J / P + J / T > 0). { assert (0 < J / P) by (apply Qlt_shift_div_l; lra). assert (0 < J / T) by (apply Qlt_shift_div_l; lra). lra. }
      rewrite nz_eqb by lra. eexists. split; [reflexivity|]. rewrite f1_alg by lra. rewrite EJ, EP, ET. reflexivity.
Qed.
Theorem f1_score_range : forall bs ys, (0 < positives ys)%nat -> in_unit (f1_score bs ys) /\ (f1_score bs ys == 1 <-> (true_positives bs ys = num (fun b => b) bs /\ true_positives bs ys = positives ys)).
Proof.
  intros bs ys H. assert (PT := nQ_pos _ H). unfold f1_score. assert (A := tp_le_preds bs ys). assert (C := tp_le_pos bs ys).
  apply nQ_le in A. apply nQ_le in C. assert (N0 := nQ_nonneg (true_positives bs ys)). assert (N1 := nQ_nonneg (num (fun b => b) bs)).
  assert (D : 0 < nQ (num (fun b => b) bs) + nQ (positives ys)) by lra.
  split. { split. apply Qle_shift_div_l; lra. apply Qle_shift_div_r; lra. }
  split; intros X.
  - assert (Y : 2 * nQ (true_positives bs ys) == nQ (num (fun b => b) bs) + nQ (positives ys)).
    { rewrite <- (Qmult_1_l (nQ (num _ bs) + _)). rewrite <- X. field. lra. }
    split; apply nQ_inj; lra.
  - destruct X as [X Y]. rewrite Y in X. rewrite Y, <- X. field. lra.
Qed.
Theorem predict_threshold : forall t threshold ps, 0 < t -> 0 < threshold <= 1 -> predict t threshold ps = map (Qle_bool (threshold * t)) ps.
Proof.
  intros t th ps Ht [H0 H1]. unfold predict, predict_proba. rewrite map_map. apply map_ext. intros p.
  destruct (scaled_nz t p ltac:(lra)) as [c [-> [_ [C1 [C2 C3]]]]].
  assert (E : th <= p / t <-> th * t <= p). { split; intros X. assert (p == p / t * t) as -> by (field; lra). apply Qmult_le_compat_r; lra. apply Qle_shift_div_l; lra. }
  destruct (Qle_bool (th * t) p) eqn:X.
  - apply Qle_bool_iff in X. apply E in X. apply Qle_bool_iff. destruct (Qlt_le_dec 1 (p / t)) as [A|A]. rewrite C3; lra. rewrite C2; lra.
  - apply Qleb_false in X. apply Qleb_false. destruct (Qlt_le_dec (p / t) 0) as [A|A]. rewrite C1; lra. 
    assert (p / t < th). { apply Qnot_le_lt. intros Y. apply E in Y. lra. } rewrite C2; lra.
Qed.
Lemma grid_nonempty lo hi : linspace lo hi 1000 = hd 0 (linspace lo hi 1000) :: tl (linspace lo hi 1000).
Proof. assert (A := linspace_length lo hi 1000). destruct (linspace lo hi 1000); [discriminate|reflexivity]. Qed.

Lemma f1_ok_total a b : a <> None -> b <> None -> oleb a b = false -> oleb b a = true.
Proof. destruct a as [a|], b as [b|]; try congruence. cbn. intros _ _ H. apply Qleb_false in H. apply Qle_bool_iff. lra. Qed.
Lemma f1_ok_refl a : a <> None -> oleb a a = true.
Proof. destruct a as [a|]; [|congruence]. intros _. apply Qle_bool_iff. lra. Qed.
Lemma f1_ok_trans a b c : a <> None -> b <> None -> c <> None -> oleb a b = true -> oleb b c = true -> oleb a c = true.
Proof. destruct a as [a|], b as [b|], c as [c|]; try congruence. cbn. intros _ _ _ H1 H2. apply Qle_bool_iff in H1, H2. apply Qle_bool_iff. lra. Qed.
Theorem f1_optimal : forall finish ps ys threshold i, improves loss_le finish -> binary ys -> (0 < positives ys)%nat -> (i < 1000)%nat ->
  let t := fit_f1 finish ps ys threshold in
  f1_score (map (Qle_bool (threshold * grid_point (qmin_list ps) (1 / threshold) 1000 i)) ps) ys <= f1_score (map (Qle_bool (threshold * t)) ps) ys.
Proof.
  intros finish ps ys th i Imp B Pos Hi t. set (loss := f1_loss ps ys th).
  assert (K : forall tau, loss tau <> None). { intros tau. destruct (f1_loss_spec ps ys th tau B) as [_ H]. destruct (H Pos) as [l [E _]]. unfold loss. congruence. }
  destruct (best_from_spec _ Q oleb (fun o => o <> None) f1_ok_total f1_ok_refl f1_ok_trans loss K (tl (linspace (qmin_list ps) (1 / th) 1000)) (hd 0 (linspace (qmin_list ps) (1 / th) 1000))) as [_ G].
  rewrite <- grid_nonempty in G. set (b := best_from _ _ _ loss _ _) in G.
  assert (Hg : In (grid_point (qmin_list ps) (1 / th) 1000 i) (linspace (qmin_list ps) (1 / th) 1000)).
  { unfold grid_point, nQ. rewrite <- linspace_nth by assumption. apply nth_In. now rewrite linspace_length. }
  apply G in Hg. assert (I := Imp loss b). change (finish loss b) with t in I.
  assert (I' : oleb (loss t) (loss b) = true). { revert I. unfold loss_le. destruct (loss t), (loss b); try reflexivity. intros I. now apply Qle_bool_iff. }
  assert (F := f1_ok_trans _ _ _ (K _) (K _) (K _) I' Hg). unfold loss in F.
  destruct (f1_loss_spec ps ys th t B) as [_ H1]. destruct (H1 Pos) as [l1 [E1 V1]].
  destruct (f1_loss_spec ps ys th (grid_point (qmin_list ps) (1 / th) 1000 i) B) as [_ H2]. destruct (H2 Pos) as [l2 [E2 V2]].
  rewrite E1, E2 in F. cbn in F. apply Qle_bool_iff in F. lra.
Qed.
(** a zero temperature is fitted although the predictions it makes are worse than the
    score it was chosen for *)
Theorem f1_zero_refuted : exists ps ys threshold t, Forall in_unit ps /\ binary ys /\ 0 < threshold <= 1 /\ (0 < positives ys)%nat /\ t = fit_f1 (fun _ x => x) ps ys threshold /\
  (exists l, f1_loss ps ys threshold t = Some l /\ l == - (1)) /\ f1_score (predict t threshold ps) ys == 2 # 3.
Proof.
  exists [0; 1], [1%Z; 1%Z], (1 # 2). eexists. split. { repeat constructor; discriminate. } split. { repeat constructor; now right. } split. { split; [reflexivity|discriminate]. } split. { vm_compute. lia. }
  split; [reflexivity|]. split. { eexists. split; vm_compute; reflexivity. } vm_compute. reflexivity.
Qed.
