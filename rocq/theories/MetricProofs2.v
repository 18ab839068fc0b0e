(** Proofs about the classification metrics. *)
From Coq Require Import List Arith ZArith QArith Qminmax Qabs Bool Lia Lqa Permutation.
From Verif Require Import Lib QuantModel QuantSpec QuantProofs ConfRegModel ConfRegProofs ConfClassModel ConfClassProofs2 ConfClassProofs3 MetricModel MetricSpec MetricProofs.
Import ListNotations.
Open Scope Q_scope.

Lemma thresholds_edge n i : (i < 10)%nat -> nth i (thresholds n) 0 == edge n i.
Proof.
  intros H. unfold thresholds. rewrite linspace_nth by assumption. unfold edge, nQ. change (inject_Z (Z.of_nat (10 - 1))) with 9. reflexivity.
Qed.
Lemma in_bin_b n i p : (i < 10)%nat -> in_bin n i p = bin_b n i p.
Proof.
  intros H. unfold in_bin, bin_b. destruct i as [|j].
  - cbn [Nat.eqb orb]. rewrite andb_true_r. apply leb_ext; [reflexivity|]. now apply thresholds_edge.
  - cbn [Nat.eqb orb]. replace (S j - 1)%nat with j by lia. unfold Qlt_bool.
    rewrite (leb_ext p _ p (edge n (S j))) by (try reflexivity; now apply thresholds_edge).
    now rewrite (leb_ext p (nth j (thresholds n) 0) p (edge n j)) by (try reflexivity; apply thresholds_edge; lia).
Qed.
Lemma inv_n_le n : (0 < n)%nat -> 0 < 1 / nQ n <= 1.
Proof.
  intros H. assert (P := nQ_pos n H). assert (1 <= nQ n) by (change 1 with (nQ 1); apply nQ_le; lia).
  split. apply Qlt_shift_div_l; lra. apply Qle_shift_div_r; lra.
Qed.
Lemma edge_S n i : edge n (S i) == edge n i + (1 - 1 / nQ n) / 9.
Proof. unfold edge. rewrite nQ_S. ring. Qed.
Lemma edge_step n i : (0 < n)%nat -> edge n i <= edge n (S i).
Proof. intros H. rewrite edge_S. assert (A := inv_n_le n H). assert (0 <= (1 - 1 / nQ n) / 9) by (apply Qle_shift_div_l; lra). lra. Qed.
Lemma edge_mono n i j : (0 < n)%nat -> (i <= j)%nat -> edge n i <= edge n j.
Proof. intros H L. induction L. lra. assert (A := edge_step n m H). lra. Qed.
Lemma edge_9 n : (0 < n)%nat -> edge n 9 == 1.
Proof. intros H. unfold edge. change (nQ 9) with 9. assert (P := nQ_pos n H). field. lra. Qed.
Lemma bin_b_iff n i p : bin_b n i p = true <-> bin_of n i p.
Proof.
  unfold bin_b, bin_of. rewrite andb_true_iff, orb_true_iff, negb_true_iff, Qleb_true, Qleb_false, Nat.eqb_eq. tauto.
Qed.
Theorem bins_partition : forall n p, (0 < n)%nat ->
  (p <= 1 -> exists i, (i < 10)%nat /\ in_bin n i p = true /\ forall j, (j < 10)%nat -> in_bin n j p = true -> j = i) /\
  (1 < p -> forall j, (j < 10)%nat -> in_bin n j p = false).
Proof.
  intros n p Hn. split.
  - intros Hp. assert (E : forall k, (k <= 9)%nat -> p <= edge n k -> exists i, (i <= k)%nat /\ bin_of n i p).
    { induction k as [|k IH]; intros Hk He. exists 0%nat. split; [lia|]. split; [assumption|now left].
      destruct (Qlt_le_dec (edge n k) p) as [A|A].
      - exists (S k). split; [lia|]. split; [assumption|]. right. replace (S k - 1)%nat with k by lia. assumption.
      - destruct IH as [i [Hi Hb]]; [lia|assumption|]. exists i. split; [lia|assumption]. }
    destruct (E 9%nat) as [i [Hi Hb]]; [lia| |]. rewrite edge_9 by assumption. assumption.
    exists i. split; [lia|]. split. rewrite in_bin_b by lia. now apply bin_b_iff.
    intros j Hj Hbj. rewrite in_bin_b in Hbj by assumption. apply bin_b_iff in Hbj. destruct Hb as [B1 B2], Hbj as [C1 C2].
    destruct (Nat.lt_trichotomy i j) as [L|[->|L]]; [exfalso|reflexivity|exfalso].
    + destruct C2 as [->|C2]; [lia|]. assert (M := edge_mono n i (j - 1) Hn ltac:(lia)). lra.
    + destruct B2 as [->|B2]; [lia|]. assert (M := edge_mono n j (i - 1) Hn ltac:(lia)). lra.
  - intros Hp j Hj. rewrite in_bin_b by assumption. destruct (bin_b n j p) eqn:E; [|reflexivity]. apply bin_b_iff in E. destruct E as [E _].
    assert (M := edge_mono n j 9 Hn ltac:(lia)). rewrite edge_9 in M by assumption. lra.
Qed.

(** sums over filtered lists *)
Definition tot {A} (f : A -> Q) (l : list A) : Q := qsum (map f l).
Lemma tot_cons {A} (f : A -> Q) x l : tot f (x :: l) = f x + tot f l. Proof. reflexivity. Qed.
Lemma tot_filter {A} (f : A -> Q) (b : A -> bool) l : tot f (filter b l) == tot (fun x => f x * of_bool (b x)) l.
Proof.
  induction l as [|x l IH]; [reflexivity|]. rewrite tot_cons. cbn [filter]. destruct (b x).
  - rewrite tot_cons, IH. unfold of_bool. ring.
  - rewrite IH. unfold of_bool. ring.
Qed.
Lemma tot_ext {A} (f g : A -> Q) l : (forall x, In x l -> f x == g x) -> tot f l == tot g l.
Proof.
  induction l as [|x l IH]; intros H; [reflexivity|]. rewrite !tot_cons, (H x) by now left. rewrite IH; [reflexivity|]. intros y Hy. apply H. now right.
Qed.
Lemma tot_add {A} (f g : A -> Q) l : tot f l + tot g l == tot (fun x => f x + g x) l.
Proof. induction l as [|x l IH]; [reflexivity|]. rewrite !tot_cons, <- IH. ring. Qed.
Lemma tot_le {A} (f g : A -> Q) l : (forall x, In x l -> f x <= g x) -> tot f l <= tot g l.
Proof.
  induction l as [|x l IH]; intros H. apply Qle_refl. rewrite !tot_cons. apply Qplus_le_compat. apply H. now left. apply IH. intros y Hy. apply H. now right.
Qed.
Lemma tot_app {A} (f : A -> Q) l m : tot f (l ++ m) == tot f l + tot f m.
Proof. induction l as [|x l IH]. change (tot f []) with 0. change ([] ++ m) with m. ring. change ((x :: l) ++ m) with (x :: (l ++ m)). rewrite !tot_cons, IH. ring. Qed.
Lemma tot_scale {A} (f : A -> Q) c l : tot (fun x => f x * c) l == tot f l * c.
Proof. induction l as [|x l IH]. change (0 == 0 * c). ring. rewrite !tot_cons, IH. ring. Qed.
Lemma tot_one {A} (l : list A) : tot (fun _ => 1) l == nQ (length l).
Proof. induction l as [|x l IH]; [reflexivity|]. rewrite tot_cons, IH. cbn [length]. rewrite nQ_S. reflexivity. Qed.
Lemma tot_zero {A} (l : list A) : tot (fun _ => 0) l == 0.
Proof. induction l as [|x l IH]; [reflexivity|]. rewrite tot_cons, IH. ring. Qed.
Lemma tot_nonneg {A} (f : A -> Q) l : (forall x, In x l -> 0 <= f x) -> 0 <= tot f l.
Proof. intros H. rewrite <- (tot_zero l). now apply tot_le. Qed.
Lemma tot_num {A} (b : A -> bool) l : tot (fun x => of_bool (b x)) l == nQ (num b l).
Proof. rewrite <- qsum_bools. unfold tot. now rewrite map_map. Qed.
Lemma tot_abs {A} (f : A -> Q) l : Qabs (tot f l) <= tot (fun x => Qabs (f x)) l.
Proof. induction l as [|x l IH]. apply Qle_refl. rewrite !tot_cons. eapply Qle_trans. apply Qabs_triangle. apply Qplus_le_compat. apply Qle_refl. assumption. Qed.
Lemma tot_all_zero {A} (f : A -> Q) l : (forall x, In x l -> 0 <= f x) -> (tot f l == 0 <-> forall x, In x l -> f x == 0).
Proof.
  induction l as [|x l IH]; intros H. split; [intros _ ? []|reflexivity]. rewrite tot_cons.
  assert (A1 := H x ltac:(now left)). assert (A2 : 0 <= tot f l) by (apply tot_nonneg; intros; apply H; now right).
  assert (I : tot f l == 0 <-> forall y, In y l -> f y == 0) by (apply IH; intros; apply H; now right).
  split.
  - intros E y [<-|Hy]. lra. apply I; [lra|assumption].
  - intros E. rewrite (E x) by now left. rewrite (proj2 I) by (intros; apply E; now right). lra.
Qed.

(** the bins cut the data into pieces *)
Lemma cum n p : (0 < n)%nat -> forall k, tot (fun i => of_bool (bin_b n i p)) (seq 0 (S k)) == of_bool (Qle_bool p (edge n k)).
Proof.
  intros Hn. induction k as [|k IH].
  - cbn [seq]. rewrite tot_cons. change (tot _ []) with 0. unfold bin_b. cbn [Nat.eqb orb]. rewrite andb_true_r. ring.
  - rewrite seq_S, tot_app, IH, tot_cons. change (tot _ []) with 0. cbn [Nat.add]. unfold bin_b. cbn [Nat.eqb orb]. replace (S k - 1)%nat with k by lia.
    assert (M := edge_step n k Hn).
    destruct (Qle_bool p (edge n k)) eqn:A; destruct (Qle_bool p (edge n (S k))) eqn:B; cbn [negb andb]; unfold of_bool; try ring.
    apply Qleb_true in A. apply Qleb_false in B. lra.
Qed.
Lemma tot_swap {A B} (f : A -> B -> Q) l m : tot (fun x => tot (f x) m) l == tot (fun y => tot (fun x => f x y) l) m.
Proof.
  induction l as [|x l IH].
  - change (0 == tot (fun y => 0) m). now rewrite tot_zero.
  - rewrite tot_cons, IH, tot_add. apply tot_ext. intros y _. reflexivity.
Qed.
Lemma bins_total (f : point -> Q) n l : (0 < n)%nat -> (forall p, In p l -> fst p <= 1) ->
  tot (fun i => tot f (filter (fun p => bin_b n i (fst p)) l)) (seq 0 10) == tot f l.
Proof.
  intros Hn H. rewrite (tot_ext _ (fun i => tot (fun p => f p * of_bool (bin_b n i (fst p))) l)) by (intros; apply tot_filter).
  rewrite tot_swap. apply tot_ext. intros p Hp. 
  rewrite (tot_ext _ (fun i => of_bool (bin_b n i (fst p)) * f p)) by (intros; ring). rewrite tot_scale, (cum n (fst p) Hn 9).
  assert (E : Qle_bool (fst p) (edge n 9) = true). { apply Qleb_true. rewrite edge_9 by assumption. now apply H. }
  rewrite E. unfold of_bool. ring.
Qed.
Lemma bins_total_le (f : point -> Q) n l : (0 < n)%nat -> (forall p, In p l -> 0 <= f p) ->
  tot (fun i => tot f (filter (fun p => bin_b n i (fst p)) l)) (seq 0 10) <= tot f l.
Proof.
  intros Hn H. rewrite (tot_ext _ (fun i => tot (fun p => f p * of_bool (bin_b n i (fst p))) l)) by (intros; apply tot_filter).
  rewrite tot_swap. apply tot_le. intros p Hp.
  rewrite (tot_ext _ (fun i => of_bool (bin_b n i (fst p)) * f p)) by (intros; ring). rewrite tot_scale, (cum n (fst p) Hn 9).
  specialize (H p Hp). destruct (Qle_bool (fst p) (edge n 9)); unfold of_bool; lra.
Qed.

Lemma data_points preds confs targets : 
  combine confs (zip_with (fun t p => (t - p =? 0)%Z) targets preds) = points preds confs targets.
Proof.
  unfold points. f_equal. revert targets. induction preds as [|p preds IH]; intros [|t targets]; try reflexivity.
  change (zip_with (fun t p => (t - p =? 0)%Z) (t :: targets) (p :: preds)) with ((t - p =? 0)%Z :: zip_with (fun t p => (t - p =? 0)%Z) targets preds).
  rewrite IH. cbn [combine map fst snd]. f_equal. destruct (Z.eqb_spec p t). apply Z.eqb_eq. lia. apply Z.eqb_neq. lia.
Qed.
Lemma points_length preds confs targets : length preds = length confs -> length targets = length confs -> length (points preds confs targets) = length confs.
Proof. intros. unfold points. rewrite combine_length, map_length, combine_length. lia. Qed.
Lemma points_fst preds confs targets p : In p (points preds confs targets) -> In (fst p) confs.
Proof. destruct p as [c b]. unfold points. intros H. now apply in_combine_l in H. Qed.

Lemma mean0_tot {A} (f : A -> Q) l : mean0 (map f l) * nQ (length l) == tot f l.
Proof.
  destruct l as [|x l]. reflexivity. unfold mean0. change (map f (x :: l)) with (f x :: map f l) at 1. unfold qmean, qlen, tot. rewrite map_length.
  assert (P := nQ_pos (length (x :: l)) ltac:(cbn; lia)). change (inject_Z (Z.of_nat (length (x :: l)))) with (nQ (length (x :: l))). 
  change (qsum (f x :: map f l)) with (qsum (map f (x :: l))). field. lra.
Qed.
Lemma tot_right l : tot (fun p : point => of_bool (snd p)) l == nQ (n_right l).
Proof. apply tot_num. Qed.
Lemma make_bin_spec l : b_count (make_bin l) = length l /\ b_conf (make_bin l) * nQ (length l) == sum_conf l /\ b_acc (make_bin l) * nQ (length l) == nQ (n_right l).
Proof.
  split; [reflexivity|]. split. apply (mean0_tot fst). rewrite <- tot_right. apply (mean0_tot (fun p : point => of_bool (snd p))).
Qed.
Lemma gap_eq l : gap (make_bin l) == Qabs (nQ (n_right l) - sum_conf l).
Proof.
  destruct (make_bin_spec l) as [E1 [E2 E3]]. unfold gap. rewrite E1. change (inject_Z (Z.of_nat (length l))) with (nQ (length l)).
  rewrite <- E3, <- E2. assert (P := nQ_nonneg (length l)).
  assert (b_acc (make_bin l) * nQ (length l) - b_conf (make_bin l) * nQ (length l) == (b_acc (make_bin l) - b_conf (make_bin l)) * nQ (length l)) as -> by ring.
  rewrite Qabs_Qmult, (Qabs_pos (nQ (length l))) by assumption. ring.
Qed.

Lemma filter_bins n i (l : list point) : (i < 10)%nat -> filter (fun d => in_bin n i (fst d)) l = filter (fun d => bin_b n i (fst d)) l.
Proof. intros H. apply filter_ext. intros d. now apply in_bin_b. Qed.
Definition bin_list (l : list point) : list bin := map (fun i => make_bin (filter (fun d => bin_b (length l) i (fst d)) l)) (seq 0 10).
Lemma bins_eq preds confs targets : length preds = length confs -> length targets = length confs ->
  bins_of preds confs targets = Ok (bin_list (points preds confs targets)).
Proof.
  intros L1 L2. unfold bins_of. rewrite L1, L2, Nat.eqb_refl. cbn [negb orb]. apply (f_equal Ok). rewrite data_points. unfold bin_list.
  rewrite points_length by assumption. apply map_ext_in. intros i Hi. apply in_seq in Hi. rewrite filter_bins by lia. reflexivity.
Qed.
Lemma gaps_eq l : tot gap (bin_list l) == tot (bin_gap l) (seq 0 10).
Proof. unfold bin_list, tot. rewrite map_map. apply tot_ext. intros i _. apply gap_eq. Qed.

Theorem bins_spec : forall preds confs targets, length preds = length confs -> length targets = length confs ->
  exists bs, bins_of preds confs targets = Ok bs /\ length bs = 10%nat /\
    forall i b, nth_error bs i = Some b ->
      let inb := filter (fun p => bin_b (length confs) i (fst p)) (points preds confs targets) in
      b_count b = length inb /\ b_conf b * nQ (length inb) == sum_conf inb /\ b_acc b * nQ (length inb) == nQ (n_right inb).
Proof.
  intros preds confs targets L1 L2. exists (bin_list (points preds confs targets)). split; [now apply bins_eq|]. split; [unfold bin_list; now rewrite map_length, seq_length|].
  intros i b Hb. assert (Hi : (i < 10)%nat). { assert (nth_error (bin_list (points preds confs targets)) i <> None) by congruence. apply nth_error_Some in H. unfold bin_list in H. now rewrite map_length, seq_length in H. }
  unfold bin_list in Hb. rewrite nth_error_map in Hb. rewrite (nth_error_nth' _ 0%nat) in Hb by (now rewrite seq_length). rewrite seq_nth in Hb by assumption.
  cbn [option_map Nat.add] in Hb. injection Hb as <-. rewrite points_length by assumption. apply make_bin_spec.
Qed.
Lemma sum_counts bs : nQ (sum_nat (map b_count bs)) == tot (fun b => nQ (b_count b)) bs.
Proof.
  induction bs as [|b bs IH]; [reflexivity|]. rewrite tot_cons, <- IH. change (sum_nat (map b_count (b :: bs))) with (b_count b + sum_nat (map b_count bs))%nat.
  unfold nQ. rewrite Nat2Z.inj_add, inject_Z_plus. reflexivity.
Qed.
Lemma nQ_inj a b : nQ a == nQ b -> a = b.
Proof. intros H. assert (A := proj1 (nQ_le a b)). assert (B := proj1 (nQ_le b a)). assert (nQ a <= nQ b) by lra. assert (nQ b <= nQ a) by lra. intuition lia. Qed.
Theorem counts_total : forall preds confs targets bs, confs <> [] -> bins_of preds confs targets = Ok bs -> Forall (fun p => p <= 1) confs ->
  sum_nat (map b_count bs) = length confs.
Proof.
  intros preds confs targets bs Hne E F. assert (L : length preds = length confs /\ length targets = length confs).
  { unfold bins_of in E. destruct (length preds =? length confs)%nat eqn:A, (length targets =? length confs)%nat eqn:B; try discriminate. now rewrite Nat.eqb_eq in A, B. }
  destruct L as [L1 L2]. rewrite bins_eq in E by assumption. injection E as <-. set (l := points preds confs targets).
  assert (Ll : length l = length confs) by now apply points_length.
  apply nQ_inj. rewrite sum_counts. unfold bin_list, tot. rewrite map_map. change (tot (fun i => nQ (b_count (make_bin (filter (fun d => bin_b (length l) i (fst d)) l)))) (seq 0 10) == nQ (length confs)).
  rewrite (tot_ext _ (fun i => tot (fun _ => 1) (filter (fun d => bin_b (length l) i (fst d)) l))).
  2: { intros i _. rewrite tot_one. reflexivity. }
  rewrite bins_total. rewrite tot_one, Ll. reflexivity. rewrite Ll. destruct confs; [easy|cbn; lia].
  intros p Hp. rewrite Forall_forall in F. apply F. now apply (points_fst preds confs targets).
Qed.

Lemma shapes preds confs targets bs : bins_of preds confs targets = Ok bs -> length preds = length confs /\ length targets = length confs /\ bs = bin_list (points preds confs targets).
Proof.
  intros E. assert (L : length preds = length confs /\ length targets = length confs).
  { unfold bins_of in E. destruct (length preds =? length confs)%nat eqn:A, (length targets =? length confs)%nat eqn:B; try discriminate. now rewrite Nat.eqb_eq in A, B. }
  destruct L as [L1 L2]. rewrite bins_eq in E by assumption. injection E as <-. auto.
Qed.
Lemma ece_eq preds probs targets v : ece preds probs targets = Ok v ->
  let l := points preds (confidences probs) targets in
  length preds = length l /\ length l = length (confidences probs) /\ length targets = length l /\ v == tot (bin_gap l) (seq 0 10) / nQ (length l).
Proof.
  unfold ece. destruct (bins_of preds (confidences probs) targets) as [bs|] eqn:E; [|discriminate]. intros H. injection H as <-.
  destruct (shapes _ _ _ _ E) as [L1 [L2 ->]]. cbv zeta. assert (L := points_length _ _ _ L1 L2). set (l := points preds (confidences probs) targets) in *.
  repeat split; try congruence. change (qsum (map gap (bin_list l))) with (tot gap (bin_list l)). rewrite gaps_eq. unfold nQ. rewrite L, L1. reflexivity.
Qed.
Lemma sum_conf_range (l : list point) : (forall p, In p l -> in_unit (fst p)) -> 0 <= sum_conf l <= nQ (length l).
Proof.
  intros H. change (sum_conf l) with (tot fst l). split. apply tot_nonneg. intros p Hp. apply H, Hp.
  rewrite <- (tot_one l). apply tot_le. intros p Hp. apply H, Hp.
Qed.
Lemma bin_gap_le l i : (forall p, In p l -> in_unit (fst p)) -> 0 <= bin_gap l i <= nQ (length (filter (fun p => bin_b (length l) i (fst p)) l)).
Proof.
  intros H. unfold bin_gap. set (m := filter _ l). split. apply Qabs_nonneg.
  assert (A := sum_conf_range m ltac:(intros p Hp; apply H; now apply filter_In in Hp)).
  assert (B := nQ_nonneg (n_right m)). assert (C : nQ (n_right m) <= nQ (length m)) by (apply nQ_le, num_le).
  apply Qabs_case; intros; lra.
Qed.
Lemma ne_len {A} (l : list A) : l <> [] -> (0 < length l)%nat. Proof. destruct l; [easy|cbn; lia]. Qed.
Theorem ece_range : forall preds probs targets v, preds <> [] -> Forall in_unit (confidences probs) ->
  ece preds probs targets = Ok v -> in_unit v.
Proof.
  intros preds probs targets v Hne F E. destruct (ece_eq _ _ _ _ E) as [L1 [L2 [L3 Hv]]]. set (l := points preds (confidences probs) targets) in *.
  assert (Hl : (0 < length l)%nat) by (rewrite <- L1; now apply ne_len). assert (P := nQ_pos _ Hl).
  assert (Hu : forall p, In p l -> in_unit (fst p)). { intros p Hp. rewrite Forall_forall in F. apply F. now apply (points_fst preds _ targets). }
  assert (A : 0 <= tot (bin_gap l) (seq 0 10)) by (apply tot_nonneg; intros i _; now apply bin_gap_le).
  assert (B : tot (bin_gap l) (seq 0 10) <= nQ (length l)).
  { eapply Qle_trans. apply (tot_le _ (fun i => tot (fun _ => 1) (filter (fun p => bin_b (length l) i (fst p)) l))). intros i _. rewrite tot_one. now apply bin_gap_le.
    eapply Qle_trans. apply bins_total_le; [assumption|]. intros; lra. rewrite tot_one. apply Qle_refl. }
  unfold in_unit. rewrite Hv. split. apply Qle_shift_div_l; lra. apply Qle_shift_div_r; lra.
Qed.
Lemma acc_points preds targets : forall confs, length preds = length confs -> length targets = length confs ->
  exists a, accuracy preds targets = Ok a /\ a == nQ (n_right (points preds confs targets)) / nQ (length confs).
Proof.
  intros confs L1 L2. unfold accuracy. rewrite bc1_same by congruence. cbn [rmap]. eexists. split; [reflexivity|].
  unfold qmean, qlen. rewrite map_length. unfold zip_with. rewrite qsum_bools, map_length, combine_length. replace (Nat.min (length preds) (length targets)) with (length confs) by lia.
  assert (num (fun p => (fst p =? snd p)%Z) (combine preds targets) = n_right (points preds confs targets)) as ->; [|reflexivity].
  revert targets confs L1 L2. induction preds as [|p preds IH]; intros [|t targets] [|c confs] L1 L2; try discriminate; [reflexivity|].
  injection L1 as L1. injection L2 as L2. cbn [combine num]. rewrite (IH targets confs) by assumption. reflexivity.
Qed.
(** the gap between average confidence and accuracy is a lower bound *)
Theorem ece_lower : forall preds probs targets v a, preds <> [] -> Forall (fun p => p <= 1) (confidences probs) ->
  ece preds probs targets = Ok v -> accuracy preds targets = Ok a ->
  Qabs (a - total (confidences probs) / nQ (length (confidences probs))) <= v.
Proof.
  intros preds probs targets v a Hne F E Ea. destruct (ece_eq _ _ _ _ E) as [L1 [L2 [L3 Hv]]]. set (l := points preds (confidences probs) targets) in *.
  assert (Hl : (0 < length l)%nat) by (rewrite <- L1; now apply ne_len). assert (P := nQ_pos _ Hl).
  destruct (acc_points preds targets (confidences probs)) as [a' [Ea' Ha]]; try congruence. rewrite Ea in Ea'. injection Ea' as <-. fold l in Ha.
  assert (Hu : forall p, In p l -> fst p <= 1). { intros p Hp. rewrite Forall_forall in F. apply F. now apply (points_fst preds _ targets). }
  rewrite Hv, Ha, <- L2.
  assert (T : total (confidences probs) == sum_conf l).
  { unfold sum_conf. assert (map fst l = confidences probs) as ->; [|reflexivity]. unfold l, points.
    assert (length (map (fun p => (fst p =? snd p)%Z) (combine preds targets)) = length (confidences probs)) by (rewrite map_length, combine_length; lia).
    revert H. generalize (map (fun p => (fst p =? snd p)%Z) (combine preds targets)). clear. induction (confidences probs) as [|c cs IH]; intros [|b bs] H; try discriminate; [reflexivity|].
    cbn [combine map fst]. f_equal. apply IH. now injection H. }
  rewrite T.
  assert (nQ (n_right l) / nQ (length l) - sum_conf l / nQ (length l) == (nQ (n_right l) - sum_conf l) / nQ (length l)) as -> by (field; lra).
  unfold Qdiv. rewrite Qabs_Qmult. rewrite (Qabs_pos (/ nQ (length l))) by (apply Qinv_le_0_compat; lra).
  apply Qmult_le_compat_r; [|apply Qinv_le_0_compat; lra].
  set (f := fun p : point => of_bool (snd p) - fst p).
  assert (S1 : nQ (n_right l) - sum_conf l == tot f l).
  { rewrite <- tot_right. change (sum_conf l) with (tot fst l). unfold f. clear. induction l as [|p l IH]; [reflexivity|]. rewrite !tot_cons, <- IH. ring. }
  rewrite S1. rewrite <- (bins_total f (length l) l) by assumption. eapply Qle_trans. apply tot_abs. apply tot_le. intros i _. unfold bin_gap.
  set (m := filter _ l). assert (tot f m == nQ (n_right m) - sum_conf m) as ->; [|apply Qle_refl].
  rewrite <- tot_right. change (sum_conf m) with (tot fst m). unfold f. clear. induction m as [|p m IH]; [reflexivity|]. rewrite !tot_cons, IH. ring.
Qed.
Theorem ece_zero : forall preds probs targets v, preds <> [] -> ece preds probs targets = Ok v ->
  let l := points preds (confidences probs) targets in
  0 <= v /\ (v == 0 <-> forall i, (i < 10)%nat -> let inb := filter (fun p => bin_b (length l) i (fst p)) l in nQ (n_right inb) == sum_conf inb).
Proof.
  intros preds probs targets v Hne E. destruct (ece_eq _ _ _ _ E) as [L1 [L2 [L3 Hv]]]. intros l.
  assert (Hl : (0 < length l)%nat) by (unfold l; rewrite <- L1; now apply ne_len). fold l in Hv.
  assert (N : forall i, In i (seq 0 10) -> 0 <= bin_gap l i) by (intros; apply Qabs_nonneg).
  split. { rewrite Hv. apply div_nonneg. now apply tot_nonneg. }
  rewrite Hv, div_zero, tot_all_zero by assumption. split.
  - intros H i Hi inb. specialize (H i ltac:(apply in_seq; lia)). change (Qabs (nQ (n_right inb) - sum_conf inb) == 0) in H. apply (proj1 (abs_zero _)) in H. transitivity (nQ (n_right inb) - sum_conf inb + sum_conf inb); [ring|rewrite H; ring].
  - intros H i Hi. apply in_seq in Hi. specialize (H i ltac:(lia)). unfold bin_gap. apply abs_zero. cbv zeta in H. rewrite H. ring.
Qed.

Lemma mce_eq preds probs targets w : mce preds probs targets = Ok w ->
  let l := points preds (confidences probs) targets in
  (forall i, (i < 10)%nat -> bin_gap l i <= w) /\ exists i, (i < 10)%nat /\ w == bin_gap l i.
Proof.
  unfold mce. destruct (bins_of preds (confidences probs) targets) as [bs|] eqn:E; [|discriminate]. intros H. injection H as <-.
  destruct (shapes _ _ _ _ E) as [L1 [L2 ->]]. cbv zeta. set (l := points preds (confidences probs) targets) in *.
  assert (X : forall i, (i < 10)%nat -> In (gap (make_bin (filter (fun d => bin_b (length l) i (fst d)) l))) (map gap (bin_list l))).
  { intros i Hi. unfold bin_list. rewrite map_map. apply (in_map (fun i => gap (make_bin (filter (fun d => bin_b (length l) i (fst d)) l)))). apply in_seq. lia. }
  split.
  - intros i Hi. unfold bin_gap. rewrite <- gap_eq. apply qmax_list_ge. now apply X.
  - assert (M := qmax_list_in (map gap (bin_list l))). destruct M as [x [Mx Me]] ; [intros Z; specialize (X 0%nat ltac:(lia)); rewrite Z in X; destruct X|].
    unfold bin_list in Mx. rewrite map_map in Mx. apply in_map_iff in Mx. destruct Mx as [i [Ei Hi]]. apply in_seq in Hi. exists i. split; [lia|].
    unfold bin_gap. rewrite <- gap_eq. rewrite Ei. assumption.
Qed.
Theorem mce_bounds : forall preds probs targets v w, preds <> [] -> ece preds probs targets = Ok v -> mce preds probs targets = Ok w ->
  let l := points preds (confidences probs) targets in
  (forall i, (i < 10)%nat -> bin_gap l i <= w) /\ (exists i, (i < 10)%nat /\ w == bin_gap l i) /\
  w <= v * nQ (length preds) /\ v * nQ (length preds) <= 10 * w.
Proof.
  intros preds probs targets v w Hne E1 E2 l. destruct (mce_eq _ _ _ _ E2) as [M1 [i [Hi Mi]]]. fold l in M1, Mi.
  destruct (ece_eq _ _ _ _ E1) as [L1 [L2 [L3 Hv]]]. fold l in L1, L2, L3, Hv.
  assert (Hl : (0 < length l)%nat) by (rewrite <- L1; now apply ne_len). assert (P := nQ_pos _ Hl).
  assert (T : v * nQ (length preds) == tot (bin_gap l) (seq 0 10)) by (rewrite Hv, L1; field; lra).
  split; [assumption|]. split; [now exists i|]. rewrite T. split.
  - rewrite Mi. clear - Hi. assert (N : forall j, 0 <= bin_gap l j) by (intros; apply Qabs_nonneg).
    assert (In i (seq 0 10)) by (apply in_seq; lia). revert H. induction (seq 0 10) as [|j s IH]; [intros []|]. intros [->|H]; rewrite tot_cons.
    assert (0 <= tot (bin_gap l) s) by (apply tot_nonneg; intros; apply N). lra. specialize (IH H). specialize (N j). lra.
  - rewrite <- (Qmult_1_l (10 * w)). eapply Qle_trans. apply (tot_le _ (fun _ => 1 * w)). intros j Hj. apply in_seq in Hj. rewrite Qmult_1_l. apply M1. lia.
    rewrite (tot_scale (fun _ => 1) w), tot_one. rewrite seq_length. change (nQ 10) with 10. lra.
Qed.
Theorem mce_refuted : exists preds probs targets w, Forall in_unit probs /\ mce preds (A1 probs) targets = Ok w /\ 1 < w.
Proof.
  exists [0; 0; 0; 0]%Z, [1; 1; 1; 1], [1; 1; 1; 1]%Z. eexists. split. repeat constructor; discriminate. split. vm_compute. reflexivity. reflexivity.
Qed.

(** order of the data does not matter *)
Lemma tot_perm {A} (f : A -> Q) l m : Permutation l m -> tot f l == tot f m.
Proof. intros P. apply qsum_perm. now apply Permutation_map. Qed.
Lemma filter_perm {A} (b : A -> bool) l m : Permutation l m -> Permutation (filter b l) (filter b m).
Proof.
  induction 1; cbn [filter].
  - constructor.
  - destruct (b x); [now constructor|assumption].
  - destruct (b x), (b y); try reflexivity. constructor.
  - eapply perm_trans; eauto.
Qed.
Lemma bin_gap_perm l m i : Permutation l m -> bin_gap l i == bin_gap m i.
Proof.
  intros P. unfold bin_gap. rewrite (Permutation_length P). assert (F := filter_perm (fun p : point => bin_b (length m) i (fst p)) l m P).
  set (a := filter _ l) in *. set (b := filter _ m) in *.
  rewrite <- !tot_right. change (sum_conf a) with (tot fst a). change (sum_conf b) with (tot fst b). now rewrite (tot_perm _ a b F), (tot_perm fst a b F).
Qed.
Theorem ece_order : forall preds probs targets preds' probs' targets' v v',
  Permutation (combine (combine preds probs) targets) (combine (combine preds' probs') targets') ->
  ece preds (A1 probs) targets = Ok v -> ece preds' (A1 probs') targets' = Ok v' -> v == v'.
Proof.
  intros preds probs targets preds' probs' targets' v v' P E1 E2.
  destruct (ece_eq _ _ _ _ E1) as [L1 [L2 [L3 Hv]]]. destruct (ece_eq _ _ _ _ E2) as [L1' [L2' [L3' Hv']]]. cbn [confidences] in *.
  assert (G : forall preds probs targets, length preds = length probs -> length targets = length probs ->
     points preds probs targets = map (fun x => (snd (fst x), (fst (fst x) =? snd x)%Z)) (combine (combine preds probs) targets)).
  { clear. induction preds as [|p preds IH]; intros [|c probs] [|t targets] A B; try discriminate; [reflexivity|].
    unfold points. cbn [combine map fst snd]. f_equal. rewrite <- IH. reflexivity. now injection A. now injection B. }
  assert (Q0 : Permutation (points preds probs targets) (points preds' probs' targets')).
  { rewrite !G by congruence. now apply Permutation_map. }
  rewrite Hv, Hv', (Permutation_length Q0). unfold Qdiv. rewrite (tot_ext (bin_gap (points preds probs targets)) (bin_gap (points preds' probs' targets'))). reflexivity.
  intros i _. now apply bin_gap_perm.
Qed.
Theorem accuracy_range : forall preds targets, preds <> [] -> length preds = length targets ->
  exists a, accuracy preds targets = Ok a /\ in_unit a /\ (a == 1 <-> preds = targets) /\
    a * nQ (length preds) == nQ (num (fun p => (fst p =? snd p)%Z) (combine preds targets)).
Proof.
  intros preds targets Hne L. unfold accuracy. rewrite bc1_same by assumption. cbn [rmap]. eexists. split; [reflexivity|].
  unfold qmean, qlen. rewrite map_length. unfold zip_with. rewrite map_length, combine_length. replace (Nat.min (length preds) (length targets)) with (length preds) by lia.
  set (k := num (fun p => (fst p =? snd p)%Z) (combine preds targets)).
  assert (K : qsum (map of_bool (map (fun p => (fst p =? snd p)%Z) (combine preds targets))) / inject_Z (Z.of_nat (length preds)) == nQ k / nQ (length preds)).
  { rewrite qsum_bools. reflexivity. }
  assert (Lc : length (combine preds targets) = length preds) by (rewrite combine_length; lia).
  destruct (fraction (length preds) k) as [F1 F2]. now apply ne_len. rewrite <- Lc. apply num_le.
  split. unfold in_unit in *. rewrite K. assumption. split.
  - rewrite K, F2. unfold k. rewrite <- Lc, num_all. clear -L. split.
    + revert targets L. induction preds as [|p preds IH]; intros [|t targets] L H; try discriminate; [reflexivity|]. f_equal.
      specialize (H (p, t) ltac:(now left)). now apply Z.eqb_eq in H. apply IH. now injection L. intros x Hx. apply H. now right.
    + intros <- [x y] Hx. clear L. induction preds as [|p preds IH]; [destruct Hx|]. destruct Hx as [E|Hx]. injection E as <- <-. apply Z.eqb_refl. now apply IH.
  - rewrite K. assert (P := nQ_pos (length preds) (ne_len _ Hne)). field. lra.
Qed.
