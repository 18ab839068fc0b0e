(** Proofs about StatModel.v: validation metrics of output calibrators on several devices. *)
From Coq Require Import List Arith ZArith QArith Qabs Bool String Lia Lqa.
From Verif Require Import Lib QuantModel ConfRegModel ConfClassModel MetricModel StatModel StatSpec StatProofs2 StatProofs3.
Import ListNotations.
Open Scope list_scope.
Local Notation length := List.length.
Local Notation concat := List.concat.

Lemma calib_outputs_ok {A} d b k (outputs : list (list (list A))) : (0 < d)%nat -> (0 < b)%nat -> shaped d b k outputs ->
  calib_outputs outputs = Ok (concat outputs).
Proof.
  intros Hd Hb (H1 & H2 & H3). unfold calib_outputs. rewrite concat_concat.
  assert (outputs <> []) as Hne by (destruct outputs; [simpl in H1; lia|discriminate]).
  rewrite (size1_shaped b outputs Hne H2).
  assert (length (concat outputs) = (length outputs * b)%nat) as EL by (apply length_concat_sizes; exact H2).
  rewrite <- EL. apply (rows_inferred_concat k); [|apply all_sizes_concat; exact H3].
  intro Hc. rewrite Hc in EL. simpl in EL. nia.
Qed.
Lemma concat_singletons {A} (l : list A) : concat (map (fun t => [t]) l) = l.
Proof. induction l as [|x l IH]; [reflexivity|]. simpl. rewrite IH. reflexivity. Qed.
Lemma calib_labels_ok d b (targets : list (list Z)) : (0 < d)%nat -> (0 < b)%nat -> length targets = d -> all_sizes b targets ->
  calib_labels targets = Ok (L2 (map (fun t => [t]) (concat targets))).
Proof.
  intros Hd Hb H1 H2. unfold calib_labels.
  assert (targets <> []) as Hne by (destruct targets; [simpl in H1; lia|discriminate]).
  rewrite (size1_shaped b targets Hne H2).
  assert (length (concat targets) = (length targets * b)%nat) as EL by (apply length_concat_sizes; exact H2).
  rewrite <- EL. rewrite <- (concat_singletons (concat targets)) at 2.
  rewrite <- (map_length (fun t => [t]) (concat targets)).
  rewrite (rows_inferred_concat 1); [reflexivity| |].
  - intro Hc. apply map_eq_nil in Hc. rewrite Hc in EL. simpl in EL. nia.
  - intros x Hx. apply in_map_iff in Hx. destruct Hx as (y & <- & _). reflexivity.
Qed.

Lemma val_accuracy_raises : forall A U d b k (predict : list (list A) -> list Z) (uncertainty : list (list A) -> U) outputs targets,
  (0 < d)%nat -> (0 < b)%nat -> shaped d b k outputs -> length targets = d -> all_sizes b targets ->
  calib_val_metric predict uncertainty (fun p _ t => accuracy_of p t) outputs targets = Err ValueError.
Proof.
  intros A U d b k predict uncertainty outputs targets Hd Hb H1 H2 H3. unfold calib_val_metric.
  rewrite (calib_outputs_ok d b k outputs Hd Hb H1), (calib_labels_ok d b targets Hd Hb H2 H3). reflexivity.
Qed.

Lemma training_aligned : forall A U (g : list A -> Z) (u : list A -> U) (metric : list Z -> list U -> labels -> result Q) outputs targets,
  calib_training_metric (map g) (map u) metric outputs targets =
  metric (map g (concat outputs)) (map u (concat outputs)) (L1 (concat targets)).
Proof.
  intros. unfold calib_training_metric, calib_training_labels. rewrite !concat_map. reflexivity.
Qed.

Lemma regression_aligned : forall A B C d b k k' (predict : list (list A) -> B) (metric : B -> list (list C) -> Q) outputs targets,
  (0 < d)%nat -> (0 < b)%nat -> shaped d b k outputs -> shaped d b k' targets ->
  calib_val_metric_reg predict metric outputs targets = Ok (metric (predict (concat outputs)) (concat targets)).
Proof.
  intros A B C d b k k' predict metric outputs targets Hd Hb H1 H2. unfold calib_val_metric_reg.
  rewrite (calib_outputs_ok d b k outputs Hd Hb H1), (calib_outputs_ok d b k' targets Hd Hb H2). reflexivity.
Qed.

(** ---- accuracies of the bins ---- *)
Lemma mapM_singletons ts : mapM (fun r => match r with [t] => Ok t | _ => Err TypeError end) (map (fun t : Z => [t]) ts) = Ok ts.
Proof. induction ts as [|t ts IH]; [reflexivity|]. simpl. rewrite IH. reflexivity. Qed.
Lemma qsum_of_bool {A} (f : A -> bool) l : (qsum (map (fun x => of_bool (f x)) l) == nQ (length (filter f l)))%Q.
Proof.
  induction l as [|x l IH]; [reflexivity|]. simpl map. simpl filter.
  change (qsum (of_bool (f x) :: map (fun x => of_bool (f x)) l)) with (of_bool (f x) + qsum (map (fun x => of_bool (f x)) l))%Q.
  rewrite IH. destruct (f x).
  - change (length (x :: filter f l)) with (1 + length (filter f l))%nat. rewrite nQ_add. reflexivity.
  - change (of_bool false) with 0%Q. ring.
Qed.
Lemma mean0_fraction {A} (f : A -> bool) l : l <> [] -> (mean0 (map (fun x => of_bool (f x)) l) == fraction f l)%Q.
Proof.
  intro H. unfold mean0. destruct l as [|x l]; [contradiction|].
  change (qmean (map (fun x => of_bool (f x)) (x :: l)) == fraction f (x :: l))%Q.
  unfold qmean, fraction, qlen. rewrite qsum_of_bool, map_length. reflexivity.
Qed.
Lemma filter_fst_map {A B C} (q : A -> bool) (g : B -> C) (confs : list A) (ts : list B) :
  filter (fun d => q (fst d)) (combine confs (map g ts)) = map (fun x => (fst x, g (snd x))) (filter (fun d => q (fst d)) (combine confs ts)).
Proof.
  revert ts. induction confs as [|c confs IH]; intros ts; [reflexivity|]. destruct ts as [|t ts]; [reflexivity|].
  simpl. destruct (q c); simpl; rewrite IH; reflexivity.
Qed.
Lemma concat_pairs {B} (f : Z -> Z -> B) (ts ps : list Z) : concat (map (fun t => map (f t) ps) ts) = map (fun x => f (fst x) (snd x)) (list_prod ts ps).
Proof.
  induction ts as [|t ts IH]; [reflexivity|]. simpl. rewrite IH, map_app, map_map. reflexivity.
Qed.

Lemma filter_ext_len {A} (f g : A -> bool) l : (forall x, f x = g x) -> filter f l = filter g l.
Proof. intro H. induction l as [|x l IH]; [reflexivity|]. simpl. rewrite H, IH. reflexivity. Qed.

(** targets given as a column *)
Lemma column_bins : forall preds confs ts bins,
  bins_for preds confs (L2 (map (fun t => [t]) ts)) = Ok bins -> preds <> [] ->
  length preds = length confs /\ length ts = length confs /\ length bins = 10%nat /\
  forall i, (i < 10)%nat ->
    let members := filter (fun x => in_bin (length confs) i (fst x)) (combine confs ts) in
    b_count (nth i bins (Build_bin 0 0 0)) = length members /\
    b_conf (nth i bins (Build_bin 0 0 0)) = mean0 (map fst members) /\
    (members <> [] -> (b_acc (nth i bins (Build_bin 0 0 0)) == fraction (fun x => (fst x =? snd x)%Z) (list_prod (map snd members) preds))%Q).
Proof.
  intros preds confs ts bins H Hp. unfold bins_for in H. rewrite mapM_singletons in H. cbn [bind] in H.
  destruct (length preds =? length confs)%nat eqn:E1; cbn [negb orb] in H; [|discriminate].
  destruct (length ts =? length confs)%nat eqn:E2; cbn [negb orb] in H; [|discriminate].
  apply Nat.eqb_eq in E1, E2. split; [exact E1|]. split; [exact E2|].
  match type of H with Ok ?l = _ => assert (bins = l) as -> by congruence end. clear H.
  split; [reflexivity|]. intros i Hi members.
  match goal with |- context [nth i (map ?f (seq 0 10)) _] => set (mk := f) end.
  assert (nth i (map mk (seq 0 10)) (Build_bin 0 0 0) = mk i) as En.
  { rewrite (nth_indep _ _ (mk 0%nat)) by (rewrite map_length, seq_length; exact Hi). rewrite map_nth, seq_nth by exact Hi. reflexivity. }
  rewrite En. unfold mk. cbn [b_count b_conf b_acc].
  rewrite (filter_fst_map (in_bin (length confs) i) (fun t => map (fun p => (t - p =? 0)%Z) preds) confs ts). fold members.
  rewrite map_length, !map_map. split; [reflexivity|]. split; [reflexivity|].
  intro Hm. cbn [snd].
  rewrite <- (map_map snd (fun t => map (fun p => (t - p =? 0)%Z) preds) members).
  rewrite (concat_pairs (fun t p => (t - p =? 0)%Z)), map_map.
  rewrite (mean0_fraction (fun x => (fst x - snd x =? 0)%Z)).
  - unfold fraction. rewrite (filter_ext_len _ (fun x => (fst x =? snd x)%Z)); [reflexivity|].
    intros [t p]. simpl. destruct (Z.eqb_spec t p) as [->|N]; [rewrite Z.sub_diag; reflexivity|].
    apply Z.eqb_neq. lia.
  - destruct members as [|m members]; [contradiction|]. destruct preds as [|p preds]; [contradiction|]. discriminate.
Qed.

(** ---- a perfect, fully confident classifier ---- *)
Lemma mean_ones l : l <> [] -> (forall c, In c l -> (c == 1)%Q) -> (mean0 l == 1)%Q.
Proof.
  intros Hne H. assert (qsum l == nQ (length l))%Q as E.
  { clear Hne. induction l as [|x l IH]; [reflexivity|]. change (x + qsum l == nQ (1 + length l))%Q.
    rewrite nQ_add, (H x (or_introl eq_refl)), IH by (intros y Hy; apply H; right; exact Hy). reflexivity. }
  destruct l as [|x l]; [contradiction|]. unfold mean0, qmean, qlen. rewrite E. fold (nQ (length (x :: l))).
  assert (0 < nQ (length (x :: l)))%Q by (apply nQ_pos; simpl; lia). field. lra.
Qed.
Lemma gap_nonneg b : (0 <= gap b)%Q.
Proof. unfold gap. apply Qmult_le_0_compat; [change 0%Q with (inject_Z 0); rewrite <- Zle_Qle; lia|apply Qabs_nonneg]. Qed.
Lemma gap_perfect l : (forall c, In c l -> (fst c == 1)%Q /\ snd c = true) -> (gap (make_bin l) == 0)%Q.
Proof.
  intro H. unfold gap, make_bin. cbn [b_count b_acc b_conf]. destruct l as [|x l].
  - cbn [List.length]. change (inject_Z (Z.of_nat 0)) with 0%Q. ring.
  - rewrite (mean_ones (map fst (x :: l))), (mean_ones (map (fun p => of_bool (snd p)) (x :: l))).
    + setoid_replace (Qabs (1 - 1)) with 0%Q by reflexivity. ring.
    + discriminate.
    + intros c Hc. apply in_map_iff in Hc. destruct Hc as (y & <- & Hy). rewrite (proj2 (H y Hy)). reflexivity.
    + discriminate.
    + intros c Hc. apply in_map_iff in Hc. destruct Hc as (y & <- & Hy). exact (proj1 (H y Hy)).
Qed.
Lemma qsum_zero l : (forall x, In x l -> (x == 0)%Q) -> (qsum l == 0)%Q.
Proof.
  induction l as [|x l IH]; intro H; [reflexivity|]. change (x + qsum l == 0)%Q.
  rewrite (H x (or_introl eq_refl)), IH by (intros y Hy; apply H; right; exact Hy). ring.
Qed.
Lemma qsum_pos l x : (forall y, In y l -> (0 <= y)%Q) -> In x l -> (0 < x)%Q -> (0 < qsum l)%Q.
Proof.
  induction l as [|y l IH]; intros H Hin Hx; [destruct Hin|]. change (0 < y + qsum l)%Q.
  assert (0 <= y)%Q by (apply H; left; reflexivity).
  assert (forall z, In z l -> (0 <= z)%Q) as H' by (intros z Hz; apply H; right; exact Hz).
  destruct Hin as [->|Hin].
  - assert (0 <= qsum l)%Q; [|lra]. clear -H'. induction l as [|z l IH]; [apply Qle_refl|]. change (0 <= z + qsum l)%Q.
    assert (0 <= z)%Q by (apply H'; left; reflexivity). assert (0 <= qsum l)%Q by (apply IH; intros w Hw; apply H'; right; exact Hw). lra.
  - specialize (IH H' Hin Hx). lra.
Qed.
Lemma ones_in_last_bin n p : (2 <= n)%nat -> (p == 1)%Q -> in_bin n 9 p = true.
Proof.
  intros Hn Hp. unfold in_bin. assert (1 < nQ n)%Q as P by (change 1%Q with (nQ 1); apply nQ_lt; lia).
  assert (0 < / nQ n)%Q as I by (apply Qinv_lt_0_compat; lra).
  assert (nQ n * / nQ n == 1)%Q as J by (field; lra).
  assert (/ nQ n < 1)%Q as K by (apply Qnot_le_lt; intro C; assert (nQ n * 1 <= nQ n * / nQ n)%Q as D by (apply Qmult_le_l; [lra|exact C]); lra).
  unfold thresholds, linspace. cbn [seq map nth Nat.sub]. fold (nQ n).
  change (inject_Z (Z.of_nat 9)) with 9%Q. change (inject_Z (Z.of_nat 8)) with 8%Q. unfold Qdiv. change (/ 9)%Q with (1 # 9).
  apply andb_true_intro. split.
  - apply Qle_bool_iff. lra.
  - unfold Qlt_bool. destruct (Qle_bool p _) eqn:E; [|reflexivity]. apply Qle_bool_iff in E. exfalso. lra.
Qed.

Lemma ece_row_perfect confs ts : length confs = length ts -> (forall c, In c confs -> (c == 1)%Q) ->
  exists bins, bins_of ts confs ts = Ok bins /\ (qsum (map gap bins) == 0)%Q.
Proof.
  intros EL H. unfold bins_of. rewrite EL, Nat.eqb_refl. cbn [negb orb].
  eexists. split; [reflexivity|]. apply qsum_zero. intros x Hx. apply in_map_iff in Hx. destruct Hx as (b & <- & Hb).
  apply in_map_iff in Hb. destruct Hb as (i & <- & _). apply gap_perfect.
  intros [c t] Hc. apply filter_In in Hc. destruct Hc as [Hc _]. split.
  - apply in_combine_l in Hc. exact (H c Hc).
  - apply in_combine_r in Hc. clear -Hc. cbn [snd]. induction ts as [|y ts IH]; [destruct Hc|].
    destruct Hc as [Hc|Hc]; [|exact (IH Hc)]. rewrite <- Hc. cbn. rewrite Z.sub_diag. reflexivity.
Qed.

Lemma combine_map_snd {A B} (a : list A) (b : list B) : length a = length b -> map snd (combine a b) = b.
Proof.
  revert b. induction a as [|x a IH]; intros [|y b] H; try discriminate; [reflexivity|]. simpl. rewrite IH by (simpl in H; lia). reflexivity.
Qed.
Lemma filter_all_true {A} (f : A -> bool) l : (forall x, In x l -> f x = true) -> filter f l = l.
Proof. induction l as [|x l IH]; intro H; [reflexivity|]. simpl. rewrite (H x (or_introl eq_refl)), IH; [reflexivity|]. intros y Hy. apply H. right. exact Hy. Qed.

Lemma ece_column_wrong confs ts t1 t2 : length confs = length ts -> (forall c, In c confs -> (c == 1)%Q) ->
  In t1 ts -> In t2 ts -> t1 <> t2 ->
  exists bins, bins_for ts confs (L2 (map (fun t => [t]) ts)) = Ok bins /\ (0 < qsum (map gap bins))%Q.
Proof.
  intros EL H I1 I2 N.
  destruct (bins_for ts confs (L2 (map (fun t => [t]) ts))) as [bins|e] eqn:E.
  2:{ exfalso. unfold bins_for in E. rewrite mapM_singletons in E. cbn [bind] in E. rewrite EL, Nat.eqb_refl in E. discriminate E. }
  exists bins. split; [reflexivity|].
  assert (ts <> []) as Hne by (intro Hc; subst; destruct I1).
  destruct (column_bins ts confs ts bins E Hne) as (_ & _ & Lb & Hb).
  assert (2 <= length ts)%nat as L2'.
  { destruct ts as [|a [|b ts]]; simpl; [destruct I1| |lia]. destruct I1 as [<-|[]]. destruct I2 as [<-|[]]. congruence. }
  specialize (Hb 9%nat ltac:(lia)). cbv zeta in Hb.
  rewrite (filter_all_true (fun x => in_bin (length confs) 9 (fst x))) in Hb.
  2:{ intros [c t] Hc. cbn [fst]. apply ones_in_last_bin; [lia|]. apply in_combine_l in Hc. exact (H c Hc). }
  destruct Hb as (B1 & B2 & B3).
  apply (qsum_pos (map gap bins) (gap (nth 9 bins (Build_bin 0 0 0)))).
  - intros y Hy. apply in_map_iff in Hy. destruct Hy as (b & <- & _). apply gap_nonneg.
  - apply in_map. apply nth_In. lia.
  - assert (combine confs ts <> []) as Hcn.
    { intro Hc. apply (f_equal (@List.length _)) in Hc. rewrite combine_length in Hc. simpl in Hc. lia. }
    unfold gap. rewrite B1, B2, (B3 Hcn), (combine_map_snd confs ts EL).
    rewrite (mean_ones (map fst (combine confs ts))).
    + rewrite combine_length, EL, Nat.min_id. fold (nQ (length ts)).
      assert (0 < nQ (length ts))%Q by (apply nQ_pos; lia).
      assert (fraction (fun x : Z * Z => (fst x =? snd x)%Z) (list_prod ts ts) < 1)%Q as F.
      { apply (fraction_lt1 _ _ (t1, t2)); [apply in_prod; assumption|]. cbn. apply Z.eqb_neq. exact N. }
      assert (0 < Qabs (fraction (fun x : Z * Z => (fst x =? snd x)%Z) (list_prod ts ts) - 1))%Q as G.
      { rewrite Qabs_neg by lra. lra. }
      setoid_replace 0%Q with (nQ (length ts) * 0)%Q by ring. apply Qmult_lt_l; assumption.
    + intro Hc. apply map_eq_nil in Hc. contradiction.
    + intros c Hc. apply in_map_iff in Hc. destruct Hc as ([c' t'] & <- & Hc). apply in_combine_l in Hc. exact (H _ Hc).
Qed.

Lemma val_ece_wrong : forall A d b k (predict : list (list A) -> list Z) (uncertainty : list (list A) -> arr) outputs targets t1 t2,
  (0 < d)%nat -> (0 < b)%nat -> shaped d b k outputs -> length targets = d -> all_sizes b targets ->
  predict (concat outputs) = concat targets ->
  length (confidences (uncertainty (concat outputs))) = length (concat targets) ->
  (forall c, In c (confidences (uncertainty (concat outputs))) -> (c == 1)%Q) ->
  In t1 (concat targets) -> In t2 (concat targets) -> t1 <> t2 ->
  (exists q, ece_of (predict (concat outputs)) (uncertainty (concat outputs)) (L1 (concat targets)) = Ok q /\ (q == 0)%Q) /\
  (exists q, calib_val_metric predict uncertainty ece_of outputs targets = Ok q /\ (0 < q)%Q).
Proof.
  intros A d b k predict uncertainty outputs targets t1 t2 Hd Hb H1 H2 H3 Hp HL Hc I1 I2 N.
  set (ts := concat targets) in *.
  assert (0 < inject_Z (Z.of_nat (length ts)))%Q as P by (apply (nQ_pos (length ts)); destruct ts; [destruct I1|simpl; lia]).
  split.
  - destruct (ece_row_perfect _ ts HL Hc) as (bins & E & S0). unfold ece_of, bins_for. rewrite Hp, E. cbn [rmap].
    eexists. split; [reflexivity|]. rewrite S0. field. lra.
  - destruct (ece_column_wrong _ ts t1 t2 HL Hc I1 I2 N) as (bins & E & S0). unfold calib_val_metric.
    rewrite (calib_outputs_ok d b k outputs Hd Hb H1), (calib_labels_ok d b targets Hd Hb H2 H3). cbn [bind].
    fold ts. unfold ece_of. rewrite Hp, E. cbn [rmap]. eexists. split; [reflexivity|].
    apply Qlt_shift_div_l; [exact P|]. rewrite Qmult_0_l. exact S0.
Qed.
