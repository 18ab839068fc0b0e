(** Proofs about StatModel.v: metrics on several devices. *)
From Coq Require Import List Arith ZArith QArith Bool String Lia Lqa.
From Verif Require Import Lib QuantModel ConfRegModel ConfClassModel MetricModel StatModel StatSpec StatProofs2.
Import ListNotations.
Open Scope list_scope.
Local Notation length := List.length.
Local Notation concat := List.concat.

Lemma slices_concat {A} k (rows : list (list A)) : all_sizes k rows ->
  map (fun i => slice (i * k) (i * k + k) (concat rows)) (seq 0 (length rows)) = rows.
Proof.
  induction rows as [|x rows IH]; intro H; [reflexivity|].
  assert (length x = k) as Hx by (apply H; left; reflexivity).
  simpl length. rewrite <- cons_seq. simpl map. f_equal.
  - unfold slice. simpl. rewrite Nat.sub_0_r, <- Hx, firstn_app, Nat.sub_diag, firstn_all. simpl. apply app_nil_r.
  - rewrite <- seq_shift, map_map. rewrite <- (IH) at 2 by (intros y Hy; apply H; right; exact Hy).
    apply map_ext. intro i. unfold slice. simpl concat.
    replace (S i * k + k - S i * k)%nat with k by lia. replace (i * k + k - i * k)%nat with k by lia.
    f_equal. rewrite skipn_app, skipn_all2 by (simpl; lia). simpl. f_equal. lia.
Qed.
Lemma rows_of_concat {A} k (rows : list (list A)) : all_sizes k rows -> rows_of (length rows) k (concat rows) = Ok rows.
Proof.
  intro H. unfold rows_of. rewrite (length_concat_sizes k rows H), Nat.eqb_refl, slices_concat by exact H. reflexivity.
Qed.
Lemma rows_inferred_concat {A} k (rows : list (list A)) : rows <> [] -> all_sizes k rows ->
  rows_inferred (length rows) (concat rows) = Ok rows.
Proof.
  intros Hne H. unfold rows_inferred. destruct (length rows) as [|n] eqn:E; [destruct rows; [contradiction|discriminate]|].
  rewrite (length_concat_sizes k rows H), E. replace (S n * k / S n)%nat with k by (rewrite Nat.mul_comm, Nat.div_mul; [reflexivity|discriminate]).
  rewrite <- E. apply rows_of_concat. exact H.
Qed.
Lemma concat_concat {A} (l : list (list (list A))) : concat (map (fun d => concat d) l) = concat (concat l).
Proof. induction l as [|x l IH]; [reflexivity|]. simpl. rewrite IH, concat_app. reflexivity. Qed.
Lemma all_sizes_concat {A} b (l : list (list (list A))) : (forall x, In x l -> all_sizes b x) -> all_sizes b (concat l).
Proof. intros H x Hx. apply in_concat in Hx. destruct Hx as (y & Hy & Hx). exact (H y Hy x Hx). Qed.
Lemma size1_shaped {A} s (l : list (list A)) : l <> [] -> all_sizes s l -> size1 l = s.
Proof. intros Hne H. destruct l as [|x l]; [contradiction|]. apply H. left. reflexivity. Qed.

Lemma nth_seq_map {A} (f : list A -> Q) (p : list (list A)) : map f p = map (fun i => f (nth i p [])) (seq 0 (length p)).
Proof.
  induction p as [|x p IH]; [reflexivity|]. simpl length. rewrite <- cons_seq. simpl map. f_equal.
  rewrite <- seq_shift, map_map. exact IH.
Qed.

Lemma qmean_avg l : qmean l = average l.
Proof. reflexivity. Qed.

(** ---- normalizing flows ---- *)
Lemma flow_correct : forall A T (metric : list A -> list T -> Q) d s b (preds : list (list (list A))) (targets : list (list T)),
  (0 < d)%nat -> (0 < s)%nat -> shaped d s b preds -> (d = 1 \/ s = 1)%nat ->
  flow_metric metric preds targets = Ok (average (map (fun i => metric (sample_predictions i preds) (concat targets)) (seq 0 s))).
Proof.
  intros A T metric d s b preds targets Hd Hs (H1 & H2 & H3) Hor.
  assert (preds <> []) as Hne by (destruct preds; [simpl in H1; lia|discriminate]).
  assert (size1 preds = s) as E1 by (apply size1_shaped; assumption).
  assert (size2 preds = b) as E2.
  { unfold size2. destruct preds as [|x preds]; [contradiction|]. simpl. specialize (H2 x (or_introl eq_refl)). specialize (H3 x (or_introl eq_refl)).
    destruct x as [|y x]; [simpl in H2; lia|]. apply H3. left. reflexivity. }
  unfold flow_metric, flow_rows. rewrite E1, E2, H1. destruct Hor as [E|E].
  - rewrite E, Nat.mul_1_l. destruct preds as [|p [|q preds]]; simpl in H1; try congruence.
    simpl map. simpl concat. rewrite app_nil_r.
    assert (length p = s) as Ep by (apply H2; left; reflexivity).
    rewrite <- Ep. rewrite rows_of_concat by (apply H3; left; reflexivity). simpl rmap. rewrite qmean_avg.
    rewrite (nth_seq_map (fun p0 => metric p0 (concat targets)) p).
    do 2 f_equal. apply map_ext. intro i. unfold sample_predictions. simpl. rewrite app_nil_r. reflexivity.
  - rewrite E in *. rewrite concat_concat.
    assert (concat (concat preds) = concat [concat (concat preds)]) as EE by (simpl; rewrite app_nil_r; reflexivity).
    assert (length (concat (concat preds)) = (d * b)%nat) as EL.
    { rewrite (length_concat_sizes b) by (apply all_sizes_concat; exact H3).
      rewrite (length_concat_sizes 1) by exact H2. rewrite Nat.mul_1_r, H1. reflexivity. }
    rewrite EE. change 1%nat with (length [concat (concat preds)]) at 1.
    rewrite rows_of_concat by (intros x [<-|[]]; exact EL).
    simpl rmap. rewrite qmean_avg. simpl. do 4 f_equal.
    unfold sample_predictions. f_equal. clear -H2.
    induction preds as [|x preds IH]; [reflexivity|]. simpl. rewrite IH by (intros y Hy; apply H2; right; exact Hy).
    specialize (H2 x (or_introl eq_refl)). destruct x as [|y [|z x]]; simpl in H2; try discriminate. reflexivity.
Qed.

(** ---- fractions ---- *)
Lemma filter_le {A} (f : A -> bool) l : (length (filter f l) <= length l)%nat.
Proof. induction l as [|x l IH]; simpl; [lia|]. destruct (f x); simpl; lia. Qed.
Lemma filter_lt {A} (f : A -> bool) l x : In x l -> f x = false -> (length (filter f l) < length l)%nat.
Proof.
  induction l as [|y l IH]; intros Hin Hx; [destruct Hin|]. simpl. destruct Hin as [->|Hin].
  - rewrite Hx. pose proof (filter_le f l). lia.
  - specialize (IH Hin Hx). destruct (f y); simpl; lia.
Qed.
Lemma nQ_lt a b : (a < b)%nat -> (nQ a < nQ b)%Q.
Proof. intro H. unfold nQ. rewrite <- Zlt_Qlt. lia. Qed.
Lemma nQ_le a b : (a <= b)%nat -> (nQ a <= nQ b)%Q.
Proof. intro H. unfold nQ. rewrite <- Zle_Qle. lia. Qed.
Lemma fraction_le1 {A} (f : A -> bool) l : (fraction f l <= 1)%Q.
Proof.
  unfold fraction. fold (nQ (length (filter f l))) (nQ (length l)). destruct l as [|x l].
  - vm_compute. discriminate.
  - apply Qle_shift_div_r; [apply nQ_pos; simpl; lia|]. rewrite Qmult_1_l. apply nQ_le, filter_le.
Qed.
Lemma fraction_lt1 {A} (f : A -> bool) l x : In x l -> f x = false -> (fraction f l < 1)%Q.
Proof.
  intros Hin Hx. unfold fraction. fold (nQ (length (filter f l))) (nQ (length l)).
  apply Qlt_shift_div_r; [apply nQ_pos; destruct l; [destruct Hin|simpl; lia]|]. rewrite Qmult_1_l. apply nQ_lt. exact (filter_lt f l x Hin Hx).
Qed.
Lemma fraction_1 {A} (f : A -> bool) l : l <> [] -> (forall x, In x l -> f x = true) -> (fraction f l == 1)%Q.
Proof.
  intros Hne H. unfold fraction. assert (filter f l = l) as ->.
  { clear Hne. induction l as [|x l IH]; [reflexivity|]. simpl. rewrite (H x (or_introl eq_refl)), IH; [reflexivity|]. intros y Hy. apply H. right. exact Hy. }
  assert (0 < nQ (length l))%Q as P by (apply nQ_pos; destruct l; [contradiction|simpl; lia]). unfold nQ in P. field. lra.
Qed.
Lemma total_bound l : (forall x, In x l -> (x <= 1)%Q) -> (total l <= nQ (length l))%Q.
Proof.
  induction l as [|x l IH]; intro H; [vm_compute; discriminate|].
  change (length (x :: l)) with (1 + length l)%nat. rewrite nQ_add. change (x + total l <= nQ 1 + nQ (length l))%Q.
  assert (x <= 1)%Q by (apply H; left; reflexivity). assert (total l <= nQ (length l))%Q by (apply IH; intros y Hy; apply H; right; exact Hy).
  change (nQ 1) with 1%Q. lra.
Qed.
Lemma average_lt1 x l : (x < 1)%Q -> (forall y, In y l -> (y <= 1)%Q) -> (average (x :: l) < 1)%Q.
Proof.
  intros Hx H. unfold average. fold (nQ (length (x :: l))). apply Qlt_shift_div_r; [apply nQ_pos; simpl; lia|].
  change (length (x :: l)) with (1 + length l)%nat. rewrite nQ_add. pose proof (total_bound l H) as B.
  change (total (x :: l)) with (x + total l)%Q. change (nQ 1) with 1%Q. lra.
Qed.

Definition agree (x : Z * Z) : bool := (fst x =? snd x)%Z.
Definition label_block (b i : nat) : list Z := repeat (Z.of_nat i) b.
Definition flow_bad (d s b : nat) : list (list (list Z)) := map (fun i => repeat (label_block b i) s) (seq 0 d).
Definition flow_bad_targets (d b : nat) : list (list Z) := map (label_block b) (seq 0 d).

Lemma flow_bad_shape d s b : shaped d s b (flow_bad d s b).
Proof.
  unfold flow_bad. split; [rewrite map_length, seq_length; reflexivity|]. split.
  - intros x Hx. apply in_map_iff in Hx. destruct Hx as (i & <- & _). apply repeat_length.
  - intros x Hx. apply in_map_iff in Hx. destruct Hx as (i & <- & _). intros y Hy. apply repeat_spec in Hy. subst y. apply repeat_length.
Qed.
Lemma nth_repeat_lt {A} (a d0 : A) n i : (i < n)%nat -> nth i (repeat a n) d0 = a.
Proof. revert i. induction n as [|n IH]; intros i H; [lia|]. destruct i; simpl; [reflexivity|]. apply IH. lia. Qed.
Lemma flow_bad_perfect d s b i : (i < s)%nat -> sample_predictions i (flow_bad d s b) = concat (flow_bad_targets d b).
Proof.
  intro H. unfold sample_predictions, flow_bad, flow_bad_targets. rewrite map_map. f_equal. apply map_ext. intro j. apply nth_repeat_lt. exact H.
Qed.
Lemma nth_firstn {A} (l : list A) n i d0 : (i < n)%nat -> nth i (firstn n l) d0 = nth i l d0.
Proof. revert l i. induction n as [|n IH]; intros l i H; [lia|]. destruct l as [|x l]; [reflexivity|]. destruct i; simpl; [reflexivity|]. apply IH. lia. Qed.
Lemma nth_app_skip {A} (a l : list A) n d0 : length a = n -> nth n (a ++ l) d0 = nth 0 l d0.
Proof. intros <-. rewrite app_nth2 by lia. f_equal. lia. Qed.

Lemma flow_refuted : forall d s b, (2 <= d)%nat -> (2 <= s)%nat -> (1 <= b)%nat ->
  exists preds (targets : list (list Z)) q, shaped d s b preds /\ length targets = d /\ all_sizes b targets /\
    (forall i, (i < s)%nat -> sample_predictions i preds = concat targets) /\
    flow_metric (fun p t => fraction (fun x => (fst x =? snd x)%Z) (combine p t)) preds targets = Ok q /\ (q < 1)%Q.
Proof.
  intros d s b Hd Hs Hb. exists (flow_bad d s b), (flow_bad_targets d b).
  pose proof (flow_bad_shape d s b) as Sh. destruct Sh as (S1 & S2 & S3).
  set (flat := concat (map (fun d => concat d) (flow_bad d s b))).
  assert (EL : length flat = (d * s * b)%nat).
  { unfold flat. rewrite concat_concat, (length_concat_sizes b) by (apply all_sizes_concat; exact S3).
    rewrite (length_concat_sizes s) by exact S2. rewrite S1. reflexivity. }
  assert (E1 : size1 (flow_bad d s b) = s) by (apply size1_shaped; [destruct (flow_bad d s b); [simpl in S1; lia|discriminate]|exact S2]).
  assert (E2 : size2 (flow_bad d s b) = b).
  { destruct d as [|d]; [lia|]. destruct s as [|s]; [lia|]. unfold size2, flow_bad. simpl. apply repeat_length. }
  set (row i := slice (i * (d * b)) (i * (d * b) + d * b) flat).
  set (acc p := fraction (fun x : Z * Z => (fst x =? snd x)%Z) (combine p (concat (flow_bad_targets d b)))).
  exists (average (map (fun i => acc (row i)) (seq 0 s))).
  split; [exact (conj S1 (conj S2 S3))|]. split; [unfold flow_bad_targets; rewrite map_length, seq_length; reflexivity|].
  split; [intros x Hx; unfold flow_bad_targets in Hx; apply in_map_iff in Hx; destruct Hx as (i & <- & _); apply repeat_length|].
  split; [intros i Hi; apply flow_bad_perfect; exact Hi|]. split.
  - unfold flow_metric, flow_rows. rewrite E1, E2, S1. fold flat. unfold rows_of. rewrite EL.
    replace (d * s * b =? s * (d * b))%nat with true by (symmetry; apply Nat.eqb_eq; lia).
    simpl rmap. rewrite qmean_avg, map_map. reflexivity.
  - destruct s as [|s]; [lia|]. rewrite <- cons_seq. simpl map.
    apply average_lt1; [|intros y Hy; apply in_map_iff in Hy; destruct Hy as (i & <- & _); apply fraction_le1].
    apply (fraction_lt1 _ _ (0, 1)%Z); [|reflexivity].
    assert (nth b (row 0%nat) 0%Z = 0%Z) as N1.
    { unfold row, slice. simpl. rewrite Nat.sub_0_r, nth_firstn by nia. unfold flat, flow_bad.
      destruct d as [|d]; [lia|]. destruct s as [|s]; [lia|]. simpl. rewrite <- !app_assoc.
      rewrite nth_app_skip by apply repeat_length. rewrite app_nth1 by (unfold label_block; rewrite repeat_length; lia).
      apply nth_repeat_lt. lia. }
    assert (nth b (concat (flow_bad_targets d b)) 0%Z = 1%Z) as N2.
    { unfold flow_bad_targets. destruct d as [|[|d]]; [lia|lia|]. simpl.
      rewrite nth_app_skip by apply repeat_length. rewrite app_nth1 by (unfold label_block; rewrite repeat_length; lia).
      apply nth_repeat_lt. lia. }
    assert (length (row 0%nat) = (d * b)%nat) as L1.
    { unfold row, slice. simpl. rewrite Nat.sub_0_r, firstn_length, EL. nia. }
    assert (length (concat (flow_bad_targets d b)) = (d * b)%nat) as L2.
    { rewrite (length_concat_sizes b); [unfold flow_bad_targets; rewrite map_length, seq_length; reflexivity|].
      intros x Hx. unfold flow_bad_targets in Hx. apply in_map_iff in Hx. destruct Hx as (i & <- & _). apply repeat_length. }
    rewrite <- N1, <- N2 at 1. rewrite <- (combine_nth (row 0%nat) (concat (flow_bad_targets d b)) b 0%Z 0%Z) by congruence.
    apply nth_In. rewrite combine_length, L1, L2. nia.
Qed.

Lemma flow_single : forall A T (metric : list A -> list T -> Q) (preds : list (list A)) targets,
  flow_metric_single metric preds targets = average (map (fun i => metric (nth i preds []) targets) (seq 0 (length preds))).
Proof.
  intros A T metric preds targets. unfold flow_metric_single. rewrite qmean_avg.
  rewrite (nth_seq_map (fun p => metric p targets) preds). reflexivity.
Qed.
