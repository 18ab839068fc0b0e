(** Proofs about the reliability diagram of a classifier. *)
From Coq Require Import List Arith ZArith QArith Qabs Bool Permutation Sorted Lqa Lia.
From Verif Require Import Lib MetricModel MetricSpec MetricProofs2 PlotModel PlotSpec PlotProofs2 BinPlotModel BinPlotSpec.
Import ListNotations.
Open Scope Q_scope.
Local Notation length := List.length.

Lemma sorted_unique (l m : list (Q * Q)) : StronglySorted (fun p q => fst p <= fst q) l -> StronglySorted (fun p q => fst p < fst q) m -> Permutation l m -> l = m.
Proof.
  revert m. induction l as [|x l IH]; intros m SL SM P. { apply Permutation_nil in P. now subst. }
  destruct m as [|y m]. { symmetry in P. now apply Permutation_nil_cons in P. }
  inversion SL as [|? ? SL' FL]; subst. inversion SM as [|? ? SM' FM]; subst. rewrite Forall_forall in FL, FM.
  assert (E : x = y).
  { assert (A : In x (y :: m)) by (apply (Permutation_in _ P); now left). assert (B : In y (x :: l)) by (symmetry in P; apply (Permutation_in _ P); now left).
    destruct A as [A|A]; [now symmetry|]. destruct B as [B|B]; [exact B|]. specialize (FM x A). specialize (FL y B). cbn in FM, FL. lra. }
  subst y. apply Permutation_cons_inv in P. now rewrite (IH m SL' SM' P).
Qed.

Definition bin_at (l : list point) (i : nat) : bin := make_bin (members l i).
Lemma member_bounds l i p : (0 < length l)%nat -> In p (members l i) -> fst p <= edge (length l) i /\ (i = 0%nat \/ edge (length l) (i - 1) < fst p).
Proof.
  intros N I. apply filter_In in I. destruct I as (_ & B). unfold bin_b in B. apply andb_prop in B. destruct B as (B1 & B2). apply Qle_bool_iff in B1. split; [exact B1|].
  apply orb_prop in B2. destruct B2 as [B2|B2]; [left; now apply Nat.eqb_eq|right]. apply negb_true_iff in B2. destruct (Qlt_le_dec (edge (length l) (i - 1)) (fst p)) as [X|X]; [exact X|]. apply Qle_bool_iff in X. congruence.
Qed.
Lemma nQ_pos' n : (0 < n)%nat -> 0 < nQ n.
Proof. intros H. unfold nQ. change 0 with (inject_Z 0). rewrite <- Zlt_Qlt. lia. Qed.
Lemma nQ_S n : nQ (S n) == 1 + nQ n.
Proof. unfold nQ. rewrite Nat2Z.inj_succ. unfold Z.succ. rewrite inject_Z_plus. ring. Qed.
Lemma sum_upper (ps : list point) b : (forall p, In p ps -> fst p <= b) -> sum_conf ps <= b * nQ (length ps).
Proof.
  unfold sum_conf. induction ps as [|p ps IH]; intros H. { change (0 <= b * 0). lra. } cbn [map total fold_right length]. rewrite nQ_S. specialize (IH (fun q J => H q (or_intror J))). specialize (H p (or_introl eq_refl)). unfold total in IH. lra.
Qed.
Lemma sum_lower (ps : list point) b : ps <> [] -> (forall p, In p ps -> b < fst p) -> b * nQ (length ps) < sum_conf ps.
Proof.
  unfold sum_conf. intros N H. destruct ps as [|p ps]; [congruence|]. cbn [map total fold_right length]. rewrite nQ_S.
  assert (G : b * nQ (length ps) <= fold_right Qplus 0 (map fst ps)). { clear N. assert (H' : forall q, In q ps -> b < fst q) by (intros; apply H; now right). clear H. induction ps as [|q ps IH]; [change (b * 0 <= 0); lra|]. cbn [map fold_right length]. rewrite nQ_S. pose proof (H' q (or_introl eq_refl)). specialize (IH (fun r J => H' r (or_intror J))). lra. }
  specialize (H p (or_introl eq_refl)). lra.
Qed.
Lemma conf_upper l i : (0 < length l)%nat -> members l i <> [] -> b_conf (bin_at l i) <= edge (length l) i.
Proof.
  intros N M. destruct (make_bin_spec (members l i)) as (_ & E & _). fold (bin_at l i) in E. assert (P : 0 < nQ (length (members l i))) by (apply nQ_pos'; destruct (members l i); [congruence|cbn; lia]).
  pose proof (sum_upper (members l i) _ (fun p I => proj1 (member_bounds l i p N I))) as S. apply Qmult_le_r with (nQ (length (members l i))); [exact P|]. rewrite E. exact S.
Qed.
Lemma conf_lower l i b : members l i <> [] -> (forall p, In p (members l i) -> b < fst p) -> b < b_conf (bin_at l i).
Proof.
  intros M H. destruct (make_bin_spec (members l i)) as (_ & E & _). fold (bin_at l i) in E. assert (P : 0 < nQ (length (members l i))) by (apply nQ_pos'; destruct (members l i); [congruence|cbn; lia]).
  pose proof (sum_lower (members l i) b M H) as S. apply Qmult_lt_r with (nQ (length (members l i))); [exact P|]. rewrite E. exact S.
Qed.
Lemma edge_up n i j : (0 < n)%nat -> (i <= j)%nat -> edge n i <= edge n j.
Proof. intros N H. induction H as [|j H IH]; [lra|]. pose proof (edge_step n j N). lra. Qed.
Lemma conf_increasing l i j : (i < j)%nat -> members l i <> [] -> members l j <> [] -> b_conf (bin_at l i) < b_conf (bin_at l j).
Proof.
  intros H MI MJ. assert (N : (0 < length l)%nat) by (destruct l; [elim MI; reflexivity|cbn; lia]). apply Qle_lt_trans with (edge (length l) i); [now apply conf_upper|]. apply conf_lower; [exact MJ|].
  intros p I. destruct (member_bounds l j p N I) as (_ & [->|B]); [lia|]. pose proof (edge_up (length l) i (j - 1) N ltac:(lia)). lra.
Qed.

Lemma empty_bin l i : members l i = [] -> b_count (bin_at l i) = 0%nat /\ b_conf (bin_at l i) = 0 /\ b_acc (bin_at l i) = 0.
Proof. intros E. unfold bin_at. rewrite E. repeat split. Qed.
Theorem empty_bins : forall preds confs targets bs i b, bins_of preds confs targets = Ok bs -> nth_error bs i = Some b -> members (points preds confs targets) i = [] -> b_count b = 0%nat /\ b_conf b = 0 /\ b_acc b = 0.
Proof.
  intros preds confs targets bs i b E NE M. destruct (shapes _ _ _ _ E) as (_ & _ & ->). unfold bin_list in NE. rewrite nth_error_map in NE. destruct (nth_error (seq 0 10) i) as [k|] eqn:K; [|discriminate]. injection NE as <-.
  assert (KI : k = i). { assert (LI : (i < 10)%nat) by (rewrite <- (seq_length 10 0); apply nth_error_Some; congruence). apply (nth_error_nth _ _ 0%nat) in K. rewrite seq_nth in K by assumption. lia. } subst k. exact (empty_bin _ _ M).
Qed.

Lemma shown_inhabited l : (forall p, In p l -> 0 < fst p) -> shown (bin_list l) = map (bin_at l) (inhabited l).
Proof.
  intros H. unfold shown, bin_list, inhabited. change (map (fun i => make_bin (filter (fun d => bin_b (length l) i (fst d)) l)) (seq 0 10)) with (map (bin_at l) (seq 0 10)).
  generalize (seq 0 10) as is. induction is as [|i is IH]; [reflexivity|]. cbn [map filter]. destruct (members l i) as [|p r] eqn:M.
  - destruct (empty_bin l i M) as (_ & C & _). rewrite C. cbn [length Nat.eqb negb Qeq_bool]. exact IH.
  - assert (P : 0 < b_conf (bin_at l i)). { apply conf_lower; [congruence|]. intros q I. apply H. unfold members in I. apply filter_In in I. tauto. }
    destruct (Qeq_bool (b_conf (bin_at l i)) 0) eqn:Z; [apply Qeq_bool_iff in Z; lra|]. cbn [length Nat.eqb negb map]. now rewrite IH.
Qed.
Lemma gaps_map {A} (c a : A -> Q) (l : list A) : gaps (map c l) (map a l) = map (fun x => (c x, c x - a x)) l.
Proof.
  unfold gaps. rewrite map_length. destruct l as [|d l]; [reflexivity|]. set (m := d :: l). apply nth_ext with (d := (0, 0 - 0)) (d' := (c d, c d - a d)); [now rewrite !map_length, seq_length|]. intros n L. rewrite map_length, seq_length in L.
  rewrite (map_nth (fun x => (c x, c x - a x)) m d). rewrite nth_indep with (d' := (fun i => (nth i (map c m) 0, nth i (map c m) 0 - nth i (map a m) 0)) 0%nat) by (now rewrite map_length, seq_length). rewrite (map_nth (fun i => (nth i (map c m) 0, nth i (map c m) 0 - nth i (map a m) 0))), seq_nth by assumption. cbn [Nat.add].
  rewrite (nth_indep (map c m) 0 (c d)), (nth_indep (map a m) 0 (a d)) by (now rewrite map_length). now rewrite !map_nth.
Qed.
Lemma filter_sorted {A} (R : A -> A -> Prop) f l : StronglySorted R l -> StronglySorted R (filter f l).
Proof.
  induction 1 as [|x l S IH F]; [constructor|]. cbn [filter]. destruct (f x); [|exact IH]. constructor; [exact IH|]. rewrite Forall_forall in *. intros y I. apply filter_In in I. now apply F.
Qed.
Lemma seq_sorted n : forall k, StronglySorted lt (seq k n).
Proof. induction n as [|n IH]; intros k; [constructor|]. cbn [seq]. constructor; [apply IH|]. apply Forall_forall. intros y I. apply in_seq in I. lia. Qed.
Lemma inhabited_in l i : In i (inhabited l) -> members l i <> [].
Proof. intros I. apply filter_In in I. destruct I as (_ & B). destruct (members l i); [discriminate|congruence]. Qed.
Lemma line_sorted l : StronglySorted (fun p q => fst p < fst q) (map (fun i => (b_conf (bin_at l i), b_conf (bin_at l i) - b_acc (bin_at l i))) (inhabited l)).
Proof.
  assert (S : StronglySorted lt (inhabited l)) by apply filter_sorted, seq_sorted. pose proof (inhabited_in l) as H. induction S as [|i is S IH F]; [constructor|]. cbn [map]. constructor; [apply IH; intros; apply H; now right|].
  apply Forall_forall. intros p I. apply in_map_iff in I. destruct I as (j & <- & I). cbn [fst]. rewrite Forall_forall in F. apply conf_increasing; [now apply F|apply H; now left|apply H; now right].
Qed.
Theorem bin_diagram : forall argsort preds probs targets, argsorts argsort -> length preds = length (confidences probs) -> length targets = length (confidences probs) -> (forall c, In c (confidences probs) -> 0 < c) ->
  let l := points preds (confidences probs) targets in
  exists line, plot_bins argsort preds probs targets NoLabels = Ok [(line, None)] /\ Forall2 (fun i xy => mean_gap (members l i) xy) (inhabited l) line.
Proof.
  intros argsort preds probs targets AS L1 L2 P l. unfold plot_bins. rewrite bins_eq by assumption. cbn [bind]. fold l. assert (P' : forall p, In p l -> 0 < fst p) by (intros p I; apply P; now apply points_fst in I).
  rewrite shown_inhabited by exact P'. rewrite !map_map. unfold plot_reliability. cbn [as_list length Nat.eqb negb label_list combine seq mapM].
  destruct (line_spec argsort (map (fun i => b_acc (bin_at l i)) (inhabited l)) (map (fun i => b_conf (bin_at l i)) (inhabited l)) AS) as (ln & E & PM & SS); [now rewrite !map_length|]. rewrite E. cbn [rmap bind].
  rewrite (gaps_map (fun i => b_conf (bin_at l i)) (fun i => b_acc (bin_at l i))) in PM. assert (Q := sorted_unique _ _ SS (line_sorted l) PM). subst ln. eexists. split; [reflexivity|].
  clear SS PM E. induction (inhabited l) as [|i is IH]; [constructor|]. cbn [map]. constructor; [|exact IH]. destruct (make_bin_spec (members l i)) as (_ & B & C). fold (bin_at l i) in B, C. unfold mean_gap. cbn [fst snd]. split; [exact B|]. rewrite <- B, <- C. ring.
Qed.
Theorem diagram_mismatch : forall argsort preds probs targets names, length preds <> length (confidences probs) \/ length targets <> length (confidences probs) -> plot_bins argsort preds probs targets names = Err TypeError.
Proof.
  intros argsort preds probs targets names H. unfold plot_bins, bins_of. destruct (length preds =? length (confidences probs))%nat eqn:A; [|reflexivity]. destruct (length targets =? length (confidences probs))%nat eqn:B; [|reflexivity]. apply Nat.eqb_eq in A, B. destruct H; contradiction.
Qed.
(** points of confidence zero are not shown *)
Theorem zero_bin_dropped : exists preds confs targets, let l := points preds confs targets in
  forall argsort, argsorts argsort -> inhabited l = [0; 9]%nat /\ exists line, plot_bins argsort preds (A1 confs) targets NoLabels = Ok [(line, None)] /\ length line = 1%nat.
Proof.
  exists [0; 1]%Z, [0; 1], [0; 1]%Z. intros l argsort AS. split; [reflexivity|]. unfold plot_bins. cbn [confidences]. rewrite bins_eq by reflexivity. fold l. cbn [bind].
  destruct (line_spec argsort (map b_acc (shown (bin_list l))) (map b_conf (shown (bin_list l))) AS) as (ln & E & PM & SS); [now rewrite !map_length|].
  unfold plot_reliability. cbn [as_list length Nat.eqb negb label_list combine seq mapM]. rewrite E. cbn [rmap bind]. eexists. split; [reflexivity|]. rewrite (Permutation_length PM). reflexivity.
Qed.
