(** Proofs about the calibration losses. *)
From Coq Require Import List Arith Bool Lia Reals Lra.
From Verif Require Import Lib MetricSpec TempModel TempSpec TempProofs3 PredModel PredSpec PredProofs4 PredProofs5 LossModel LossSpec.
Import ListNotations.
Local Notation length := List.length.
Open Scope R_scope.

Lemma ce_term_nth o y : cross_entropy_term o y = lse o - nth y o 0.
Proof. assert (H := class_log_prob_nth o y). unfold class_log_prob in H. unfold cross_entropy_term. lra. Qed.
Lemma combine_swap_sum (xs ys : list R) : rsum (map (fun p => fst p * snd p) (combine xs ys)) = rsum (map (fun p => fst p * snd p) (combine ys xs)).
Proof. revert ys; induction xs as [|x xs IH]; intros [|y ys]; try reflexivity. cbn [combine map fst snd]. change (rsum (x * y :: map (fun p => fst p * snd p) (combine xs ys)) = rsum (y * x :: map (fun p => fst p * snd p) (combine ys xs))). unfold rsum in *. cbn [fold_right]. rewrite IH. ring. Qed.
Lemma target_prob_nth o y : target_prob o y = nth y (softmax o) 0.
Proof.
  unfold target_prob. rewrite combine_swap_sum. unfold one_hot. rewrite <- (softmax_length o). rewrite one_hot_from. rewrite Nat.sub_0_r. cbn [Nat.leb andb].
  destruct (y <? length (softmax o))%nat eqn:E; [reflexivity|]. apply Nat.ltb_ge in E. now rewrite nth_overflow.
Qed.

(** ---- the picked probabilities ---- *)
Lemma is_softmax_unique xs ps : xs <> [] -> is_softmax xs ps -> ps = softmax xs.
Proof.
  intros N [L [T [z [Z H]]]].
  assert (E : ps = map (fun e => e / z) (map exp xs)).
  { apply nth_ext0. now rewrite !map_length. intros i Hi. rewrite L in Hi. rewrite H by assumption. rewrite map_map. clear - Hi. revert i Hi. induction xs as [|x xs IH]; intros [|i] Hi; cbn [length] in Hi; try lia. reflexivity. cbn [map nth]. apply IH. lia. }
  assert (Y : rsum (map exp xs) = z). { rewrite E in T. change (rsum (map (fun e => e / z) (map exp xs)) = 1) in T. rewrite rsum_div in T. apply (Rmult_eq_compat_r z) in T. replace (rsum (map exp xs) / z * z) with (rsum (map exp xs)) in T by (field; lra). lra. }
  rewrite E, softmax_map, Y. reflexivity.
Qed.
Definition pick (rows : list (list R)) (ys : list nat) : list R := map (fun r => target_prob (fst r) (snd r)) (combine rows ys).
Lemma picked_pick rows ys probs : labelled rows ys -> Forall2 is_softmax rows probs -> picked probs ys = pick rows ys.
Proof.
  intros [_ V] H. revert ys V. unfold picked, pick. induction H as [|r p rows probs S H IH]; intros ys V; [reflexivity|]. inversion V as [|? y ? ys' Hy V' E1 E2]; subst. cbn [combine map fst snd].
  rewrite (IH ys' V'), target_prob_nth, (is_softmax_unique r p); auto. now apply len_ne in Hy.
Qed.
Lemma pick_length rows ys : labelled rows ys -> length (pick rows ys) = length rows.
Proof. intros [_ V]. unfold pick. rewrite map_length, combine_length. assert (length rows = length ys) by (induction V; cbn; congruence). lia. Qed.
Lemma pick_range rows ys : labelled rows ys -> Forall (fun p => 0 < p <= 1) (pick rows ys).
Proof.
  intros [_ V]. unfold pick. induction V as [|r y rows ys Hy V IH]; [constructor|]. cbn [combine map fst snd]. constructor; [|assumption].
  rewrite target_prob_nth. split. now apply softmax_pos. now apply softmax_le_1.
Qed.
Lemma softmax_lt_1 o i : (2 <= length o)%nat -> (i < length o)%nat -> nth i (softmax o) 0 < 1.
Proof.
  intros H2 Hi. rewrite <- (softmax_sum o) by (now apply len_ne in Hi). rewrite rover_rs.
  assert (J : exists j, (j < length o)%nat /\ j <> i) by (exists (if (i =? 0)%nat then 1%nat else 0%nat); destruct (Nat.eqb_spec i 0); lia). destruct J as [j [J N]].
  assert (P := softmax_pos o j J).
  apply Rlt_le_trans with (nth i (softmax o) 0 + nth j (softmax o) 0); [lra|].
  assert (X : forall l, NoDup l -> In i l -> In j l -> (forall k, In k l -> (k < length o)%nat) -> nth i (softmax o) 0 + nth j (softmax o) 0 <= rs (fun k => nth k (softmax o) 0) l).
  { induction l as [|k l IH]; intros ND Ii Ij B; [destruct Ii|]. rewrite rs_cons. inversion ND as [|? ? NI ND']; subst.
    assert (NN : forall x, In x l -> 0 <= nth x (softmax o) 0) by (intros x Hx; apply Rlt_le, softmax_pos, B; now right).
    destruct Ii as [->|Ii], Ij as [->|Ij]; try congruence.
    - assert (G := rs_ge (fun k => nth k (softmax o) 0) l j NN Ij). cbn beta in G. lra.
    - assert (G := rs_ge (fun k => nth k (softmax o) 0) l i NN Ii). cbn beta in G. lra.
    - assert (0 < nth k (softmax o) 0) by (apply softmax_pos, B; now left). assert (G := IH ND' Ii Ij (fun x Hx => B x (or_intror Hx))). lra. }
  apply X; [apply seq_NoDup|apply in_seq; lia|apply in_seq; lia|]. intros k Hk. apply in_seq in Hk. lia.
Qed.
Lemma pick_lt_1 rows ys : labelled rows ys -> at_least_two_classes rows -> Forall (fun p => 0 < p < 1) (pick rows ys).
Proof.
  intros [_ V] T. unfold pick. induction V as [|r y rows ys Hy V IH]; [constructor|]. inversion T; subst. cbn [combine map fst snd]. constructor; [|auto].
  rewrite target_prob_nth. split. now apply softmax_pos. now apply softmax_lt_1.
Qed.
Lemma ce_pick rows ys : labelled rows ys -> cross_entropy rows ys = Some (mean_of (fun p => - ln p) (pick rows ys)).
Proof.
  intros V. unfold cross_entropy, mean_of.
  assert (E : map (fun r => cross_entropy_term (fst r) (snd r)) (combine rows ys) = map (fun p => - ln p) (pick rows ys)).
  { destruct V as [_ V]. unfold pick. induction V as [|r y rows ys Hy V IH]; [reflexivity|]. cbn [combine map fst snd]. rewrite IH. f_equal. rewrite target_prob_nth, <- log_prob_ln, class_log_prob_nth, ce_term_nth by assumption. ring. }
  rewrite E. assert (L := pick_length rows ys V). destruct (pick rows ys) as [|p l]; [destruct V as [N _]; destruct rows; [easy|discriminate]|]. cbn [map mean_or_nan]. unfold rmean. f_equal. rewrite <- (map_length (fun p => - ln p) (p :: l)). reflexivity.
Qed.
Lemma rs_mean f l : mean_of f l = rs f l / INR (length l). Proof. reflexivity. Qed.

Theorem cross_entropy_nll : forall rows ys probs, labelled rows ys -> Forall2 is_softmax rows probs ->
  cross_entropy rows ys = Some (nll probs ys / INR (length rows)).
Proof.
  intros rows ys probs V S. rewrite ce_pick by assumption. f_equal. unfold mean_of. rewrite (pick_length rows ys V), <- (picked_pick rows ys probs V S). f_equal.
  unfold nll, picked. induction (combine probs ys) as [|a l IH]; cbn [map rtotal fold_right]. ring. unfold rtotal in *. cbn [map fold_right]. rewrite IH. ring.
Qed.
Lemma labelled_pos rows ys : labelled rows ys -> 0 < INR (length (pick rows ys)).
Proof. intros V. rewrite pick_length by assumption. destruct V as [N _]. apply INR_pos. destruct rows; [easy|cbn; lia]. Qed.
Lemma mean_le f g l : (forall p, In p l -> f p <= g p) -> 0 < INR (length l) -> mean_of f l <= mean_of g l.
Proof. intros H P. rewrite !rs_mean. apply Rmult_le_compat_r. now apply Rlt_le, Rinv_0_lt_compat. now apply rs_le. Qed.
Lemma mean_ext f g l : (forall p, In p l -> f p = g p) -> mean_of f l = mean_of g l.
Proof. intros H. rewrite !rs_mean. f_equal. now apply rs_ext. Qed.
Lemma mean_const c l : 0 < INR (length l) -> mean_of (fun _ => c) l = c.
Proof. intros P. rewrite rs_mean, rs_const. field. lra. Qed.
Lemma ln_nonpos p : 0 < p <= 1 -> ln p <= 0.
Proof. intros [A B]. rewrite <- ln_1. now apply ln_mono. Qed.
Theorem cross_entropy_nonneg : forall rows ys, labelled rows ys -> exists v, cross_entropy rows ys = Some v /\ 0 <= v.
Proof.
  intros rows ys V. exists (mean_of (fun p => - ln p) (pick rows ys)). split; [now apply ce_pick|].
  rewrite <- (mean_const 0 (pick rows ys)) by now apply labelled_pos. apply mean_le; [|now apply labelled_pos]. intros p Hp. assert (R := pick_range rows ys V). rewrite Forall_forall in R. specialize (R p Hp). assert (X := ln_nonpos p R). lra.
Qed.
(** adding a constant to the outputs of a row changes no loss *)
Lemma target_prob_shift o y c : target_prob (map (fun x => x - c) o) y = target_prob o y.
Proof. now rewrite !target_prob_nth, softmax_shift. Qed.

(** ---- focal loss ---- *)
Definition fw (gamma p : R) : R := if Rlt_dec p 1 then Rpower (1 - p) gamma else if Req_EM_T gamma 0 then 1 else 0.
Lemma focal_term_fw gamma o y : 0 <= gamma -> (y < length o)%nat -> focal_term gamma o y = Some (fw gamma (target_prob o y) * ln (target_prob o y)).
Proof.
  intros G H. unfold focal_term, power, fw. assert (P : 0 < target_prob o y <= 1). { rewrite target_prob_nth. split. now apply softmax_pos. now apply softmax_le_1. }
  destruct (Rlt_dec 0 (1 - target_prob o y)), (Rlt_dec (target_prob o y) 1); try lra.
  - destruct (Rlt_dec 0 (target_prob o y)); [reflexivity|lra].
  - destruct (Req_EM_T gamma 0). destruct (Rlt_dec 0 (target_prob o y)); [reflexivity|lra]. destruct (Rlt_dec 0 gamma); [|lra]. destruct (Rlt_dec 0 (target_prob o y)); [reflexivity|lra].
Qed.
Lemma all_finite_some (l : list R) : all_finite (map Some l) = Some l.
Proof. induction l as [|x l IH]; [reflexivity|]. cbn [map all_finite]. now rewrite IH. Qed.
Lemma focal_pick gamma rows ys : 0 <= gamma -> labelled rows ys -> focal_loss gamma rows ys = Some (mean_of (fun p => - (fw gamma p * ln p)) (pick rows ys)).
Proof.
  intros G V. unfold focal_loss.
  assert (E : map (fun r => focal_term gamma (fst r) (snd r)) (combine rows ys) = map Some (map (fun p => fw gamma p * ln p) (pick rows ys))).
  { destruct V as [_ V]. unfold pick. induction V as [|r y rows ys Hy V IH]; [reflexivity|]. cbn [combine map fst snd]. rewrite IH. f_equal. now apply focal_term_fw. }
  rewrite E, all_finite_some. assert (L := labelled_pos rows ys V). unfold mean_of.
  assert (X : mean_or_nan (map (fun p => fw gamma p * ln p) (pick rows ys)) = Some (rs (fun p => fw gamma p * ln p) (pick rows ys) / INR (length (pick rows ys)))).
  { destruct (pick rows ys) as [|p l]; [cbn in L; lra|]. unfold mean_or_nan. cbn [map]. unfold rmean. f_equal. change (fw gamma p * ln p :: map (fun p0 : R => fw gamma p0 * ln p0) l) with (map (fun p0 => fw gamma p0 * ln p0) (p :: l)). rewrite map_length. reflexivity. }
  rewrite X. f_equal. change (rtotal (map (fun p => - (fw gamma p * ln p)) (pick rows ys))) with (rs (fun p => - (fw gamma p * ln p)) (pick rows ys)).
  replace (rs (fun p => - (fw gamma p * ln p)) (pick rows ys)) with (rs (fun p => fw gamma p * ln p * (-1)) (pick rows ys)) by (apply rs_ext; intros; ring). rewrite rs_scale. field. lra.
Qed.
Lemma Rpower_le1 x g : 0 < x <= 1 -> 0 <= g -> 0 < Rpower x g <= 1.
Proof.
  intros H G. unfold Rpower. split; [apply exp_pos|]. rewrite <- exp_0. apply exp_le. assert (X := ln_nonpos x H). assert (0 <= g * - ln x) by (apply Rmult_le_pos; lra). lra.
Qed.
Lemma fw_range g p : 0 <= g -> 0 < p <= 1 -> 0 <= fw g p <= 1.
Proof.
  intros G P. unfold fw. destruct (Rlt_dec p 1). assert (X := Rpower_le1 (1 - p) g ltac:(lra) G). lra. destruct (Req_EM_T g 0); lra.
Qed.
Lemma fw_antitone g h p : 0 <= g <= h -> 0 < p <= 1 -> fw h p <= fw g p.
Proof.
  intros G P. unfold fw. destruct (Rlt_dec p 1).
  - unfold Rpower. apply exp_le. assert (X := ln_nonpos (1 - p) ltac:(lra)). assert (0 <= (h - g) * - ln (1 - p)) by (apply Rmult_le_pos; lra). lra.
  - destruct (Req_EM_T h 0), (Req_EM_T g 0); lra.
Qed.
Lemma fw_zero p : 0 < p <= 1 -> fw 0 p = 1.
Proof. intros P. unfold fw. destruct (Rlt_dec p 1). rewrite Rpower_O; lra. destruct (Req_EM_T 0 0); lra. Qed.
Theorem focal_spec : forall gamma rows ys probs, 0 <= gamma -> labelled rows ys -> at_least_two_classes rows -> Forall2 is_softmax rows probs ->
  focal_loss gamma rows ys = Some (mean_of (fun p => - (Rpower (1 - p) gamma * ln p)) (picked probs ys)).
Proof.
  intros gamma rows ys probs G V T S. rewrite focal_pick by assumption. f_equal. rewrite (picked_pick rows ys probs V S). apply mean_ext. intros p Hp.
  assert (R := pick_lt_1 rows ys V T). rewrite Forall_forall in R. specialize (R p Hp). unfold fw. destruct (Rlt_dec p 1); [reflexivity|lra].
Qed.
Theorem focal_zero : forall rows ys, labelled rows ys -> focal_loss 0 rows ys = cross_entropy rows ys.
Proof.
  intros rows ys V. rewrite focal_pick, ce_pick by (try lra; assumption). f_equal. apply mean_ext. intros p Hp. assert (R := pick_range rows ys V). rewrite Forall_forall in R. rewrite fw_zero by now apply R. ring.
Qed.
Theorem focal_antitone : forall g h rows ys, 0 <= g <= h -> labelled rows ys -> exists a b, focal_loss h rows ys = Some a /\ focal_loss g rows ys = Some b /\ 0 <= a <= b.
Proof.
  intros g h rows ys G V. assert (R := pick_range rows ys V). rewrite Forall_forall in R. assert (L := labelled_pos rows ys V).
  eexists. eexists. split; [now apply focal_pick; [lra|]|]. split; [now apply focal_pick; [lra|]|]. split.
  - rewrite <- (mean_const 0 (pick rows ys)) by assumption. apply mean_le; [|assumption]. intros p Hp. specialize (R p Hp). assert (X := ln_nonpos p R). assert (Y := fw_range h p ltac:(lra) R). assert (0 <= fw h p * - ln p) by (apply Rmult_le_pos; lra). lra.
  - apply mean_le; [|assumption]. intros p Hp. specialize (R p Hp). assert (X := ln_nonpos p R). assert (Y := fw_antitone g h p G R). assert (0 <= (fw g p - fw h p) * - ln p) by (apply Rmult_le_pos; lra). lra.
Qed.
Theorem focal_cross_entropy : forall gamma rows ys, 0 <= gamma -> labelled rows ys -> exists f c, focal_loss gamma rows ys = Some f /\ cross_entropy rows ys = Some c /\ 0 <= f <= c.
Proof. intros gamma rows ys G V. destruct (focal_antitone 0 gamma rows ys ltac:(lra) V) as [a [b [A [B C]]]]. rewrite focal_zero in B by assumption. eauto 6. Qed.
Lemma plnp p : 0 < p -> p * - ln p <= exp (-1).
Proof.
  intros P. assert (E : 0 < exp (-1)) by apply exp_pos. assert (D : 0 < exp (-1) / p) by (apply Rdiv_lt_0_compat; assumption). assert (X := ln_le_sub (exp (-1) / p) D). rewrite ln_div, ln_exp in X by assumption.
  assert (Y : - ln p <= exp (-1) / p) by lra. apply (Rmult_le_compat_l p) in Y; [|lra]. replace (p * (exp (-1) / p)) with (exp (-1)) in Y by (field; lra). assumption.
Qed.
(** with the default exponent the two losses differ by less than 2/e *)
Theorem focal_default_gap : forall rows ys, labelled rows ys -> exists f c, focal_loss 2 rows ys = Some f /\ cross_entropy rows ys = Some c /\ c - 2 * exp (-1) <= f.
Proof.
  intros rows ys V. assert (R := pick_range rows ys V). rewrite Forall_forall in R. assert (L := labelled_pos rows ys V).
  eexists. eexists. split; [apply focal_pick; [lra|assumption]|]. split; [now apply ce_pick|].
  assert (X : mean_of (fun p => - ln p - 2 * exp (-1)) (pick rows ys) = mean_of (fun p => - ln p) (pick rows ys) - 2 * exp (-1)).
  { rewrite !rs_mean, rs_sub, rs_const. field. lra. }
  rewrite <- X. apply mean_le; [|assumption]. intros p Hp. specialize (R p Hp). assert (N := ln_nonpos p R). assert (B := plnp p ltac:(lra)).
  assert (F : 1 - 2 * p <= fw 2 p). { unfold fw. destruct (Rlt_dec p 1). replace 2 with (INR 2) at 2 by (cbn; lra). rewrite Rpower_pow by lra. cbn [pow]. nra. destruct (Req_EM_T 2 0); lra. }
  assert (0 <= (fw 2 p - (1 - 2 * p)) * - ln p) by (apply Rmult_le_pos; lra). lra.
Qed.
(** a larger target probability gives a smaller loss *)
Theorem focal_decreasing : forall gamma r y r' y', 0 <= gamma -> (y < length r)%nat -> (y' < length r')%nat ->
  (forall p p', is_softmax r p -> is_softmax r' p' -> nth y p 0 < nth y' p' 0) ->
  exists a b, focal_loss gamma [r] [y] = Some a /\ focal_loss gamma [r'] [y'] = Some b /\ b < a.
Proof.
  intros gamma r y r' y' G Hy Hy' H. specialize (H _ _ (proj1 (softmax_spec r (len_ne r y Hy))) (proj1 (softmax_spec r' (len_ne r' y' Hy')))).
  assert (P := softmax_pos r y Hy). assert (Q := softmax_le_1 r' y' Hy').
  eexists. eexists. split; [apply focal_pick; [assumption|split; [easy|now repeat constructor]]|]. split; [apply focal_pick; [assumption|split; [easy|now repeat constructor]]|].
  unfold pick, mean_of. cbn [combine map fst snd rtotal fold_right length INR]. rewrite !target_prob_nth. set (p := nth y (softmax r) 0) in *. set (q := nth y' (softmax r') 0) in *.
  assert (LQ := ln_nonpos q ltac:(lra)). assert (LL : ln p < ln q) by now apply ln_increasing.
  assert (W : 0 < fw gamma p). { unfold fw. destruct (Rlt_dec p 1); [apply exp_pos|lra]. }
  assert (M : fw gamma q <= fw gamma p).
  { unfold fw. destruct (Rlt_dec p 1); [|lra]. destruct (Rlt_dec q 1).
    - unfold Rpower. apply exp_le. assert (ln (1 - q) <= ln (1 - p)) by (apply ln_mono; lra). apply Rmult_le_compat_l; lra.
    - destruct (Req_EM_T gamma 0) as [->|]. rewrite Rpower_O; lra. apply Rlt_le, exp_pos. }
  assert (0 < fw gamma p * (ln q - ln p)) by (apply Rmult_lt_0_compat; lra). assert (0 <= (fw gamma p - fw gamma q) * - ln q) by (apply Rmult_le_pos; lra). lra.
Qed.
(** a label that is not a class makes the focal loss infinite, but leaves the cross-entropy finite *)
Lemma focal_bad gamma o y : (length o <= y)%nat -> focal_term gamma o y = None.
Proof.
  intros H. unfold focal_term. rewrite target_prob_nth, nth_overflow by (now rewrite softmax_length). destruct (power (1 - 0) gamma); [|reflexivity]. destruct (Rlt_dec 0 0); [lra|reflexivity].
Qed.
Lemma all_finite_none l : In None l -> all_finite l = None.
Proof. induction l as [|o l IH]; intros H; [destruct H|]. destruct H as [->|H]; [reflexivity|]. cbn. rewrite IH by assumption. now destruct o. Qed.
Theorem focal_out_of_range : forall gamma rows ys i, (i < length rows)%nat -> (i < length ys)%nat -> (length (nth i rows []) <= nth i ys 0%nat)%nat ->
  focal_loss gamma rows ys = None /\ exists c, cross_entropy rows ys = Some c.
Proof.
  intros gamma rows ys i Hr Hy H. split.
  - unfold focal_loss. rewrite all_finite_none; [reflexivity|]. apply in_map_iff. exists (nth i rows [], nth i ys 0%nat). cbn [fst snd]. split; [now apply focal_bad|].
    revert ys i Hr Hy H. induction rows as [|r rows IH]; intros [|y ys] [|i] Hr Hy H; cbn in Hr, Hy; try lia. now left. cbn [combine nth]. right. apply IH; try lia. exact H.
  - unfold cross_entropy. destruct rows, ys; cbn in Hr, Hy; try lia. cbn [combine map mean_or_nan]. eauto.
Qed.
