(** Proofs about log-probabilities, entropies and output layers. *)
From Coq Require Import List Arith Bool Lia Reals Lra.
From Verif Require Import Lib MetricSpec TempModel TempSpec TempProofs3 PredModel PredSpec.
Import ListNotations.
Local Notation length := List.length.
Open Scope R_scope.

Definition rs {A} (f : A -> R) (l : list A) : R := rsum (map f l).
Lemma rs_cons {A} (f : A -> R) x l : rs f (x :: l) = f x + rs f l. Proof. reflexivity. Qed.
Lemma rs_nil {A} (f : A -> R) : rs f [] = 0. Proof. reflexivity. Qed.
Lemma rs_ext {A} (f g : A -> R) l : (forall x, In x l -> f x = g x) -> rs f l = rs g l.
Proof. induction l as [|x l IH]; intros H; [reflexivity|]. rewrite !rs_cons, IH, H; auto; [now left|intros; apply H; now right]. Qed.
Lemma rs_add {A} (f g : A -> R) l : rs (fun x => f x + g x) l = rs f l + rs g l.
Proof. induction l as [|x l IH]. rewrite !rs_nil. ring. rewrite !rs_cons, IH. ring. Qed.
Lemma rs_sub {A} (f g : A -> R) l : rs (fun x => f x - g x) l = rs f l - rs g l.
Proof. induction l as [|x l IH]. rewrite !rs_nil. ring. rewrite !rs_cons, IH. ring. Qed.
Lemma rs_scale {A} (f : A -> R) c l : rs (fun x => f x * c) l = rs f l * c.
Proof. induction l as [|x l IH]. rewrite !rs_nil. ring. rewrite !rs_cons, IH. ring. Qed.
Lemma rs_const {A} c (l : list A) : rs (fun _ => c) l = INR (length l) * c.
Proof. induction l as [|x l IH]. rewrite rs_nil. cbn [length INR]. ring. rewrite rs_cons, IH. change (length (x :: l)) with (S (length l)). rewrite S_INR. ring. Qed.
Lemma rs_le {A} (f g : A -> R) l : (forall x, In x l -> f x <= g x) -> rs f l <= rs g l.
Proof. apply rsum_le. Qed.
Lemma rs_nonneg {A} (f : A -> R) l : (forall x, In x l -> 0 <= f x) -> 0 <= rs f l.
Proof. intros H. replace 0 with (rs (fun _ : A => 0) l). now apply rs_le. rewrite rs_const. ring. Qed.
Lemma rs_swap {A B} (f : A -> B -> R) l m : rs (fun x => rs (f x) m) l = rs (fun y => rs (fun x => f x y) l) m.
Proof. induction l as [|x l IH]. rewrite rs_nil. symmetry. replace (rs _ m) with (rs (fun _ : B => 0) m) by (apply rs_ext; reflexivity). rewrite rs_const. ring. rewrite rs_cons, IH, <- rs_add. now apply rs_ext. Qed.
Lemma rs_zero {A} (f : A -> R) l : (forall x, In x l -> 0 <= f x) -> rs f l = 0 -> forall x, In x l -> f x = 0.
Proof.
  induction l as [|y l IH]; intros H E x Hx; [destruct Hx|]. rewrite rs_cons in E. assert (A1 := H y (or_introl eq_refl)). assert (B := rs_nonneg f l (fun z Hz => H z (or_intror Hz))).
  destruct Hx as [<-|Hx]; [lra|]. apply IH; auto. intros. apply H. now right. lra.
Qed.
Lemma rs_ge {A} (f : A -> R) l x : (forall x, In x l -> 0 <= f x) -> In x l -> f x <= rs f l.
Proof.
  induction l as [|y l IH]; intros H Hx; [destruct Hx|]. rewrite rs_cons. assert (A1 := H y (or_introl eq_refl)). assert (B := rs_nonneg f l (fun z Hz => H z (or_intror Hz))).
  destruct Hx as [<-|Hx]; [lra|]. specialize (IH (fun z Hz => H z (or_intror Hz)) Hx). lra.
Qed.
Lemma rs_pos {A} (f : A -> R) l : l <> [] -> (forall x, In x l -> 0 < f x) -> 0 < rs f l.
Proof. destruct l as [|y l]; [easy|]. intros _ H. rewrite rs_cons. assert (A1 := H y (or_introl eq_refl)). assert (B := rs_nonneg f l (fun z Hz => Rlt_le _ _ (H z (or_intror Hz)))). lra. Qed.
Lemma rs_map {A B} (f : B -> R) (g : A -> B) l : rs f (map g l) = rs (fun x => f (g x)) l.
Proof. unfold rs. now rewrite map_map. Qed.
Lemma rover_rs n f : rover n f = rs f (seq 0 n). Proof. reflexivity. Qed.
Lemma rs_nth {A} (f : A -> R) d l : rs f l = rs (fun i => f (nth i l d)) (seq 0 (length l)).
Proof.
  assert (X : map (fun i => nth i l d) (seq 0 (length l)) = l). { apply (nth_ext _ _ d d). now rewrite map_length, seq_length. intros i Hi. rewrite map_length, seq_length in Hi. rewrite (nth_indep _ d (nth 0 l d)) by now rewrite map_length, seq_length. rewrite (map_nth (fun i => nth i l d)), seq_nth by assumption. reflexivity. }
  rewrite <- X at 1. apply rs_map.
Qed.
Lemma INR_pos n : (1 <= n)%nat -> 0 < INR n. Proof. intros H. apply lt_0_INR. lia. Qed.

(** ---- logarithm ---- *)
Lemma ln_le_sub x : 0 < x -> ln x <= x - 1.
Proof. intros H. destruct (Req_dec (ln x) 0) as [E|E]. assert (x = 1) by (rewrite <- (exp_ln x H), E; apply exp_0). lra. assert (A := exp_ineq1 (ln x) E). rewrite exp_ln in A by assumption. lra. Qed.
Lemma ln_eq_sub x : 0 < x -> ln x = x - 1 -> x = 1.
Proof. intros H E. destruct (Req_dec (ln x) 0) as [Z|Z]. lra. assert (A := exp_ineq1 (ln x) Z). rewrite exp_ln in A by assumption. lra. Qed.
Lemma ln_div x y : 0 < x -> 0 < y -> ln (x / y) = ln x - ln y.
Proof. intros. unfold Rdiv. rewrite ln_mult, ln_Rinv; auto using Rinv_0_lt_compat. Qed.
(** p ln (p / q) >= p - q *)
Lemma gibbs p q : 0 < p -> 0 < q -> p - q <= p * ln p - p * ln q.
Proof. intros P Q. assert (A := ln_le_sub (q / p) ltac:(apply Rdiv_lt_0_compat; assumption)). rewrite ln_div in A by assumption. assert (B : p * (ln q - ln p) <= p * (q / p - 1)) by (apply Rmult_le_compat_l; lra). replace (p * (q / p - 1)) with (q - p) in B by (field; lra). lra. Qed.
Lemma gibbs_eq p q : 0 < p -> 0 < q -> p * ln p - p * ln q = p - q -> p = q.
Proof.
  intros P Q E. assert (D : 0 < q / p) by (apply Rdiv_lt_0_compat; assumption). assert (X : q / p = 1). { apply ln_eq_sub; [assumption|]. rewrite ln_div by assumption. apply (Rmult_eq_reg_l p); [|lra]. replace (p * (q / p - 1)) with (q - p) by (field; lra). lra. }
  replace q with (q / p * p) by (field; lra). rewrite X. ring.
Qed.

(** ---- the classification output layer ---- *)
Lemma one_hot_from i : forall xs a, rsum (map (fun p => fst p * snd p) (combine (map (fun j => if (j =? i)%nat then 1 else 0) (seq a (length xs))) xs)) =
  if (a <=? i)%nat then nth (i - a) xs 0 else 0.
Proof.
  induction xs as [|x xs IH]; intros a; cbn [length seq map combine]. cbn [rsum fold_right]. destruct (a <=? i)%nat; [|reflexivity]. now destruct (i - a)%nat.
  change (rsum (?u :: ?l)) with (u + rsum l). rewrite IH. cbn [fst snd]. destruct (Nat.eqb_spec a i) as [->|N].
  - rewrite Nat.leb_refl, Nat.sub_diag. destruct (Nat.leb_spec (S i) i); [lia|]. cbn [nth]. ring.
  - destruct (Nat.leb_spec (S a) i), (Nat.leb_spec a i); try lia; [|ring]. replace (i - a)%nat with (S (i - S a)) by lia. cbn [nth]. ring.
Qed.
Lemma class_log_prob_nth o i : class_log_prob o i = nth i o 0 - lse o.
Proof. unfold class_log_prob, one_hot. rewrite (one_hot_from i o 0). cbn [Nat.leb]. now rewrite Nat.sub_0_r. Qed.
Lemma log_prob_ln o i : (i < length o)%nat -> class_log_prob o i = ln (nth i (softmax o) 0).
Proof.
  intros H. assert (P := rsum_exp_pos o ltac:(now apply len_ne in H)). rewrite class_log_prob_nth, softmax_nth by assumption. unfold lse. rewrite ln_div, ln_exp; [reflexivity|apply exp_pos|assumption].
Qed.
Lemma softmax_pos o i : (i < length o)%nat -> 0 < nth i (softmax o) 0.
Proof. intros H. assert (P := rsum_exp_pos o ltac:(now apply len_ne in H)). rewrite softmax_nth by assumption. apply Rdiv_lt_0_compat; [apply exp_pos|assumption]. Qed.
Lemma softmax_sum o : o <> [] -> rover (length o) (fun i => nth i (softmax o) 0) = 1.
Proof.
  intros H. assert (T := softmax_total o H). assert (X := rs_nth (fun x : R => x) 0 (softmax o)). unfold rs at 1 in X. rewrite map_id, softmax_length in X. change (rtotal (softmax o)) with (rsum (softmax o)) in T. rewrite rover_rs, <- X. exact T.
Qed.
Lemma softmax_le_1 o i : (i < length o)%nat -> nth i (softmax o) 0 <= 1.
Proof.
  intros H. rewrite <- (softmax_sum o) by (now apply len_ne in H). rewrite rover_rs. apply (rs_ge (fun i => nth i (softmax o) 0)). intros j Hj. apply in_seq in Hj. apply Rlt_le, softmax_pos. lia. apply in_seq. lia.
Qed.
Theorem layer_log_prob : forall o i, (i < length o)%nat ->
  exp (class_log_prob o i) = nth i (class_mean o) 0 /\ class_log_prob o i <= 0 /\ rover (length o) (fun j => exp (class_log_prob o j)) = 1.
Proof.
  intros o i H. assert (E : forall j, (j < length o)%nat -> exp (class_log_prob o j) = nth j (softmax o) 0). { intros j Hj. rewrite log_prob_ln by assumption. apply exp_ln. now apply softmax_pos. }
  split; [now apply E|]. split.
  - rewrite log_prob_ln by assumption. assert (A := softmax_le_1 o i H). assert (B := ln_le_sub _ (softmax_pos o i H)). lra.
  - rewrite <- (softmax_sum o) by (now apply len_ne in H). rewrite !rover_rs. apply rs_ext. intros j Hj. apply in_seq in Hj. apply E. lia.
Qed.
(** a label outside the classes is not rejected *)
Theorem layer_out_of_range : forall o i, (length o <= i)%nat -> class_log_prob o i = - ln (rtotal (map exp o)).
Proof. intros o i H. rewrite class_log_prob_nth, nth_overflow by assumption. unfold lse. change rtotal with rsum. ring. Qed.
Theorem layer_predict : forall o, o <> [] -> first_max (map (class_log_prob o) (seq 0 (length o))) (class_predict o) /\ first_max (class_mean o) (class_predict o).
Proof.
  intros o H. assert (P := rsum_exp_pos o H). destruct (rargmax_spec o H) as (A & B & C). fold (class_predict o) in A, B, C. set (k := class_predict o) in *.
  assert (N : forall j, (j < length o)%nat -> nth j (map (class_log_prob o) (seq 0 (length o))) 0 = nth j o 0 - lse o).
  { intros j Hj. rewrite (nth_indep _ 0 (class_log_prob o 0)) by (rewrite map_length, seq_length; exact Hj). rewrite map_nth, seq_nth by exact Hj. apply class_log_prob_nth. }
  assert (M : forall j, (j < length o)%nat -> nth j (class_mean o) 0 = exp (nth j o 0) / rsum (map exp o)) by (intros; now apply softmax_nth).
  split; (split; [|split]).
  - rewrite map_length, seq_length. exact A.
  - intros j Hj. rewrite map_length, seq_length in Hj. rewrite !N by assumption. specialize (B j Hj). lra.
  - intros j Hj. rewrite !N by lia. specialize (C j Hj). lra.
  - unfold class_mean. rewrite softmax_length. exact A.
  - intros j Hj. unfold class_mean in Hj. rewrite softmax_length in Hj. rewrite !M by assumption. apply div_le_iff; [assumption|]. apply exp_le. now apply B.
  - intros j Hj. rewrite !M by lia. apply Rmult_lt_compat_r. now apply Rinv_0_lt_compat. apply exp_increasing. now apply C.
Qed.
Lemma shannon_bounds k p : (1 <= k)%nat -> (forall i, (i < k)%nat -> 0 < p i) -> rover k p = 1 -> 0 <= shannon k p <= ln (INR k).
Proof.
  intros K P T. assert (KP := INR_pos k K). unfold shannon. rewrite rover_rs in *. split.
  - assert (X : rs (fun i => p i * ln (p i)) (seq 0 k) <= rs (fun _ => 0) (seq 0 k)); [|rewrite rs_const in X; lra]. apply rs_le. intros i Hi. apply in_seq in Hi. assert (A := P i ltac:(lia)).
    assert (B : p i <= 1). { rewrite <- T. apply (rs_ge p). intros j Hj. apply in_seq in Hj. apply Rlt_le, P. lia. apply in_seq. lia. }
    assert (C := ln_le_sub (p i) A). nra.
  - assert (X : rs (fun i => p i - / INR k) (seq 0 k) <= rs (fun i => p i * ln (p i) - p i * ln (/ INR k)) (seq 0 k)). { apply rs_le. intros i Hi. apply in_seq in Hi. apply gibbs. apply P. lia. now apply Rinv_0_lt_compat. }
    rewrite !rs_sub, rs_scale, rs_const, seq_length, T, ln_Rinv in X by assumption. rewrite Rinv_r in X by lra. lra.
Qed.
Theorem layer_entropy_spec : forall o, o <> [] -> layer_entropy o = shannon (length o) (fun i => nth i (class_mean o) 0) /\ 0 <= layer_entropy o <= ln (INR (length o)).
Proof.
  intros o H. assert (E : layer_entropy o = shannon (length o) (fun i => nth i (class_mean o) 0)).
  { unfold layer_entropy, shannon. f_equal. rewrite rover_rs. apply rs_ext. intros i Hi. apply in_seq in Hi. destruct (layer_log_prob o i ltac:(lia)) as [-> _]. rewrite log_prob_ln by lia. reflexivity. }
  split; [exact E|]. rewrite E. apply shannon_bounds. destruct o; [easy|cbn; lia]. intros. now apply softmax_pos. now apply softmax_sum.
Qed.
Theorem masked_spec : forall o i, (masked_log_prob o 0 = 0) /\ ((0 < i)%nat -> masked_log_prob o i = class_log_prob o i).
Proof.
  intros o i. unfold masked_log_prob. split. change ((0 <? 0)%nat) with false. cbv iota. ring. intros H. destruct (Nat.ltb_spec 0 i); [ring|lia].
Qed.
Theorem masked_total : forall o, o <> [] -> rover (length o) (fun i => exp (masked_log_prob o i)) = 2 - nth 0 (class_mean o) 0.
Proof.
  intros o H. assert (S0 := softmax_sum o H). destruct o as [|x o]; [easy|]. rewrite rover_rs in *. cbn [length seq] in *. rewrite rs_cons in *. destruct (masked_spec (x :: o) 0) as [-> _]. rewrite exp_0. rewrite (rs_ext _ (fun i => nth i (softmax (x :: o)) 0)).
  2: { intros i Hi. apply in_seq in Hi. destruct (masked_spec (x :: o) i) as [_ ->]; [|lia]. apply (layer_log_prob (x :: o) i). cbn [length]. lia. }
  unfold class_mean. lra.
Qed.

(** ---- entropies of the predictive distribution ---- *)
Section Ent.
Variables (n k : nat) (o : nat -> list R).
Hypotheses (Hn : (1 <= n)%nat) (Hk : (1 <= k)%nat) (Ho : forall s, (s < n)%nat -> length (o s) = k).
Let P s i := nth i (softmax (o s)) 0.
Let pbar i := raverage n (fun s => P s i).
Lemma P_pos s i : (s < n)%nat -> (i < k)%nat -> 0 < P s i.
Proof. intros. apply softmax_pos. now rewrite Ho. Qed.
Lemma P_sum s : (s < n)%nat -> rs (P s) (seq 0 k) = 1.
Proof. intros H. rewrite <- (Ho s H). apply softmax_sum. intros E. specialize (Ho s H). rewrite E in Ho. cbn in Ho. lia. Qed.
Lemma seq_ne m : (1 <= m)%nat -> seq 0 m <> []. Proof. destruct m; [lia|easy]. Qed.
Lemma pbar_pos i : (i < k)%nat -> 0 < pbar i.
Proof. intros H. unfold pbar, raverage. apply Rdiv_lt_0_compat; [|now apply INR_pos]. rewrite rover_rs. apply rs_pos. now apply seq_ne. intros s Hs. apply in_seq in Hs. apply P_pos; [lia|assumption]. Qed.
Lemma pbar_sum : rs pbar (seq 0 k) = 1.
Proof.
  assert (N := INR_pos n Hn). unfold pbar, raverage, Rdiv. rewrite rs_scale. replace (rs (fun i => rover n (fun s => P s i)) (seq 0 k)) with (INR n). field. lra.
  change (fun i => rover n (fun s => P s i)) with (fun i => rs (fun s => P s i) (seq 0 n)). rewrite (rs_swap (fun i s => P s i)). rewrite (rs_ext _ (fun _ => 1)). rewrite rs_const, seq_length. ring. intros s Hs. apply in_seq in Hs. apply P_sum. lia.
Qed.
Lemma log_lik_ln s i : (s < n)%nat -> (i < k)%nat -> class_log_prob (o s) i = ln (P s i).
Proof. intros. apply log_prob_ln. now rewrite Ho. Qed.
Lemma log_pred_ln i : (i < k)%nat -> log_pred n o i = ln (pbar i).
Proof.
  intros H. assert (N := INR_pos n Hn). unfold log_pred, log_liks, ensemble, lse. rewrite !map_map. unfold pbar, raverage. rewrite ln_div. 
  - f_equal. f_equal. rewrite rover_rs. apply rs_ext. intros s Hs. apply in_seq in Hs. rewrite log_lik_ln by (lia || assumption). apply exp_ln. apply P_pos; [lia|assumption].
  - rewrite rover_rs. apply rs_pos. now apply seq_ne. intros s Hs. apply in_seq in Hs. apply P_pos; [lia|assumption].
  - assumption.
Qed.
Lemma mean_plnp i : (i < k)%nat -> rmean (map (fun l => exp l * l) (log_liks n o i)) = raverage n (fun s => P s i * ln (P s i)).
Proof.
  intros H. unfold rmean, log_liks, ensemble. rewrite !map_length, seq_length. unfold raverage. f_equal. rewrite !map_map, rover_rs. apply rs_ext. intros s Hs. apply in_seq in Hs. rewrite log_lik_ln by (lia || assumption). rewrite exp_ln. reflexivity. apply P_pos; [lia|assumption].
Qed.
Lemma entropy_shannon : entropy n k o = shannon k pbar.
Proof. unfold entropy, shannon. f_equal. rewrite rover_rs. apply rs_ext. intros i Hi. apply in_seq in Hi. rewrite log_pred_ln by lia. rewrite exp_ln by (apply pbar_pos; lia). reflexivity. Qed.
Lemma aleatoric_average : aleatoric_entropy n k o = raverage n (fun s => shannon k (P s)).
Proof.
  unfold aleatoric_entropy, raverage, shannon. change (fun s => - rover k (fun i => P s i * ln (P s i))) with (fun s => - rs (fun i => P s i * ln (P s i)) (seq 0 k)).
  rewrite rover_rs. rewrite (rs_ext _ (fun s => rs (fun i => P s i * ln (P s i)) (seq 0 k) * -1)) by (intros; ring). rewrite rs_scale, (rs_swap (fun s i => P s i * ln (P s i))).
  replace (rsum _) with (rs (fun i => rs (fun s => P s i * ln (P s i)) (seq 0 n) * / INR n) (seq 0 k)). rewrite rs_scale. unfold Rdiv. ring.
  apply rs_ext. intros i Hi. apply in_seq in Hi. rewrite mean_plnp by lia. unfold raverage. rewrite rover_rs. reflexivity.
Qed.
Lemma entropy_split : entropy n k o = aleatoric_entropy n k o + epistemic_entropy n k o.
Proof. unfold entropy, aleatoric_entropy, epistemic_entropy. set (f := fun i => exp (log_pred n o i) * log_pred n o i). set (g := fun i => rmean _). change (- rs f (seq 0 k) = - rs g (seq 0 k) + - rs (fun i => f i - g i) (seq 0 k)). rewrite rs_sub. ring. Qed.
Let gap s i := P s i * ln (P s i) - P s i * ln (pbar i) - (P s i - pbar i).
Lemma gap_nonneg s i : (s < n)%nat -> (i < k)%nat -> 0 <= gap s i.
Proof. intros A B. assert (X := gibbs (P s i) (pbar i) (P_pos s i A B) (pbar_pos i B)). unfold gap. lra. Qed.
Lemma pbar_n i : rs (fun s => P s i) (seq 0 n) = pbar i * INR n.
Proof. assert (N := INR_pos n Hn). unfold pbar, raverage. rewrite rover_rs. field. lra. Qed.
Lemma epistemic_gap : epistemic_entropy n k o = rs (fun i => rs (fun s => gap s i) (seq 0 n) * / INR n) (seq 0 k).
Proof.
  assert (N := INR_pos n Hn). unfold epistemic_entropy. replace (- rsum _) with (rs (fun i => (exp (log_pred n o i) * log_pred n o i - rmean (map (fun l => exp l * l) (log_liks n o i))) * -1) (seq 0 k)) by (rewrite rs_scale; unfold rs; ring).
  apply rs_ext. intros i Hi. apply in_seq in Hi. rewrite mean_plnp, log_pred_ln, exp_ln by (try apply pbar_pos; lia). unfold gap. rewrite !rs_sub. rewrite rs_scale, rs_const, seq_length, pbar_n. unfold raverage. rewrite rover_rs. field. lra.
Qed.
Lemma epistemic_nonneg : 0 <= epistemic_entropy n k o.
Proof.
  assert (N := INR_pos n Hn). rewrite epistemic_gap. apply rs_nonneg. intros i Hi. apply in_seq in Hi. apply Rmult_le_pos. apply rs_nonneg. intros s Hs. apply in_seq in Hs. apply gap_nonneg; lia. apply Rlt_le. now apply Rinv_0_lt_compat.
Qed.
Lemma epistemic_zero_iff : epistemic_entropy n k o = 0 <-> forall s i, (s < n)%nat -> (i < k)%nat -> P s i = P 0%nat i.
Proof.
  assert (N := INR_pos n Hn). assert (IN := Rinv_0_lt_compat _ N). rewrite epistemic_gap. split.
  - intros E. assert (X : forall s i, (s < n)%nat -> (i < k)%nat -> P s i = pbar i).
    { intros s i Hs Hi. assert (Z := rs_zero (fun i : nat => rs (fun s : nat => gap s i) (seq 0 n) * / INR n) (seq 0 k) ltac:(intros j Hj; apply in_seq in Hj; apply Rmult_le_pos; [apply rs_nonneg; intros a Ha; apply in_seq in Ha; apply gap_nonneg; lia|lra]) E i ltac:(apply in_seq; lia)). cbv beta in Z.
      apply Rmult_integral in Z. destruct Z as [Z|Z]; [|lra]. assert (W := rs_zero (fun s => gap s i) (seq 0 n) ltac:(intros a Ha; apply in_seq in Ha; apply gap_nonneg; lia) Z s ltac:(apply in_seq; lia)). cbv beta in W.
      apply gibbs_eq; [now apply P_pos|now apply pbar_pos|]. unfold gap in W. lra. }
    intros s i Hs Hi. rewrite (X s i), (X 0%nat i) by (lia || assumption). reflexivity.
  - intros E. rewrite (rs_ext _ (fun _ => 0)). rewrite rs_const. ring. intros i Hi. apply in_seq in Hi. rewrite (rs_ext _ (fun _ => 0)). rewrite rs_const. ring. intros s Hs. apply in_seq in Hs. assert (X : pbar i = P s i).
    { apply (Rmult_eq_reg_r (INR n)); [|lra]. rewrite <- pbar_n. rewrite (rs_ext _ (fun _ => P s i)). rewrite rs_const, seq_length. ring. intros a Ha. apply in_seq in Ha. rewrite (E a i), (E s i) by lia. reflexivity. }
    unfold gap. rewrite X. ring.
Qed.
Lemma epistemic_upper : epistemic_entropy n k o <= ln (INR n).
Proof.
  assert (N := INR_pos n Hn). assert (IN := Rinv_0_lt_compat _ N). unfold epistemic_entropy. replace (- rsum _) with (rs (fun i => (exp (log_pred n o i) * log_pred n o i - rmean (map (fun l => exp l * l) (log_liks n o i))) * -1) (seq 0 k)) by (rewrite rs_scale; unfold rs; ring).
  replace (ln (INR n)) with (rs (fun i => pbar i * ln (INR n)) (seq 0 k)) by (rewrite rs_scale, pbar_sum; ring). apply rs_le. intros i Hi. apply in_seq in Hi. rewrite mean_plnp, log_pred_ln, exp_ln by (try apply pbar_pos; lia).
  unfold raverage. rewrite rover_rs. assert (PB := pbar_pos i ltac:(lia)).
  assert (X : rs (fun s => P s i * ln (P s i)) (seq 0 n) <= rs (fun s => P s i * (ln (pbar i) + ln (INR n))) (seq 0 n)).
  { apply rs_le. intros s Hs. apply in_seq in Hs. assert (PP := P_pos s i ltac:(lia) ltac:(lia)). apply Rmult_le_compat_l; [lra|]. rewrite <- ln_mult by assumption. rewrite <- pbar_n.
    assert (Y : P s i <= rs (fun s => P s i) (seq 0 n)). { apply (rs_ge (fun s => P s i)). intros a Ha. apply in_seq in Ha. apply Rlt_le, P_pos; lia. apply in_seq. lia. }
    destruct (Rle_lt_or_eq_dec _ _ Y) as [C|C]. apply Rlt_le, ln_increasing; assumption. rewrite <- C. lra. }
  rewrite rs_scale, pbar_n in X. apply (Rmult_le_compat_r (/ INR n)) in X; [|lra]. replace (pbar i * INR n * (ln (pbar i) + ln (INR n)) * / INR n) with (pbar i * (ln (pbar i) + ln (INR n))) in X by (field; lra). unfold Rdiv. lra.
Qed.
End Ent.
