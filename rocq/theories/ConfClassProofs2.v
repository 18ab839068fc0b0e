From Coq Require Import List Arith ZArith QArith Qround Qminmax Qabs Bool Lia Lqa Permutation Sorted.
From Verif Require Import Lib QuantModel QuantSpec QuantProofs ConfRegModel ConfRegProofs ConfRegProofs2 ConfClassModel ConfClassSpec ConfClassProofs.
Import ListNotations.
Open Scope Q_scope.

(** ---- argsort ---- *)
Section Argsort.
Context {A : Type} (le : A -> A -> bool) (d : A).
Hypothesis le_total : forall x y, le x y = false -> le y x = true.
Hypothesis le_trans : forall x y z, le x y = true -> le y z = true -> le x z = true.
Variable l : list A.
Let a i := nth i l d.
Definition before (i j : nat) : Prop := le (a i) (a j) = true /\ (le (a j) (a i) = true -> (i < j)%nat).

Lemma arg_insert_perm i is : Permutation (i :: is) (arg_insert le d l i is).
Proof.
  induction is as [|j r IH]; cbn; [reflexivity|]. destruct (le _ _); [reflexivity|].
  transitivity (j :: i :: r); [apply perm_swap|now apply perm_skip].
Qed.
Lemma arg_insert_sorted i is : StronglySorted before is -> (forall j, In j is -> (i < j)%nat) -> StronglySorted before (arg_insert le d l i is).
Proof.
  induction 1 as [|j r Sr IH F]; intros H; cbn; [repeat constructor|]. destruct (le (nth i l d) (nth j l d)) eqn:E.
  - constructor; [constructor; assumption|]. apply Forall_forall. intros k Hk. split; [|intros _; now apply H].
    destruct Hk as [<-|Hk]; [exact E|]. eapply le_trans; [exact E|]. rewrite Forall_forall in F. apply (F k Hk).
  - constructor; [apply IH; intros k Hk; apply H; now right|]. apply Forall_forall. intros k Hk.
    apply (Permutation_in _ (Permutation_sym (arg_insert_perm i r))) in Hk. destruct Hk as [<-|Hk].
    + split; [now apply le_total|]. intros X. unfold a in X. congruence.
    + rewrite Forall_forall in F. now apply F.
Qed.
Lemma argsort_from n : forall k, Permutation (seq k n) (fold_right (arg_insert le d l) [] (seq k n)) /\
  StronglySorted before (fold_right (arg_insert le d l) [] (seq k n)).
Proof.
  induction n as [|n IH]; intros k; cbn [seq fold_right]; [split; constructor|]. destruct (IH (S k)) as [P Q]. split.
  - etransitivity; [|apply arg_insert_perm]. now apply perm_skip.
  - apply arg_insert_sorted; [exact Q|]. intros j Hj. apply (Permutation_in _ (Permutation_sym P)) in Hj. apply in_seq in Hj. lia.
Qed.
Lemma argsort_perm : Permutation (seq 0 (length l)) (argsort le d l).
Proof. apply argsort_from. Qed.
Lemma argsort_sorted : StronglySorted before (argsort le d l).
Proof. apply argsort_from. Qed.
End Argsort.

Lemma sorted_seq (l : list nat) : forall k, StronglySorted (fun i j => (i <= j)%nat) l -> Permutation (seq k (length l)) l -> l = seq k (length l).
Proof.
  induction l as [|x l IH]; intros k HS P; [reflexivity|]. inversion HS as [|? ? S1 F]; subst. cbn [length seq] in *.
  assert (x = k).
  { assert (Hx : In x (k :: seq (S k) (length l))) by (eapply Permutation_in; [symmetry; exact P|now left]).
    assert (Hk : In k (x :: l)) by (eapply Permutation_in; [exact P|now left]).
    assert (k <= x)%nat by (destruct Hx as [->|Hx]; [lia|]; apply in_seq in Hx; lia).
    destruct Hk as [->|Hk]; [reflexivity|]. rewrite Forall_forall in F. specialize (F k Hk). lia. }
  subst x. f_equal. apply IH; [exact S1|]. eapply Permutation_cons_inv. exact P.
Qed.

Lemma map_nth_self {A} (d : A) l : map (fun i => nth i l d) (seq 0 (length l)) = l.
Proof.
  induction l as [|x l IH]; [reflexivity|]. cbn [length seq map]. f_equal. rewrite <- seq_shift, map_map. exact IH.
Qed.

Lemma StronglySorted_map {A B} (R : A -> A -> Prop) (R' : B -> B -> Prop) (f : A -> B) l :
  (forall x y, R x y -> R' (f x) (f y)) -> StronglySorted R l -> StronglySorted R' (map f l).
Proof.
  intros H. induction 1 as [|x l Sl IH F]; cbn; constructor; [exact IH|].
  apply Forall_forall. intros y Hy. apply in_map_iff in Hy. destruct Hy as [z [<- Hz]]. apply H. rewrite Forall_forall in F. now apply F.
Qed.

(** argsort of a permutation is its inverse *)
Lemma argsort_inverse perm n t : Permutation (seq 0 n) perm -> (t < n)%nat ->
  let pos := nth t (argsort Nat.leb O perm) O in (pos < n)%nat /\ nth pos perm O = t.
Proof.
  intros P Ht. pose proof (Permutation_length P) as L. rewrite seq_length in L.
  assert (T : forall x y, Nat.leb x y = false -> Nat.leb y x = true) by (intros; apply Nat.leb_le; apply Nat.leb_gt in H; lia).
  assert (Tr : forall x y z, Nat.leb x y = true -> Nat.leb y z = true -> Nat.leb x z = true)
    by (intros x y z A B; apply Nat.leb_le in A, B; apply Nat.leb_le; lia).
  pose proof (argsort_perm Nat.leb O T Tr perm) as PI. pose proof (argsort_sorted Nat.leb O T Tr perm) as SI.
  set (inv := argsort Nat.leb O perm) in *. rewrite <- L in PI.
  pose proof (Permutation_length PI) as LI. rewrite seq_length in LI.
  assert (E : map (fun i => nth i perm O) inv = seq 0 n).
  { assert (E' : map (fun i => nth i perm O) inv = seq 0 (length (map (fun i => nth i perm O) inv))).
    { apply sorted_seq.
      - eapply StronglySorted_map; [|exact SI]. intros x y [A _]. now apply Nat.leb_le in A.
      - rewrite map_length, <- LI. rewrite P. rewrite <- (map_nth_self O perm) at 1. rewrite <- L. now apply Permutation_map. }
    now rewrite map_length, <- LI in E'. }
  cbv zeta. split.
  - assert (In (nth t inv O) inv) by (apply nth_In; lia). apply (Permutation_in _ (Permutation_sym PI)) in H. apply in_seq in H. lia.
  - transitivity (nth t (map (fun i => nth i perm O) inv) (nth O perm O)).
    + rewrite (map_nth (fun i => nth i perm O)). reflexivity.
    + rewrite E. rewrite (nth_indep _ _ O) by (now rewrite seq_length). now rewrite seq_nth.
Qed.

(** ---- cumulative sums ---- *)
Lemma cumsum_from_nth l : forall acc k, (k < length l)%nat -> nth k (cumsum_from acc l) 0 == acc + qsum (firstn (S k) l).
Proof.
  induction l as [|x l IH]; intros acc k H; [cbn in H; lia|]. destruct k as [|k].
  - cbn. lra.
  - cbn [cumsum_from nth]. rewrite IH by (cbn in H; lia).
    change (qsum (firstn (S (S k)) (x :: l))) with (x + qsum (firstn (S k) l)). lra.
Qed.
Lemma qsum_perm l m : Permutation l m -> qsum l == qsum m.
Proof. unfold qsum. induction 1; cbn [fold_right] in *; try lra. Qed.
Lemma qsum_cons x l : qsum (x :: l) = x + qsum l. Proof. reflexivity. Qed.
Lemma qsum_nonneg l : (forall x, In x l -> 0 <= x) -> 0 <= qsum l.
Proof.
  induction l as [|x l IH]; intros H; [unfold qsum; cbn; lra|]. rewrite qsum_cons.
  pose proof (H x (or_introl eq_refl)). specialize (IH (fun y Hy => H y (or_intror Hy))). lra.
Qed.

Lemma filter_perm {A} (f : A -> bool) l m : Permutation l m -> Permutation (filter f l) (filter f m).
Proof.
  induction 1; cbn; try destruct (f x); try destruct (f y); auto; try constructor; auto.
  etransitivity; eassumption.
Qed.

Lemma filter_all {A} (f : A -> bool) l : forallb f l = true -> filter f l = l.
Proof. induction l as [|x l IH]; cbn; [reflexivity|]. destruct (f x); [|discriminate]. intros H. now rewrite IH. Qed.
Lemma filter_prefix {A} (f : A -> bool) l k : (k <= length l)%nat ->
  (forall i x, nth_error l i = Some x -> f x = (i <? k)%nat) -> filter f l = firstn k l.
Proof.
  revert k. induction l as [|x l IH]; intros k Hk H; [now destruct k|].
  pose proof (H O x eq_refl) as Hx. destruct k as [|k].
  - cbn [filter firstn]. rewrite Hx. cbn. rewrite (IH O); [reflexivity|lia|]. intros i y Hy. now rewrite (H (S i) y Hy).
  - cbn [filter firstn]. rewrite Hx. cbn [Nat.ltb Nat.leb]. f_equal. apply IH; [cbn in Hk; lia|]. intros i y Hy. now rewrite (H (S i) y Hy).
Qed.

Lemma sorted_nth_error {A} (R : A -> A -> Prop) l : StronglySorted R l -> forall i j x y, (i < j)%nat -> nth_error l i = Some x -> nth_error l j = Some y -> R x y.
Proof.
  induction 1 as [|z l Sl IH F]; intros i j x y H Hi Hj; [destruct i; discriminate|].
  destruct i as [|i], j as [|j]; try lia.
  - cbn in Hi, Hj. injection Hi as <-. rewrite Forall_forall in F. apply F. eapply nth_error_In; eassumption.
  - eapply (IH i j); eauto. lia.
Qed.
Lemma sorted_rev {A} (R : A -> A -> Prop) l : StronglySorted R l -> StronglySorted (fun x y => R y x) (rev l).
Proof.
  induction 1 as [|x l Sl IH F]; cbn; [constructor|].
  assert (G : forall m, StronglySorted (fun x y => R y x) m -> Forall (R x) m -> StronglySorted (fun x y => R y x) (m ++ [x])).
  { clear. induction m as [|y m IH]; intros Sm Fm; cbn; [repeat constructor|]. inversion Sm; inversion Fm; subst.
    constructor; [now apply IH|]. apply Forall_app. split; [assumption|]. repeat constructor. assumption. }
  apply G; [exact IH|]. apply Forall_rev. exact F.
Qed.

Theorem adaptive_score_sum : forall p t, (t < length p)%nat ->
  adaptive_score p t == qsum (map (fun j => nth j p 0) (filter (ranked_above p t) (seq 0 (length p)))).
Proof.
  intros p t Ht. unfold adaptive_score. set (asc := argsort Qle_bool 0 p).
  assert (T : forall x y, Qle_bool x y = false -> Qle_bool y x = true) by (intros x y H; apply Qleb_false in H; apply Qleb_true; lra).
  assert (Tr : forall x y z, Qle_bool x y = true -> Qle_bool y z = true -> Qle_bool x z = true)
    by (intros x y z A B; apply Qleb_true in A, B; apply Qleb_true; lra).
  pose proof (argsort_perm Qle_bool 0 T Tr p) as P. pose proof (argsort_sorted Qle_bool 0 T Tr p) as SA. fold asc in P, SA.
  set (perm := rev asc). assert (PP : Permutation (seq 0 (length p)) perm) by (unfold perm; rewrite P; apply Permutation_rev).
  apply sorted_rev in SA. fold perm in SA.
  destruct (argsort_inverse perm (length p) t PP Ht) as [Hpos Hnth]. cbv zeta. set (pos := nth t (argsort Nat.leb O perm) O) in *.
  pose proof (Permutation_length PP) as L. rewrite seq_length in L.
  unfold cumsum. rewrite cumsum_from_nth by (rewrite map_length; lia). rewrite Qplus_0_l.
  rewrite firstn_map.
  rewrite <- (filter_prefix (ranked_above p t) perm (S pos)).
  - apply qsum_perm. apply Permutation_map. symmetry. now apply filter_perm.
  - lia.
  - intros i x Hx. assert (Hp : nth_error perm pos = Some t) by (rewrite (nth_error_nth' _ O) by lia; now rewrite Hnth).
    unfold ranked_above. destruct (Nat.lt_trichotomy i pos) as [C|[->|C]].
    + replace (i <? S pos)%nat with true by (symmetry; apply Nat.ltb_lt; lia).
      destruct (sorted_nth_error _ _ SA i pos x t C Hx Hp) as [B1 B2]. apply Qleb_true in B1.
      destruct (Qlt_le_dec (nth t p 0) (nth x p 0)) as [G|G].
      * apply Qltb_true in G. now rewrite G.
      * assert (E : nth t p 0 == nth x p 0) by lra. apply Qeq_bool_iff in E. rewrite E.
        apply Qleb_true in G. specialize (B2 G). replace (t <=? x)%nat with true by (symmetry; apply Nat.leb_le; lia). now rewrite orb_true_r.
    + rewrite Hp in Hx. injection Hx as <-. replace (pos <? S pos)%nat with true by (symmetry; apply Nat.ltb_lt; lia).
      rewrite Nat.leb_refl. assert (E : Qeq_bool (nth t p 0) (nth t p 0) = true) by (apply Qeq_bool_iff; reflexivity).
      rewrite E. apply orb_true_r.
    + replace (i <? S pos)%nat with false by (symmetry; apply Nat.ltb_ge; lia).
      destruct (sorted_nth_error _ _ SA pos i t x C Hp Hx) as [B1 B2]. apply Qleb_true in B1.
      replace (Qlt_bool (nth t p 0) (nth x p 0)) with false by (symmetry; apply Qltb_false; exact B1). cbn [orb].
      destruct (Qeq_bool (nth t p 0) (nth x p 0)) eqn:E; [|reflexivity]. cbn [andb]. apply Nat.leb_gt. apply B2.
      apply Qleb_true. apply Qeq_bool_iff in E. lra.
Qed.

Lemma qsum_filter_le f (p : nat -> Q) l : (forall j, In j l -> 0 <= p j) -> qsum (map p (filter f l)) <= qsum (map p l).
Proof.
  induction l as [|j l IH]; intros H; cbn [filter map]; [lra|].
  assert (IH' := IH (fun k Hk => H k (or_intror Hk))). pose proof (H j (or_introl eq_refl)).
  destruct (f j); cbn [map]; rewrite ?qsum_cons; lra.
Qed.
Lemma qsum_filter_mono f g (p : nat -> Q) l : (forall j, In j l -> 0 <= p j) -> (forall j, In j l -> f j = true -> g j = true) ->
  qsum (map p (filter f l)) <= qsum (map p (filter g l)).
Proof.
  induction l as [|j l IH]; intros H M; cbn [filter map]; [lra|].
  assert (IH' := IH (fun k Hk => H k (or_intror Hk)) (fun k Hk => M k (or_intror Hk))). pose proof (H j (or_introl eq_refl)).
  destruct (f j) eqn:E; [rewrite (M j (or_introl eq_refl) E); cbn [map]; rewrite ?qsum_cons; lra|].
  destruct (g j); cbn [map]; rewrite ?qsum_cons; lra.
Qed.
Lemma qsum_filter_ge f (p : nat -> Q) l t : (forall j, In j l -> 0 <= p j) -> In t l -> f t = true -> p t <= qsum (map p (filter f l)).
Proof.
  induction l as [|j l IH]; intros H Hin Ht; [destruct Hin|]. cbn [filter].
  assert (N : 0 <= qsum (map p (filter f l))).
  { apply qsum_nonneg. intros x Hx. apply in_map_iff in Hx. destruct Hx as [k [<- Hk]]. apply filter_In in Hk. apply H. right. tauto. }
  pose proof (H j (or_introl eq_refl)) as Hj. destruct Hin as [->|Hin].
  - rewrite Ht. cbn [map]. rewrite qsum_cons. lra.
  - specialize (IH (fun k Hk => H k (or_intror Hk)) Hin Ht). destruct (f j); cbn [map]; rewrite ?qsum_cons; lra.
Qed.

Lemma prob_nth p j : prob_vector p -> 0 <= nth j p 0.
Proof. intros [H _]. destruct (Nat.lt_ge_cases j (length p)) as [L|G]; [apply H; now apply nth_In|]. rewrite nth_overflow by exact G. lra. Qed.

Lemma ranked_self p t : ranked_above p t t = true.
Proof.
  unfold ranked_above. assert (E : Qeq_bool (nth t p 0) (nth t p 0) = true) by (apply Qeq_bool_iff; reflexivity).
  rewrite E, Nat.leb_refl. apply orb_true_r.
Qed.

Theorem adaptive_score_range : forall p t, prob_vector p -> (t < length p)%nat -> nth t p 0 <= adaptive_score p t <= 1.
Proof.
  intros p t PV Ht. rewrite adaptive_score_sum by exact Ht. split.
  - apply (qsum_filter_ge (ranked_above p t) (fun j => nth j p 0)); [intros; now apply prob_nth|apply in_seq; lia|apply ranked_self].
  - eapply Qle_trans; [apply qsum_filter_le; intros; now apply prob_nth|]. rewrite map_nth_self. destruct PV as [_ E]. lra.
Qed.

Lemma ranked_trans p t u j : nth u p 0 < nth t p 0 \/ (nth u p 0 == nth t p 0 /\ (u <= t)%nat) ->
  ranked_above p t j = true -> ranked_above p u j = true.
Proof.
  unfold ranked_above. rewrite !orb_true_iff, !andb_true_iff, !Qltb_true, !Qeq_bool_iff, !Nat.leb_le.
  intros [A|[A A']] [B|[B B']].
  - left. lra.
  - left. lra.
  - left. lra.
  - right. split; [lra|lia].
Qed.

Theorem adaptive_score_monotone : forall p t u, prob_vector p -> (t < length p)%nat -> (u < length p)%nat ->
  nth u p 0 < nth t p 0 -> adaptive_score p t <= adaptive_score p u.
Proof.
  intros p t u PV Ht Hu L. rewrite !adaptive_score_sum by assumption.
  apply qsum_filter_mono; [intros; now apply prob_nth|]. intros j _. apply ranked_trans. now left.
Qed.

(** the last ranked label has score 1 *)
Theorem adaptive_score_last : forall p t, prob_vector p -> (t < length p)%nat ->
  (forall j, (j < length p)%nat -> nth t p 0 < nth j p 0 \/ (nth t p 0 == nth j p 0 /\ (t <= j)%nat)) -> adaptive_score p t == 1.
Proof.
  intros p t PV Ht H. rewrite adaptive_score_sum by exact Ht.
  assert (E : filter (ranked_above p t) (seq 0 (length p)) = seq 0 (length p)).
  { apply filter_all. apply forallb_forall. intros j Hj. apply in_seq in Hj. unfold ranked_above.
    rewrite orb_true_iff, andb_true_iff, Qltb_true, Qeq_bool_iff, Nat.leb_le. apply H. lia. }
  rewrite E, map_nth_self. apply PV.
Qed.
(** a most probable label (the last one if several) has its probability as score *)
Theorem adaptive_score_first : forall p t, (t < length p)%nat ->
  (forall j, (j < length p)%nat -> j <> t -> nth j p 0 < nth t p 0 \/ (nth j p 0 == nth t p 0 /\ (j < t)%nat)) -> adaptive_score p t == nth t p 0.
Proof.
  intros p t Ht H. rewrite adaptive_score_sum by exact Ht.
  assert (E : filter (ranked_above p t) (seq 0 (length p)) = [t]).
  { assert (G : forall n k, (forall j, (k <= j < k + n)%nat -> ranked_above p t j = (j =? t)%nat) ->
       filter (ranked_above p t) (seq k n) = if (k <=? t)%nat && (t <? k + n)%nat then [t] else []).
    { induction n as [|n IH]; intros k Hk; cbn [seq filter].
      - destruct (Nat.leb_spec k t), (Nat.ltb_spec t (k + 0)); cbn; auto; lia.
      - rewrite (Hk k) by lia. rewrite IH by (intros j Hj; apply Hk; lia).
        destruct (Nat.eqb_spec k t) as [->|N].
        + replace (S t <=? t)%nat with false by (symmetry; apply Nat.leb_gt; lia). cbn [andb].
          rewrite Nat.leb_refl. replace (t <? t + S n)%nat with true by (symmetry; apply Nat.ltb_lt; lia). reflexivity.
        + destruct (Nat.leb_spec (S k) t), (Nat.ltb_spec t (S k + n)), (Nat.leb_spec k t), (Nat.ltb_spec t (k + S n)); cbn; auto; lia. }
    rewrite G.
    - cbn [Nat.leb andb plus]. replace (t <? length p)%nat with true by (symmetry; now apply Nat.ltb_lt). reflexivity.
    - intros j Hj. destruct (Nat.eqb_spec j t) as [->|N]; [apply ranked_self|]. unfold ranked_above.
      destruct (H j ltac:(lia) N) as [A|[A B]].
      + replace (Qlt_bool (nth t p 0) (nth j p 0)) with false by (symmetry; apply Qltb_false; lra).
        destruct (Qeq_bool (nth t p 0) (nth j p 0)) eqn:E; [apply Qeq_bool_iff in E; lra|reflexivity].
      + replace (Qlt_bool (nth t p 0) (nth j p 0)) with false by (symmetry; apply Qltb_false; lra).
        replace (t <=? j)%nat with false by (symmetry; apply Nat.leb_gt; lia). now rewrite andb_false_r. }
  rewrite E. cbn [map]. rewrite qsum_cons. unfold qsum. cbn. lra.
Qed.

Lemma prob_le_1 p t : prob_vector p -> nth t p 0 <= 1.
Proof.
  intros PV. destruct (Nat.lt_ge_cases t (length p)) as [L|G].
  - destruct (adaptive_score_range p t PV L). lra.
  - rewrite nth_overflow by exact G. lra.
Qed.
Theorem simple_score_range : forall p t u, prob_vector p ->
  0 <= simple_score p t <= 1 /\ (simple_score p t <= simple_score p u <-> nth u p 0 <= nth t p 0).
Proof.
  intros p t u PV. unfold simple_score. pose proof (prob_le_1 p t PV). pose proof (prob_nth p t PV). split; [lra|split; lra].
Qed.

(** the least probable label is in every adaptive set *)
Theorem least_likely_included : forall vp vy tp e sets i p t,
  split_conformal_set adaptive_score vp vy tp e = sets -> 0 <= e < 1 ->
  (forall q, In q vp -> prob_vector q) -> length vp = length vy ->
  (forall j q y, nth_error vp j = Some q -> nth_error vy j = Some y -> (y < length q)%nat) ->
  nth_error tp i = Some p -> prob_vector p -> n_classes vp = length p -> (t < length p)%nat ->
  (forall j, (j < length p)%nat -> nth t p 0 < nth j p 0 \/ (nth t p 0 == nth j p 0 /\ (t <= j)%nat)) ->
  exists s, nth_error sets i = Some s /\ In t s.
Proof.
  intros vp vy tp e sets i p t Es He PVv Lv Hy Hi PV NC Ht Hlast. subst sets. unfold split_conformal_set. rewrite NC.
  set (vs := zip_with adaptive_score vp vy). set (ts := class_scores adaptive_score (length p) tp).
  destruct (sets_spec vs ts e) as [_ S].
  destruct (S i (map (adaptive_score p) (seq 0 (length p)))) as (s & E & _ & M).
  { unfold ts, class_scores. rewrite nth_error_map, Hi. reflexivity. }
  exists s. split; [exact E|]. apply M. exists (adaptive_score p t). split.
  - rewrite nth_error_map. rewrite (nth_error_nth' _ O) by (now rewrite seq_length). now rewrite seq_nth.
  - assert (Z0 : n_above (adaptive_score p t) vs = O).
    { destruct (n_above (adaptive_score p t) vs) as [|k] eqn:X; [reflexivity|]. exfalso.
      assert (P : (0 < n_above (adaptive_score p t) vs)%nat) by lia. apply count_pos in P. destruct P as (v & Hv & Gt). apply Qltb_true in Gt.
      rewrite (adaptive_score_last p t PV Ht Hlast) in Gt. unfold vs, zip_with in Hv. apply in_map_iff in Hv. destruct Hv as [[q y] [<- Hc]].
      cbn [fst snd] in Gt. apply In_nth_error in Hc. destruct Hc as [j Hj].
      assert (Hq : nth_error vp j = Some q /\ nth_error vy j = Some y).
      { clear - Hj. revert vy j Hj. induction vp as [|q' vp IH]; intros [|y' vy] [|j] Hj; cbn in *; try discriminate.
        - injection Hj as <- <-. auto.
        - now apply IH. }
      destruct Hq as [Hq Hyj]. pose proof (adaptive_score_range q y (PVv q (nth_error_In _ _ Hq)) (Hy j q y Hq Hyj)). lra. }
    rewrite Z0. change (inject_Z (Z.of_nat 0)) with 0.
    assert (0 < inject_Z (Z.of_nat (length vs + 1))) by (rewrite <- (Zlt_Qlt 0); lia).
    assert (0 < 1 - e) by lra. now apply Qmult_lt_0_compat.
Qed.

(** ... while the most probable one may be left out *)
Theorem most_likely_excluded : exists vp vy tp e p t s,
  0 < e < 1 /\ (forall q, In q (vp ++ tp) -> prob_vector q) /\ tp = [p] /\
  split_conformal_set adaptive_score vp vy tp e = [s] /\
  (forall j, nth j p 0 <= nth t p 0) /\ ~ In t s /\ exists u, In u s /\ nth u p 0 < nth t p 0.
Proof.
  exists [[9#10; 1#10]; [9#10; 1#10]; [9#10; 1#10]], [0%nat; 0%nat; 0%nat], [[7#10; 3#10]], (1#2), [7#10; 3#10], 0%nat, [1%nat].
  split; [lra|]. split.
  { intros q Hq. cbn in Hq. destruct Hq as [<-|[<-|[<-|[<-|[]]]]]; (split; [intros x Hx; cbn in Hx; destruct Hx as [<-|[<-|[]]]; lra|vm_compute; reflexivity]). }
  split; [reflexivity|]. split; [vm_compute; reflexivity|]. split.
  { intros [|[|j]]; cbn; try lra. destruct j; lra. }
  split; [intros [X|[]]; discriminate|]. exists 1%nat. split; [now left|]. cbn. lra.
Qed.

(** ---- CV+: one set per fold and test point ---- *)
Theorem cvplus_length : forall score vp vy tp e, length vp = length vy -> length vp = length tp ->
  length (cvplus_conformal_set score vp vy tp e) = length (List.concat tp).
Proof.
  intros score vp vy tp e L1 L2. unfold cvplus_conformal_set.
  match goal with |- length (get_conformal_sets ?a ?b ?c) = _ => rewrite (proj1 (sets_spec a b c)) end.
  generalize (n_classes (hd [] vp)). intros k.
  assert (L3 : length (combine vp vy) = length tp) by (rewrite combine_length; lia).
  generalize dependent (combine vp vy). intros c L3. clear - L3. revert tp L3. induction c as [|x c IH]; intros [|t tp] L3; cbn in *; try discriminate; [reflexivity|].
  rewrite !app_length. unfold class_scores at 1. rewrite map_length. f_equal. apply IH. congruence.
Qed.
Theorem cvplus_not_per_input : exists vp vy tp e, length vp = 2%nat /\ length vy = 2%nat /\ map (@length _) tp = [1; 1]%nat /\
  length (cvplus_conformal_set simple_score vp vy tp e) = 2%nat.
Proof. exists [[[1#2;1#2]];[[1#3;2#3]]], [[0%nat];[1%nat]], [[[1#2;1#2]];[[1#3;2#3]]], (1#10). repeat split. Qed.

Lemma flat_zip (score : list Q -> nat -> Q) : forall vp vy (tp : list (list (list Q))), length vp = length tp -> Forall2 (fun ps ys => length ps = length ys) vp vy ->
  flat_map (fun f => zip_with score (fst (fst f)) (snd (fst f))) (combine (combine vp vy) tp) = zip_with score (List.concat vp) (List.concat vy).
Proof.
  intros vp vy tp L F. revert tp L. induction F as [|ps ys vp vy E F IH]; intros [|t tp] L; cbn in L; try discriminate; [reflexivity|].
  cbn [combine flat_map fst snd List.concat]. rewrite IH by congruence. unfold zip_with. rewrite <- map_app. f_equal. clear -E.
  revert ys E. induction ps as [|p ps IH]; intros [|y ys] E; cbn in *; try discriminate; [reflexivity|]. f_equal. apply IH. congruence.
Qed.
Lemma flat_scores (score : list Q -> nat -> Q) k : forall (c : list (list (list Q) * list nat)) tp, length c = length tp ->
  flat_map (fun f => class_scores score k (snd f)) (combine c tp) = class_scores score k (List.concat tp).
Proof.
  induction c as [|x c IH]; intros [|t tp] L; cbn in L; try discriminate; [reflexivity|]. cbn [combine flat_map snd List.concat]. rewrite IH by congruence.
  unfold class_scores. now rewrite map_app.
Qed.
Lemma class_sets score k vs tp e i p : nth_error tp i = Some p ->
  exists s, nth_error (get_conformal_sets vs (class_scores score k tp) e) i = Some s /\
    forall c, In c s <-> (c < k)%nat /\ inject_Z (Z.of_nat (n_above (score p c) vs)) < (1 - e) * inject_Z (Z.of_nat (length vs + 1)).
Proof.
  intros H. destruct (sets_spec vs (class_scores score k tp) e) as [_ S]. destruct (S i (map (score p) (seq 0 k))) as (s & Hs & _ & In_s).
  { unfold class_scores. now rewrite nth_error_map, H. }
  exists s. split; [exact Hs|]. intros c. rewrite In_s. split.
  - intros (x & Hx & L). rewrite nth_error_map in Hx. destruct (nth_error (seq 0 k) c) as [j|] eqn:E; [|discriminate]. cbn in Hx. injection Hx as <-.
    assert (c < k)%nat. { rewrite <- (seq_length k 0). apply nth_error_Some. congruence. }
    apply (nth_error_nth _ _ O) in E. rewrite seq_nth in E by assumption. cbn in E. subst j. auto.
  - intros [Hc L]. exists (score p c). split; [|exact L]. rewrite nth_error_map. rewrite (nth_error_nth' _ O) by (rewrite seq_length; exact Hc). now rewrite seq_nth.
Qed.
Theorem cvplus_sets : forall score vp vy tp e i p, length vp = length tp -> Forall2 (fun ps ys => length ps = length ys) vp vy ->
  nth_error (List.concat tp) i = Some p ->
  let scores := zip_with score (List.concat vp) (List.concat vy) in
  exists s, nth_error (cvplus_conformal_set score vp vy tp e) i = Some s /\
    forall c, In c s <-> (c < n_classes (hd [] vp))%nat /\ inject_Z (Z.of_nat (n_above (score p c) scores)) < (1 - e) * inject_Z (Z.of_nat (length scores + 1)).
Proof.
  intros score vp vy tp e i p L F H scores. unfold cvplus_conformal_set. cbv zeta. rewrite flat_zip by assumption.
  assert (Lv : length vp = length vy) by (clear -F; induction F; cbn; congruence).
  rewrite flat_scores by (rewrite combine_length; lia). now apply class_sets.
Qed.
Theorem split_sets : forall score vp vy tp e i p, nth_error tp i = Some p ->
  let scores := zip_with score vp vy in
  exists s, nth_error (split_conformal_set score vp vy tp e) i = Some s /\
    forall c, In c s <-> (c < n_classes vp)%nat /\ inject_Z (Z.of_nat (n_above (score p c) scores)) < (1 - e) * inject_Z (Z.of_nat (length scores + 1)).
Proof. intros score vp vy tp e i p H scores. now apply class_sets. Qed.

(** ---- the adaptive classifier ---- *)
Theorem class_update_moves : forall s target e t g e', 0 <= e <= 1 -> 0 <= t <= 1 ->
  class_update_error s target e t g None None = Ok e' ->
  0 <= e' <= 1 /\ (In target s -> e <= e') /\ (~ In target s -> e' <= e) /\ Qabs (e' - e) <= g.
Proof.
  intros s target e t g e' He Ht H. unfold class_update_error in H.
  assert (I : set_is_in target s = true <-> In target s).
  { unfold set_is_in. rewrite existsb_exists. split.
    - intros (x & Hx & E). apply Nat.eqb_eq in E. now subst.
    - intros Hx. exists target. split; [exact Hx|apply Nat.eqb_refl]. }
  pose proof (update_range _ _ _ _ _ _ _ H) as R. destruct (update_direction _ _ _ _ _ He Ht H) as [M A].
  split; [exact R|]. destruct (set_is_in target s).
  - split; [intros _; exact M|]. split; [|exact A]. intros N. exfalso. apply N. now apply I.
  - split; [|split; [intros _; exact M|exact A]]. intros N. apply I in N. discriminate.
Qed.
