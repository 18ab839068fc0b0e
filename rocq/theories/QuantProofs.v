From Coq Require Import List Arith ZArith QArith Qround Qminmax Qabs Bool Lia Lqa Permutation Sorted.
From Verif Require Import QuantModel QuantSpec.
Import ListNotations.
Open Scope Q_scope.

(** booleans *)
Lemma Qleb_true x y : Qle_bool x y = true <-> x <= y.
Proof. apply Qle_bool_iff. Qed.
Lemma Qleb_false x y : Qle_bool x y = false <-> y < x.
Proof.
  split; intros H.
  - apply Qnot_le_lt. intros L. apply Qle_bool_iff in L. congruence.
  - destruct (Qle_bool x y) eqn:E; [|reflexivity]. apply Qle_bool_iff in E. exfalso. lra.
Qed.
Lemma Qltb_true x y : Qlt_bool x y = true <-> x < y.
Proof. unfold Qlt_bool. rewrite negb_true_iff. apply Qleb_false. Qed.
Lemma Qltb_false x y : Qlt_bool x y = false <-> y <= x.
Proof. unfold Qlt_bool. rewrite negb_false_iff. apply Qleb_true. Qed.
Ltac qleb x y := let E := fresh "E" in destruct (Qle_bool x y) eqn:E; [apply Qleb_true in E|apply Qleb_false in E].

(** counting *)
Lemma count_nil {A} (f : A -> bool) : count f [] = 0%nat. Proof. reflexivity. Qed.
Lemma count_cons {A} (f : A -> bool) x l : count f (x :: l) = ((if f x then 1 else 0) + count f l)%nat.
Proof. unfold count. simpl. destruct (f x); reflexivity. Qed.
Lemma count_app {A} (f : A -> bool) l m : count f (l ++ m) = (count f l + count f m)%nat.
Proof. unfold count. now rewrite filter_app, app_length. Qed.
Lemma count_le_length {A} (f : A -> bool) l : (count f l <= length l)%nat.
Proof. induction l as [|x l IH]; [unfold count; simpl; lia|]. rewrite count_cons. simpl. destruct (f x); lia. Qed.
Lemma count_mono {A} (f g : A -> bool) l : (forall x, In x l -> f x = true -> g x = true) -> (count f l <= count g l)%nat.
Proof.
  induction l as [|x l IH]; intros H; [unfold count; simpl; lia|]. rewrite !count_cons.
  assert (I : (count f l <= count g l)%nat) by (apply IH; intros y Hy; apply H; now right).
  destruct (f x) eqn:E; [rewrite (H x (or_introl eq_refl) E); lia|destruct (g x); lia].
Qed.
Lemma count_ext {A} (f g : A -> bool) l : (forall x, In x l -> f x = g x) -> count f l = count g l.
Proof.
  intros H. apply Nat.le_antisymm; apply count_mono; intros x Hx; rewrite (H x Hx); auto.
Qed.
Lemma count_split {A} (f : A -> bool) l : (count f l + count (fun x => negb (f x)) l)%nat = length l.
Proof. induction l as [|x l IH]; [reflexivity|]. rewrite !count_cons. simpl. destruct (f x); simpl; lia. Qed.
Lemma count_disjoint {A} (f g : A -> bool) l : (forall x, In x l -> f x = true -> g x = true -> False) ->
  (count f l + count g l <= length l)%nat.
Proof.
  induction l as [|x l IH]; intros H; [unfold count; simpl; lia|]. rewrite !count_cons. simpl.
  assert (I : (count f l + count g l <= length l)%nat) by (apply IH; intros y Hy; apply H; now right).
  destruct (f x) eqn:E1, (g x) eqn:E2; try lia. exfalso. apply (H x); auto. now left.
Qed.
Lemma count_perm {A} (f : A -> bool) l m : Permutation l m -> count f l = count f m.
Proof. induction 1; rewrite ?count_cons; try lia; congruence. Qed.
Lemma count_map {A B} (f : B -> bool) (h : A -> B) l : count f (map h l) = count (fun x => f (h x)) l.
Proof. induction l as [|x l IH]; [reflexivity|]. simpl map. rewrite !count_cons, IH. reflexivity. Qed.
Lemma count_pos {A} (f : A -> bool) l : (0 < count f l)%nat <-> exists x, In x l /\ f x = true.
Proof.
  unfold count. split.
  - destruct (filter f l) as [|x r] eqn:E; simpl; [lia|]. intros _. exists x. apply filter_In. rewrite E. now left.
  - intros (x & H). apply filter_In in H. destruct (filter f l); [contradiction|simpl; lia].
Qed.
Lemma count_all {A} (f : A -> bool) l : (forall x, In x l -> f x = true) -> count f l = length l.
Proof.
  induction l as [|x l IH]; intros H; [reflexivity|]. rewrite count_cons, (H x (or_introl eq_refl)). simpl.
  rewrite IH; [reflexivity|]. intros y Hy. apply H. now right.
Qed.

(** sorting *)
Lemma qinsert_perm x l : Permutation (x :: l) (qinsert x l).
Proof.
  induction l as [|y l IH]; simpl; [reflexivity|]. destruct (Qle_bool x y); [reflexivity|].
  transitivity (y :: x :: l); [apply perm_swap|now apply perm_skip].
Qed.
Lemma qsort_perm l : Permutation l (qsort l).
Proof. induction l as [|x l IH]; simpl; [constructor|]. rewrite IH at 1. apply qinsert_perm. Qed.
Lemma qsort_length l : length (qsort l) = length l.
Proof. symmetry. apply Permutation_length, qsort_perm. Qed.

Definition ascending := StronglySorted Qle.
Lemma qinsert_sorted x l : ascending l -> ascending (qinsert x l).
Proof.
  unfold ascending. induction 1 as [|y l S IH F]; simpl; [repeat constructor|].
  qleb x y.
  - constructor; [constructor; assumption|]. constructor; [assumption|].
    eapply Forall_impl; [|exact F]. intros; simpl in *; lra.
  - constructor; [exact IH|]. rewrite <- (qinsert_perm x l). constructor; [lra|exact F].
Qed.
Lemma qsort_sorted l : ascending (qsort l).
Proof. unfold ascending. induction l as [|x l IH]; simpl; [constructor|]. now apply qinsert_sorted. Qed.

Lemma sorted_nth_le l i j : ascending l -> (i <= j < length l)%nat -> nth i l 0 <= nth j l 0.
Proof.
  unfold ascending. intros S. revert i j. induction S as [|x l S IH F]; intros i j H; [simpl in H; lia|].
  destruct i as [|i], j as [|j]; simpl in *; try lia; try lra.
  - rewrite Forall_forall in F. apply F, nth_In. lia.
  - apply IH. lia.
Qed.

(** the order statistic as a count *)
Lemma sorted_count l k v : ascending l -> (k < length l)%nat -> (nth k l 0 <= v <-> (k < n_le v l)%nat).
Proof.
  unfold ascending, n_le. intros S. revert k. induction S as [|x l S IH F]; intros k H; [simpl in H; lia|].
  rewrite count_cons. destruct k as [|k]; simpl nth.
  - qleb x v; [split; [lia|auto]|].
    assert (Z : count (fun y => Qle_bool y v) l = 0%nat).
    { destruct (count (fun y => Qle_bool y v) l) eqn:C; [reflexivity|].
      assert (P : (0 < count (fun y => Qle_bool y v) l)%nat) by lia. apply count_pos in P.
      destruct P as (y & Hy & Ly). apply Qleb_true in Ly. rewrite Forall_forall in F. specialize (F y Hy). lra. }
    rewrite Z. split; [lra|lia].
  - simpl in H. rewrite IH by lia. qleb x v; [lia|].
    assert (Z : count (fun y => Qle_bool y v) l = 0%nat).
    { destruct (count (fun y => Qle_bool y v) l) eqn:C; [reflexivity|].
      assert (P : (0 < count (fun y => Qle_bool y v) l)%nat) by lia. apply count_pos in P.
      destruct P as (y & Hy & Ly). apply Qleb_true in Ly. rewrite Forall_forall in F. specialize (F y Hy). lra. }
    rewrite Z. lia.
Qed.

Lemma order_stat l k v : (k < length l)%nat -> (nth k (qsort l) 0 <= v <-> (k < n_le v l)%nat).
Proof.
  intros H. rewrite sorted_count; [|apply qsort_sorted|now rewrite qsort_length].
  unfold n_le. rewrite (count_perm _ _ _ (qsort_perm l)). reflexivity.
Qed.

Lemma order_stat_gt l k v : (k < length l)%nat -> (v < nth k (qsort l) 0 <-> (n_le v l <= k)%nat).
Proof.
  intros H. split; intros X.
  - destruct (le_lt_dec (n_le v l) k) as [L|L]; [exact L|]. apply order_stat in L; [lra|assumption].
  - apply Qnot_le_lt. intros L. apply order_stat in L; [lia|assumption].
Qed.

Lemma n_lt_ge v l : (n_lt v l + n_ge v l)%nat = length l.
Proof.
  unfold n_lt, n_ge. rewrite <- (count_split (fun x => Qlt_bool x v) l). f_equal. apply count_ext.
  intros x _. unfold Qlt_bool. now rewrite negb_involutive.
Qed.

Lemma order_stat_lt l k v : (k < length l)%nat -> (nth k (qsort l) 0 < v <-> (k < n_lt v l)%nat).
Proof.
  intros H. pose proof (qsort_perm l) as P.
  assert (E : n_lt v l = n_lt v (qsort l)) by (apply count_perm, P). rewrite E.
  assert (S := qsort_sorted l). assert (L : (k < length (qsort l))%nat) by now rewrite qsort_length.
  clear -S L. revert S k L. generalize (qsort l). clear. intros l. unfold ascending, n_lt.
  induction 1 as [|x l S IH F]; intros k L; [simpl in L; lia|]. rewrite count_cons.
  assert (Z : v <= x -> count (fun y => Qlt_bool y v) l = 0%nat).
  { intros Hv. destruct (count (fun y => Qlt_bool y v) l) eqn:C; [reflexivity|].
    assert (P : (0 < count (fun y => Qlt_bool y v) l)%nat) by lia. apply count_pos in P.
    destruct P as (y & Hy & Ly). apply Qltb_true in Ly. rewrite Forall_forall in F. specialize (F y Hy). lra. }
  destruct (Qlt_bool x v) eqn:X; [apply Qltb_true in X|apply Qltb_false in X; rewrite (Z X)];
    destruct k as [|k]; simpl nth; simpl in L.
  - split; [lia|auto].
  - rewrite IH by lia. lia.
  - split; [lra|lia].
  - rewrite IH by lia. rewrite (Z X). lia.
Qed.

(** every element of a list is some order statistic *)
Lemma clamp_lt n i : (0 < n)%nat -> (clamp_index n i < n)%nat.
Proof. unfold clamp_index. lia. Qed.
Lemma clamp_mono n i j : (i <= j)%Z -> (clamp_index n i <= clamp_index n j)%nat.
Proof. unfold clamp_index. lia. Qed.

Lemma floor_frac x : 0 <= x - inject_Z (Qfloor x) < 1.
Proof. pose proof (Qfloor_le x). pose proof (Qlt_floor x). rewrite inject_Z_plus in *. unfold inject_Z at 2 in H0. lra. Qed.

Lemma floor_ceiling x : (Qfloor x <= Qceiling x)%Z.
Proof. rewrite Zle_Qle. pose proof (Qfloor_le x). pose proof (Qle_ceiling x). lra. Qed.

Lemma mix a b w : 0 <= w <= 1 -> a <= b -> a <= a * (1 - w) + b * w <= b.
Proof.
  intros W L. split.
  - setoid_replace (a * (1 - w) + b * w) with (a + (b - a) * w) by ring.
    assert (0 <= (b - a) * w) by (apply Qmult_le_0_compat; lra). lra.
  - setoid_replace (a * (1 - w) + b * w) with (b - (b - a) * (1 - w)) by ring.
    assert (0 <= (b - a) * (1 - w)) by (apply Qmult_le_0_compat; lra). lra.
Qed.

Definition qpos (l : list Q) (q : Q) : Q := q * (inject_Z (Z.of_nat (length l)) - 1).

(** the quantile lies between the order statistics around its position *)
Lemma quantile_between l q : l <> [] ->
  nth (clamp_index (length l) (Qfloor (qpos l q))) (qsort l) 0 <= quantile l q
  <= nth (clamp_index (length l) (Qceiling (qpos l q))) (qsort l) 0.
Proof.
  intros N. assert (L : (0 < length l)%nat) by (destruct l; [congruence|simpl; lia]).
  unfold quantile. fold (qpos l q). apply mix.
  - pose proof (floor_frac (qpos l q)). lra.
  - apply sorted_nth_le; [apply qsort_sorted|]. rewrite qsort_length. split.
    + apply clamp_mono, floor_ceiling.
    + now apply clamp_lt.
Qed.

Lemma floor_ge (z : Z) x : inject_Z z <= x -> (z <= Qfloor x)%Z.
Proof.
  intros H. rewrite <- (Qfloor_Z z). now apply Qfloor_resp_le.
Qed.
Lemma ceiling_le (z : Z) x : x <= inject_Z z -> (Qceiling x <= z)%Z.
Proof.
  intros H. rewrite <- (Qceiling_Z z). now apply Qceiling_resp_le.
Qed.

Lemma nat_S_Q k : inject_Z (Z.of_nat (S k)) == inject_Z (Z.of_nat k) + 1.
Proof. rewrite Nat2Z.inj_succ. unfold Z.succ. now rewrite inject_Z_plus. Qed.

Lemma quantile_n_le l q (k : nat) : (k <= length l)%nat -> inject_Z (Z.of_nat k) <= qpos l q + 1 ->
  (k <= n_le (quantile l q) l)%nat.
Proof.
  intros K P. destruct k as [|k]; [lia|].
  assert (N : l <> []) by (intros ->; simpl in K; lia).
  pose proof (quantile_between l q N) as (H & _).
  assert (F : (Z.of_nat k <= Qfloor (qpos l q))%Z) by (apply floor_ge; rewrite nat_S_Q in P; lra).
  assert (H2 : nth k (qsort l) 0 <= quantile l q).
  { eapply Qle_trans; [|exact H]. apply sorted_nth_le; [apply qsort_sorted|]. rewrite qsort_length.
    unfold clamp_index. lia. }
  apply order_stat in H2; lia.
Qed.

(** at least k elements are at least the quantile when n-k >= position *)
Lemma quantile_n_ge l q (k : nat) : (k <= length l)%nat -> qpos l q + inject_Z (Z.of_nat k) <= qlen l ->
  (k <= n_ge (quantile l q) l)%nat.
Proof.
  intros K P. destruct k as [|k]; [lia|].
  assert (N : l <> []) by (intros ->; simpl in K; lia).
  pose proof (quantile_between l q N) as (_ & H).
  assert (F : (Qceiling (qpos l q) <= Z.of_nat (length l - S k))%Z).
  { apply ceiling_le. rewrite Nat2Z.inj_sub by assumption. unfold Z.sub. rewrite inject_Z_plus, inject_Z_opp.
    unfold qlen in P. lra. }
  assert (H2 : quantile l q <= nth (length l - S k) (qsort l) 0).
  { eapply Qle_trans; [exact H|]. apply sorted_nth_le; [apply qsort_sorted|]. rewrite qsort_length.
    unfold clamp_index. lia. }
  pose proof (n_lt_ge (quantile l q) l) as E.
  destruct (le_lt_dec (S k) (n_ge (quantile l q) l)) as [G|G]; [exact G|].
  assert (X : (length l - S k < n_lt (quantile l q) l)%nat) by lia. apply order_stat_lt in X; [lra|lia].
Qed.

(** converse bounds: strictly below / above *)
Lemma quantile_n_lt l q (k : nat) : (k < length l)%nat -> qpos l q <= inject_Z (Z.of_nat k) ->
  (n_lt (quantile l q) l <= k)%nat.
Proof.
  intros K P. pose proof (quantile_n_ge l q (length l - k) ltac:(lia)) as H. pose proof (n_lt_ge (quantile l q) l).
  assert (length l - k <= n_ge (quantile l q) l)%nat; [|lia]. apply H.
  rewrite Nat2Z.inj_sub by lia. unfold Z.sub, qlen. rewrite inject_Z_plus, inject_Z_opp. lra.
Qed.

(** quantiles depend monotonically on the level and on the data *)
Lemma quantile_eq l q : quantile l q ==
  nth (clamp_index (length l) (Qfloor (qpos l q))) (qsort l) 0 * (1 - (qpos l q - inject_Z (Qfloor (qpos l q)))) +
  nth (clamp_index (length l) (Qceiling (qpos l q))) (qsort l) 0 * (qpos l q - inject_Z (Qfloor (qpos l q))).
Proof. reflexivity. Qed.

Lemma quantile_mono_q l p q : l <> [] -> p <= q -> quantile l p <= quantile l q.
Proof.
  intros N PQ. assert (L : (0 < length l)%nat) by (destruct l; [congruence|simpl; lia]).
  assert (XY : qpos l p <= qpos l q).
  { unfold qpos. apply Qmult_le_compat_r; [exact PQ|].
    assert (inject_Z 1 <= inject_Z (Z.of_nat (length l))) by (rewrite <- Zle_Qle; lia).
    unfold inject_Z at 1 in H. lra. }
  destruct (Z_le_gt_dec (Qceiling (qpos l p)) (Qfloor (qpos l q))) as [C|C].
  - pose proof (quantile_between l p N) as (_ & H1). pose proof (quantile_between l q N) as (H2 & _).
    eapply Qle_trans; [exact H1|]. eapply Qle_trans; [|exact H2].
    apply sorted_nth_le; [apply qsort_sorted|]. rewrite qsort_length. split; [now apply clamp_mono|now apply clamp_lt].
  - (* same cell *)
    rewrite !quantile_eq. set (x := qpos l p) in *. set (y := qpos l q) in *.
    assert (F : Qfloor x = Qfloor y).
    { apply Z.le_antisymm; [now apply Qfloor_resp_le|].
      assert (Qceiling x <= Qfloor x + 1)%Z.
      { apply ceiling_le. rewrite inject_Z_plus. pose proof (floor_frac x). unfold inject_Z at 2. lra. }
      lia. }
    assert (CE : Qceiling x = Qceiling y).
    { apply Z.le_antisymm; [now apply Qceiling_resp_le|].
      assert (Qceiling y <= Qfloor y + 1)%Z.
      { apply ceiling_le. rewrite inject_Z_plus. pose proof (floor_frac y). unfold inject_Z at 2. lra. }
      lia. }
    rewrite F, CE. set (a := nth _ (qsort l) 0). set (b := nth (clamp_index _ (Qceiling y)) (qsort l) 0).
    assert (AB : a <= b).
    { apply sorted_nth_le; [apply qsort_sorted|]. rewrite qsort_length. split; [apply clamp_mono, floor_ceiling|now apply clamp_lt]. }
    set (f := inject_Z (Qfloor y)).
    assert (0 <= (b - a) * (y - x)) by (apply Qmult_le_0_compat; lra).
    assert (E : a * (1 - (y - f)) + b * (y - f) == a * (1 - (x - f)) + b * (x - f) + (b - a) * (y - x)) by ring.
    rewrite E. lra.
Qed.

Lemma order_stat_mono l m k : length l = length m -> (forall v, (n_le v m <= n_le v l)%nat) -> (k < length l)%nat ->
  nth k (qsort l) 0 <= nth k (qsort m) 0.
Proof.
  intros L H K. apply order_stat; [assumption|]. eapply Nat.lt_le_trans; [|apply H].
  apply order_stat; [lia|apply Qle_refl].
Qed.

Lemma quantile_mono_data l m q : length l = length m -> (forall v, (n_le v m <= n_le v l)%nat) -> l <> [] ->
  quantile l q <= quantile m q.
Proof.
  intros L H N. assert (P : (0 < length l)%nat) by (destruct l; [congruence|simpl; lia]).
  rewrite !quantile_eq. unfold qpos. rewrite <- L. fold (qpos l q).
  pose proof (floor_frac (qpos l q)) as W. set (w := qpos l q - inject_Z (Qfloor (qpos l q))) in *.
  assert (A : nth (clamp_index (length l) (Qfloor (qpos l q))) (qsort l) 0 <= nth (clamp_index (length l) (Qfloor (qpos l q))) (qsort m) 0)
    by (apply order_stat_mono; auto; now apply clamp_lt).
  assert (B : nth (clamp_index (length l) (Qceiling (qpos l q))) (qsort l) 0 <= nth (clamp_index (length l) (Qceiling (qpos l q))) (qsort m) 0)
    by (apply order_stat_mono; auto; now apply clamp_lt).
  apply Qplus_le_compat; apply Qmult_le_compat_r; auto; lra.
Qed.

Lemma n_le_pointwise l m v : Forall2 Qle l m -> (n_le v m <= n_le v l)%nat.
Proof.
  unfold n_le. induction 1 as [|x y l m H F IH]; [unfold count; simpl; lia|]. rewrite !count_cons.
  qleb y v; qleb x v; try lia. exfalso; lra.
Qed.

Lemma Forall2_len {A B} (R : A -> B -> Prop) l m : Forall2 R l m -> length l = length m.
Proof. induction 1; simpl; auto. Qed.

Lemma quantile_pointwise l m q : Forall2 Qle l m -> l <> [] -> quantile l q <= quantile m q.
Proof.
  intros F N. apply quantile_mono_data; [eapply Forall2_len; exact F|intros v; now apply n_le_pointwise|assumption].
Qed.

Lemma quantile_perm l m q : Permutation l m -> quantile l q == quantile m q.
Proof.
  intros P. destruct l as [|x l]; [apply Permutation_nil in P; subst; reflexivity|].
  apply Qle_antisym; apply quantile_mono_data; try discriminate.
  - now apply Permutation_length.
  - intros v. unfold n_le. now rewrite (count_perm _ _ _ P).
  - symmetry. now apply Permutation_length.
  - intros v. unfold n_le. now rewrite (count_perm _ _ _ P).
  - intros ->. symmetry in P. apply Permutation_nil in P. discriminate.
Qed.

Lemma quantile_Qeq l m q : Forall2 Qeq l m -> quantile l q == quantile m q.
Proof.
  intros F. destruct F as [|x y l m E F]; [reflexivity|].
  apply Qle_antisym; apply quantile_pointwise; try discriminate.
  - constructor; [lra|]. induction F; constructor; auto. lra.
  - constructor; [lra|]. induction F; constructor; auto. lra.
Qed.

Lemma qpos_level l p q : p == q -> qpos l p == qpos l q.
Proof. intros E. unfold qpos. now rewrite E. Qed.

Lemma quantile_level l p q : p == q -> quantile l p == quantile l q.
Proof.
  intros E. destruct l as [|x l].
  { unfold quantile, qsort. simpl fold_right. rewrite !nth_overflow by (simpl; lia). ring. }
  apply Qle_antisym; apply quantile_mono_q; try discriminate; lra.
Qed.

(** shift and negation *)
Lemma n_le_shift c l v : n_le v (map (fun x => x + c) l) = n_le (v - c) l.
Proof.
  unfold n_le. rewrite count_map. apply count_ext. intros x _.
  qleb (x + c) v; qleb x (v - c); auto; exfalso; lra.
Qed.

Lemma quantile_bounds l q : l <> [] -> exists a b, In a l /\ In b l /\ a <= quantile l q <= b.
Proof.
  intros N. assert (P : (0 < length l)%nat) by (destruct l; [congruence|simpl; lia]).
  pose proof (quantile_between l q N) as H.
  exists (nth (clamp_index (length l) (Qfloor (qpos l q))) (qsort l) 0), (nth (clamp_index (length l) (Qceiling (qpos l q))) (qsort l) 0).
  assert (I : forall k, (k < length l)%nat -> In (nth k (qsort l) 0) l).
  { intros k K. eapply Permutation_in; [symmetry; apply qsort_perm|]. apply nth_In. now rewrite qsort_length. }
  split; [apply I, clamp_lt, P|]. split; [apply I, clamp_lt, P|]. exact H.
Qed.

Lemma quantile_in_range l q lo hi : l <> [] -> (forall x, In x l -> lo <= x <= hi) -> lo <= quantile l q <= hi.
Proof.
  intros N H. destruct (quantile_bounds l q N) as (a & b & Ha & Hb & L).
  apply H in Ha. apply H in Hb. lra.
Qed.

(** level at least one gives the maximum *)
Lemma quantile_one l q : l <> [] -> 1 <= q -> forall x, In x l -> x <= quantile l q.
Proof.
  intros N Q x Hx. assert (P : (0 < length l)%nat) by (destruct l; [congruence|simpl; lia]).
  assert (K : (length l <= n_le (quantile l q) l)%nat).
  { apply quantile_n_le; [lia|]. unfold qpos.
    assert (inject_Z 1 <= inject_Z (Z.of_nat (length l))) by (rewrite <- Zle_Qle; lia).
    change (inject_Z 1) with 1 in H. set (m := inject_Z (Z.of_nat (length l))) in *.
    assert (0 <= (q - 1) * (m - 1)) by (apply Qmult_le_0_compat; lra).
    setoid_replace (q * (m - 1)) with (m - 1 + (q - 1) * (m - 1)) by ring. lra. }
  qleb x (quantile l q); [assumption|exfalso].
  unfold n_le in K. pose proof (count_split (fun y => Qle_bool y (quantile l q)) l) as S.
  assert (Z : (0 < count (fun y => negb (Qle_bool y (quantile l q))) l)%nat).
  { apply count_pos. exists x. split; [assumption|]. apply negb_true_iff. now apply Qleb_false. }
  lia.
Qed.
