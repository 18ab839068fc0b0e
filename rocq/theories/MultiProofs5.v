From Coq Require Import List Arith ZArith QArith Qround Qminmax Qabs Bool Lia Lqa Sorted.
From Verif Require Import Lib QuantModel QuantSpec QuantProofs ConfRegModel ConfRegProofs ConfClassModel ConfClassProofs ConfClassProofs2 ConfClassSpec ConfClassProofs3 MultiModel MultiSpec MultiProofs MultiProofs2 MultiProofs3 MultiProofs4.
Import ListNotations.
Open Scope Q_scope.

(** ---- one shot ---- *)
Lemma argmin_spec l : l <> [] -> (argmin l < length l)%nat /\ (forall k, (k < length l)%nat -> nth (argmin l) l 0 <= nth k l 0) /\ (forall k, (k < argmin l)%nat -> nth (argmin l) l 0 < nth k l 0).
Proof.
  intros NE. unfold argmin. assert (NE' : map Qopp l <> []) by (intros E; apply map_eq_nil in E; contradiction).
  destruct (argmax_spec _ NE') as (A & B & C). rewrite map_length in *.
  assert (N : forall k, nth k (map Qopp l) 0 == - nth k l 0). { intros k. change 0 with (- 0) at 1. now rewrite map_nth. }
  split; [exact A|]. split.
  - intros k Hk. specialize (B k Hk). rewrite !N in B. lra.
  - intros k Hk. specialize (C k Hk). rewrite !N in C. lra.
Qed.
Lemma insert_q_in x l y : In y (insert_q x l) -> y = x \/ In y l.
Proof. induction l as [|z l IH]; cbn; [intuition|]. destruct (Qlt_bool x z); [cbn; intuition|]. destruct (Qeq_bool x z); [cbn; intuition|]. cbn. intuition. Qed.
Lemma insert_q_sorted x l : StronglySorted Qlt l -> StronglySorted Qlt (insert_q x l).
Proof.
  induction 1 as [|z l SS IH Fz]; cbn [insert_q]; [repeat constructor|]. destruct (Qlt_bool x z) eqn:E1.
  - apply Qltb_true in E1. constructor; [now constructor|]. constructor; [exact E1|]. eapply Forall_impl; [|exact Fz]. intros a Ha. cbn in Ha. lra.
  - apply Qltb_false in E1. destruct (Qeq_bool x z) eqn:E2; [now constructor|]. apply Qeq_bool_neq in E2. constructor; [exact IH|].
    rewrite Forall_forall in *. intros y Hy. apply insert_q_in in Hy. destruct Hy as [->|Hy]; [|now apply Fz].
    destruct (Qlt_le_dec z x); [assumption|]. exfalso. apply E2. lra.
Qed.
Lemma insert_q_has x l : exists u, In u (insert_q x l) /\ u == x.
Proof.
  induction l as [|z l (u & Hu & E)]; cbn [insert_q]; [exists x; cbn; split; [auto|reflexivity]|].
  destruct (Qlt_bool x z); [exists x; cbn; split; [auto|reflexivity]|]. destruct (Qeq_bool x z) eqn:E2; [exists z; cbn; split; [auto|]; apply Qeq_bool_iff in E2; now symmetry|].
  exists u. cbn. auto.
Qed.
Lemma insert_q_keeps x l y : In y l -> In y (insert_q x l).
Proof.
  induction l as [|z l IH]; [contradiction|]. intros H. cbn [insert_q].
  destruct (Qlt_bool x z); [now right|]. destruct (Qeq_bool x z); [exact H|]. destruct H as [->|H]; [now left|right; auto].
Qed.
Lemma unique_q_sorted l : StronglySorted Qlt (unique_q l).
Proof. induction l as [|x l IH]; cbn; [constructor|]. now apply insert_q_sorted. Qed.
Lemma unique_q_in l y : In y (unique_q l) -> In y l.
Proof. induction l as [|x l IH]; cbn; [contradiction|]. intros H. apply insert_q_in in H. destruct H as [->|H]; auto. Qed.
Lemma unique_q_has l y : In y l -> exists u, In u (unique_q l) /\ u == y.
Proof.
  induction l as [|x l IH]; cbn; [contradiction|]. intros [->|H]; [apply insert_q_has|]. destruct (IH H) as (u & Hu & E). exists u. split; [now apply insert_q_keeps|exact E].
Qed.

Lemma fold_pointwise n patches values : forall us acc i x y, length acc = length values -> nth_error values i = Some x -> nth_error acc i = Some y ->
  nth_error (fold_left (fun acc v => zip_with (fun x y => if near n v x then nth (one_shot_index n v) patches 0 else y) values acc) us acc) i =
  Some (fold_left (fun y v => if near n v x then nth (one_shot_index n v) patches 0 else y) us y).
Proof.
  induction us as [|u us IH]; intros acc i x y L X Y; cbn [fold_left]; [exact Y|]. apply IH; [rewrite zip_length; lia|exact X|]. now rewrite zip_nth_error, X, Y.
Qed.
Lemma fold_last n patches x : forall us y, StronglySorted Qlt us ->
  (forall u, In u us -> near n u x = false) /\ fold_left (fun y v => if near n v x then nth (one_shot_index n v) patches 0 else y) us y = y \/
  exists v, In v us /\ near n v x = true /\ (forall w, In w us -> near n w x = true -> w <= v) /\
    fold_left (fun y v => if near n v x then nth (one_shot_index n v) patches 0 else y) us y = nth (one_shot_index n v) patches 0.
Proof.
  induction us as [|u us IH]; intros y SS; [left; split; [intros ? []|reflexivity]|]. inversion_clear SS as [|? ? SS' Fu]. cbn [fold_left].
  destruct (IH (if near n u x then nth (one_shot_index n u) patches 0 else y) SS') as [(A & B)|(v & Hv & Nv & Mv & B)].
  - destruct (near n u x) eqn:E.
    + right. exists u. split; [now left|]. split; [exact E|]. split; [|exact B]. intros w [->|Hw] Nw; [lra|]. rewrite A in Nw by exact Hw. discriminate.
    + left. split; [|exact B]. intros w [->|Hw]; auto.
  - right. exists v. split; [now right|]. split; [exact Nv|]. split; [|exact B]. intros w [<-|Hw] Nw; [|auto]. rewrite Forall_forall in Fu. specialize (Fu v Hv). lra.
Qed.
Lemma near_proper n v w x : v == w -> near n v x = near n w x.
Proof.
  intros E. unfold near. destruct (Qlt_bool (Qabs (x - v)) (half_width n)) eqn:A.
  - symmetry. apply Qltb_true in A. apply Qltb_true. now rewrite <- E.
  - symmetry. apply Qltb_false in A. apply Qltb_false. now rewrite <- E.
Qed.
Theorem one_shot_result : forall n patches values i x, (0 < n)%nat -> nth_error values i = Some x ->
  exists v j, In v values /\ Qabs (x - v) * (2 * inject_Z (Z.of_nat n)) < 1 /\
    (forall w, In w values -> Qabs (x - w) * (2 * inject_Z (Z.of_nat n)) < 1 -> w <= v) /\
    (j < n)%nat /\ (forall j', (j' < n)%nat -> Qabs (nth j (get_buckets n) 0 - v) <= Qabs (nth j' (get_buckets n) 0 - v)) /\
    nth_error (one_shot_apply n patches values) i = Some (nth j patches 0).
Proof.
  intros n patches values i x N X. unfold one_shot_apply. cbv zeta. rewrite (fold_pointwise n patches values _ values i x x eq_refl X X).
  assert (Hx : In x values) by (eapply nth_error_In; exact X). destruct (unique_q_has values x Hx) as (u & Hu & Eu).
  destruct (fold_last n patches x (unique_q values) x (unique_q_sorted values)) as [(A & _)|(v & Hv & Nv & Mv & B)].
  - exfalso. specialize (A u Hu). rewrite (near_proper n u x x Eu) in A. unfold near in A. apply Qltb_false in A. destruct (half_width_pos n N) as [P _].
    assert (Z : x - x == 0) by ring. rewrite Z in A. change (Qabs 0) with 0 in A. lra.
  - exists v, (one_shot_index n v). assert (Lb : length (get_buckets n) = n) by apply linspace_length.
    assert (NE : map (fun b => Qabs (b - v)) (get_buckets n) <> []) by (intros E; apply map_eq_nil in E; rewrite E in Lb; cbn in Lb; lia).
    destruct (argmin_spec _ NE) as (C & D & _). rewrite map_length, Lb in *.
    assert (Nm : forall k, (k < n)%nat -> nth k (map (fun b => Qabs (b - v)) (get_buckets n)) 0 = Qabs (nth k (get_buckets n) 0 - v)).
    { intros k Hk. rewrite (nth_indep _ 0 (Qabs (0 - v))) by (rewrite map_length; lia). now rewrite (map_nth (fun b => Qabs (b - v))). }
    split; [now apply unique_q_in|]. split; [now apply near_iff|]. split.
    { intros w Hw Nw. destruct (unique_q_has values w Hw) as (w' & Hw' & Ew). rewrite <- Ew. apply Mv; [exact Hw'|]. rewrite (near_proper n w' w x Ew). now apply near_iff. }
    split; [exact C|]. split; [|now rewrite B]. intros j' Hj'. specialize (D j' Hj'). rewrite (Nm j' Hj') in D. unfold one_shot_index. rewrite <- (Nm (argmin _)) by exact C. exact D.
Qed.
Theorem one_shot_patch_meaning : forall n p scores values v, length scores = length values ->
  let bs := map (near n v) values in let q := one_shot_patch n p scores values v in
  (p < prob_of bs -> 0 <= p -> mean_is bs scores q) /\ (prob_of bs <= p -> q = v).
Proof.
  intros n p scores values v L bs q. unfold q, one_shot_patch. cbv zeta. fold bs. split.
  - intros H Hp. rewrite (proj2 (Qltb_true _ _) H). unfold mean_is. apply mean_on_spec; [unfold bs; rewrite map_length; lia|lra].
  - intros H. now rewrite (proj2 (Qltb_false _ _) H).
Qed.
Lemma sum_where_unit bs : forall xs, Forall in_unit xs -> 0 <= sum_where bs xs <= n_where bs.
Proof.
  induction bs as [|b bs IH]; intros [|x xs] F; cbn [sum_where]; try (change (n_where []) with 0; lra).
  - pose proof (n_where_nonneg (b :: bs)). lra.
  - inversion_clear F as [|? ? [A B] F']. rewrite n_where_cons. specialize (IH xs F'). destruct b; cbn [of_bool]; lra.
Qed.
Lemma one_shot_patch_unit n p scores values v : length scores = length values -> 0 <= p -> Forall in_unit scores -> in_unit v -> in_unit (one_shot_patch n p scores values v).
Proof.
  intros L P F V. destruct (Qlt_le_dec p (prob_of (map (near n v) values))) as [H|H].
  - destruct (one_shot_patch_meaning n p scores values v L) as [A _]. specialize (A H P). unfold mean_is in A.
    set (bs := map (near n v) values) in *. set (q := one_shot_patch n p scores values v) in *. pose proof (sum_where_unit bs scores F) as [S1 S2].
    assert (NE : bs <> []) by (intros E; rewrite E in H; change (prob_of []) with (0 / 0) in H; assert (Z : 0 / 0 == 0) by reflexivity; rewrite Z in H; lra).
    assert (W : 0 < n_where bs) by (apply prob_pos; [exact NE|lra]).
    rewrite <- A in S1, S2. split.
    + apply (mul_le 0 q (n_where bs) W). lra.
    + apply (mul_le q 1 (n_where bs) W). lra.
  - destruct (one_shot_patch_meaning n p scores values v L) as [_ A]. now rewrite (A H).
Qed.
Theorem one_shot_unit : forall n p scores values test_values, (0 < n)%nat -> length scores = length values -> match p with Some q => 0 <= q | None => True end ->
  Forall in_unit scores -> Forall in_unit (one_shot_calibrate n p scores values test_values).
Proof.
  intros n p scores values test_values N L P F. rewrite Forall_forall. intros y Hy. apply In_nth_error in Hy. destruct Hy as (i & Hi). unfold one_shot_calibrate in Hi.
  set (ps := one_shot_patches n (init_min_prob p n 1) scores values) in *.
  assert (Lo : forall us acc, length acc = length test_values -> length (fold_left (fun acc v => zip_with (fun x y => if near n v x then nth (one_shot_index n v) ps 0 else y) test_values acc) us acc) = length test_values).
  { induction us as [|u us IH]; intros acc La; [exact La|]. cbn [fold_left]. apply IH. rewrite zip_length; lia. }
  destruct (nth_error test_values i) as [x|] eqn:Ex.
  - destruct (one_shot_result n ps test_values i x N Ex) as (v & j & _ & _ & _ & Hj & _ & E). rewrite Hi in E. injection E as ->.
    assert (Hin : In (nth j ps 0) ps). { apply nth_In. unfold ps, one_shot_patches, get_buckets. now rewrite map_length, linspace_length. }
    revert Hin. generalize (nth j ps 0). intros y0 Hin. unfold ps, one_shot_patches in Hin. apply in_map_iff in Hin. destruct Hin as (b & <- & Hb). apply one_shot_patch_unit; [exact L| |exact F|].
    + unfold init_min_prob. destruct p as [q|]; [exact P|]. apply Qle_shift_div_l; [rewrite <- (Zlt_Qlt 0); lia|lra].
    + apply (linspace_between 0 1 n); [lra|exact Hb].
  - exfalso. apply nth_error_None in Ex. assert (nth_error (one_shot_apply n ps test_values) i <> None) by congruence. apply nth_error_Some in H. unfold one_shot_apply in H. rewrite Lo in H; [lia|reflexivity].
Qed.

(** ---- BatchMVP ---- *)
Theorem mvp_covered : forall scores thresholds bs, length scores = length thresholds -> length bs = length scores -> 0 < n_where bs ->
  mvp_prob scores thresholds bs * n_where bs ==
  inject_Z (Z.of_nat (length (filter (fun p => snd p && Qle_bool (fst (fst p)) (snd (fst p))) (combine (combine scores thresholds) bs)))).
Proof.
  intros scores thresholds bs L1 L2 P. assert (NE : bs <> []) by (intros E; rewrite E in P; vm_compute in P; discriminate).
  unfold mvp_prob. rewrite (proj2 (Qltb_true _ _) (proj2 (prob_pos bs NE) P)).
  set (l := combine scores thresholds). assert (Ll : length l = length bs) by (unfold l; rewrite combine_length; lia).
  assert (E : qsum (zip_with (fun st b => of_bool (Qle_bool (fst st) (snd st) && b)) l bs) ==
              inject_Z (Z.of_nat (length (filter (fun p => snd p && Qle_bool (fst (fst p)) (snd (fst p))) (combine l bs))))).
  { clearbody l. clear. revert l. induction bs as [|b bs IH]; intros [|x l]; try reflexivity. rewrite zip_cons, qsum_cons, IH. cbn [combine filter fst snd].
    rewrite andb_comm. destruct (b && Qle_bool (fst x) (snd x)); cbn [of_bool length]; [rewrite nat_S_Q|]; lra. }
  rewrite <- E. unfold qmean, qlen. rewrite zip_length by exact Ll. rewrite <- (prob_of_spec bs NE), Ll.
  pose proof (nQ_pos bs NE). pose proof (proj2 (prob_pos bs NE) P). field. split; lra.
Qed.
Theorem mvp_error_meaning : forall coverage scores thresholds bs, bs <> [] ->
  inject_Z (Z.of_nat (length bs)) * mvp_error coverage scores thresholds bs ==
  n_where bs * ((coverage - mvp_prob scores thresholds bs) * (coverage - mvp_prob scores thresholds bs)).
Proof. intros coverage scores thresholds bs NE. unfold mvp_error, mvp_prob_error. rewrite <- (prob_of_spec bs NE). ring. Qed.

Lemma shifts_length n : (0 < n)%nat -> length (mvp_shifts n) = (2 * n - 1)%nat.
Proof.
  intros N. unfold mvp_shifts. rewrite app_length. assert (L : length (map Qopp (rev (get_buckets n))) = n) by (rewrite map_length, rev_length; apply linspace_length).
  assert (R : forall (l : list Q), length (removelast l) = (length l - 1)%nat). { induction l as [|x [|y l] IH]; [reflexivity|reflexivity|]. change (removelast (x :: y :: l)) with (x :: removelast (y :: l)). cbn [length] in *. lia. }
  rewrite R, L. unfold get_buckets. rewrite linspace_length. lia.
Qed.
Lemma removelast_nth (l : list Q) i : (S i < length l)%nat -> nth i (removelast l) 0 = nth i l 0.
Proof.
  revert i. induction l as [|x [|y l] IH]; intros i H; cbn [length] in H; try lia. change (removelast (x :: y :: l)) with (x :: removelast (y :: l)). destruct i as [|i]; [reflexivity|]. cbn [nth]. apply IH. cbn [length]. lia.
Qed.
Theorem shift_grid : forall n i, (2 <= n)%nat -> (i < 2 * n - 1)%nat ->
  length (mvp_shifts n) = (2 * n - 1)%nat /\ nth i (mvp_shifts n) 0 * inject_Z (Z.of_nat (n - 1)) == inject_Z (Z.of_nat i - Z.of_nat (n - 1)).
Proof.
  intros n i N Hi. split; [apply shifts_length; lia|]. assert (P : 0 < inject_Z (Z.of_nat (n - 1))) by (rewrite <- (Zlt_Qlt 0); lia).
  assert (L : length (map Qopp (rev (get_buckets n))) = n) by (rewrite map_length, rev_length; apply linspace_length).
  assert (R : forall (l : list Q), length (removelast l) = (length l - 1)%nat). { induction l as [|x [|y l] IH]; [reflexivity|reflexivity|]. change (removelast (x :: y :: l)) with (x :: removelast (y :: l)). cbn [length] in *. lia. }
  unfold mvp_shifts. destruct (Nat.lt_ge_cases i (n - 1)) as [H|H].
  - rewrite app_nth1 by (rewrite R, L; exact H). rewrite removelast_nth by (rewrite L; lia).
    assert (E : nth i (map Qopp (rev (get_buckets n))) 0 == - nth (n - S i) (get_buckets n) 0).
    { change 0 with (- 0) at 1. rewrite map_nth, rev_nth by (unfold get_buckets; rewrite linspace_length; lia). unfold get_buckets. rewrite linspace_length. reflexivity. }
    rewrite E. assert (B := bucket_nth n (n - S i) N ltac:(lia)).
    assert (X : - nth (n - S i) (get_buckets n) 0 * inject_Z (Z.of_nat (n - 1)) == - inject_Z (Z.of_nat (n - S i))) by (rewrite <- B; ring). rewrite X, <- inject_Z_opp.
    replace (- Z.of_nat (n - S i))%Z with (Z.of_nat i - Z.of_nat (n - 1))%Z by lia. reflexivity.
  - rewrite app_nth2 by (rewrite R, L; exact H). rewrite R, L. rewrite bucket_nth by lia. replace (Z.of_nat (i - (n - 1))) with (Z.of_nat i - Z.of_nat (n - 1))%Z by lia. reflexivity.
Qed.
Lemma shift_lt n i j : (2 <= n)%nat -> (i < j)%nat -> (j < 2 * n - 1)%nat -> nth i (mvp_shifts n) 0 < nth j (mvp_shifts n) 0.
Proof.
  intros N I J. destruct (shift_grid n i N ltac:(lia)) as [_ A]. destruct (shift_grid n j N J) as [_ B]. assert (P : 0 < inject_Z (Z.of_nat (n - 1))) by (rewrite <- (Zlt_Qlt 0); lia).
  apply (mul_lt _ _ _ P). rewrite A, B. rewrite <- Zlt_Qlt. lia.
Qed.
Lemma shift_pos n i : (2 <= n)%nat -> (i < 2 * n - 1)%nat -> (0 < nth i (mvp_shifts n) 0 <-> (n <= i)%nat).
Proof.
  intros N I. destruct (shift_grid n i N I) as [_ A]. assert (P : 0 < inject_Z (Z.of_nat (n - 1))) by (rewrite <- (Zlt_Qlt 0); lia).
  rewrite (mul_lt _ _ _ P), A, Qmult_0_l, <- (Zlt_Qlt 0). lia.
Qed.

(** ordered list of the indices of the minima *)
Lemma argmin_list_in l i : In i (argmin_list l) <-> (i < length l)%nat /\ nth i l 0 == qmin_list l.
Proof.
  unfold argmin_list. rewrite in_map_iff. split.
  - intros ([j x] & E & H). cbn in E. subst j. apply filter_In in H. destruct H as (H & Eq). cbn in Eq. apply Qeq_bool_iff in Eq.
    apply In_nth_error in H. destruct H as (k & Hk).
    assert (Lk : (k < length l)%nat). { assert (nth_error (combine (seq 0 (length l)) l) k <> None) by congruence. apply nth_error_Some in H. rewrite combine_length, seq_length in H. lia. }
    assert (Hn : nth_error (combine (seq 0 (length l)) l) k = Some (k, nth k l 0)).
    { rewrite (nth_error_nth' _ (O, 0)) by (rewrite combine_length, seq_length; lia). rewrite combine_nth by apply seq_length. rewrite seq_nth by exact Lk. reflexivity. }
    rewrite Hn in Hk. injection Hk as -> ->. auto.
  - intros (L & E). exists (i, nth i l 0). split; [reflexivity|]. apply filter_In. split; [|now apply Qeq_bool_iff].
    assert (Hn : nth i (combine (seq 0 (length l)) l) (O, 0) = (i, nth i l 0)) by (rewrite combine_nth by apply seq_length; now rewrite seq_nth).
    rewrite <- Hn. apply nth_In. rewrite combine_length, seq_length. lia.
Qed.
Lemma argmin_list_sorted l : StronglySorted lt (argmin_list l).
Proof.
  unfold argmin_list. generalize (qmin_list l). intros q. generalize O. induction l as [|x l IH]; intros k; [constructor|]. cbn [length seq combine filter snd].
  assert (G : forall k, StronglySorted lt (map fst (filter (fun p => Qeq_bool (snd p) q) (combine (seq k (length l)) l)))) by exact IH.
  destruct (Qeq_bool x q); [|apply G]. cbn [map fst]. constructor; [apply G|]. rewrite Forall_forall. intros j Hj. apply in_map_iff in Hj. destruct Hj as ([j' y] & <- & Hj).
  apply filter_In in Hj. destruct Hj as (Hj & _). apply in_combine_l in Hj. apply in_seq in Hj. cbn. lia.
Qed.
Lemma argmin_list_nonempty l : l <> [] -> argmin_list l <> [].
Proof.
  intros NE. destruct (qmin_list_in l NE) as (x & Hx & E). destruct (In_nth _ _ 0 Hx) as (i & Hi & Ei).
  assert (H : In i (argmin_list l)) by (apply argmin_list_in; split; [exact Hi|]; rewrite Ei; now symmetry). intros Z. rewrite Z in H. contradiction.
Qed.
Lemma sorted_hd l : StronglySorted lt l -> l <> [] -> In (hd O l) l /\ forall i, In i l -> (hd O l <= i)%nat.
Proof. intros SS NE. destruct SS as [|x l SS F]; [congruence|]. split; [now left|]. cbn [hd]. rewrite Forall_forall in F. intros i [->|H]; [lia|]. specialize (F i H). lia. Qed.
Lemma sorted_last l : StronglySorted lt l -> l <> [] -> In (last l O) l /\ forall i, In i l -> (i <= last l O)%nat.
Proof.
  induction 1 as [|x l SS IH F]; [congruence|]. intros _. destruct l as [|y l]; [cbn; intuition lia|]. destruct (IH ltac:(discriminate)) as (A & B).
  change (last (x :: y :: l) O) with (last (y :: l) O). split; [now right|]. intros i [->|H]; [|auto]. rewrite Forall_forall in F. specialize (F _ A). lia.
Qed.
Theorem mvp_patch_best : forall n coverage scores xs bs, (2 <= n)%nat ->
  let err d := mvp_prob_error coverage scores (map (fun x => x + d) xs) bs in
  exists d, mvp_patch n coverage Additive scores xs bs = Ok (Some d) /\ In d (mvp_shifts n) /\
    (forall d', In d' (mvp_shifts n) -> err d <= err d') /\
    ((exists d', In d' (mvp_shifts n) /\ 0 < d' /\ err d' == err d) -> forall d', In d' (mvp_shifts n) -> err d' == err d -> d <= d') /\
    ((forall d', In d' (mvp_shifts n) -> err d' == err d -> d' <= 0) -> forall d', In d' (mvp_shifts n) -> err d' == err d -> d' <= d).
Proof.
  intros n coverage scores xs bs N err. assert (Ls : length (mvp_shifts n) = (2 * n - 1)%nat) by (apply shifts_length; lia).
  set (errors := map err (mvp_shifts n)). assert (Le : length errors = (2 * n - 1)%nat) by (unfold errors; now rewrite map_length).
  assert (NE : errors <> []) by (intros E; rewrite E in Le; cbn in Le; lia).
  assert (Ne : forall i, (i < 2 * n - 1)%nat -> nth i errors 0 = err (nth i (mvp_shifts n) 0)).
  { intros i Hi. unfold errors. rewrite (nth_indep _ 0 (err 0)) by (rewrite map_length; lia). apply map_nth. }
  assert (Min : forall i, In i (argmin_list errors) -> (i < 2 * n - 1)%nat /\ forall d', In d' (mvp_shifts n) -> err (nth i (mvp_shifts n) 0) <= err d').
  { intros i Hi. apply argmin_list_in in Hi. destruct Hi as (Hi & E). rewrite Le in Hi. split; [exact Hi|]. intros d' Hd'. rewrite <- (Ne i Hi), E. apply qmin_list_le. unfold errors. now apply in_map. }
  assert (Idx : forall i d', In i (argmin_list errors) -> In d' (mvp_shifts n) -> err d' == err (nth i (mvp_shifts n) 0) -> exists j, In j (argmin_list errors) /\ (j < 2 * n - 1)%nat /\ nth j (mvp_shifts n) 0 = d').
  { intros i d' Hi Hd' E. destruct (In_nth _ _ 0 Hd') as (j & Hj & Ej). rewrite Ls in Hj. exists j. split; [|split; [exact Hj|exact Ej]]. apply argmin_list_in. rewrite Le. split; [exact Hj|].
    rewrite (Ne j Hj), Ej, E. apply argmin_list_in in Hi. destruct Hi as (Hi & Ei). rewrite Le in Hi. now rewrite <- Ei, (Ne i Hi). }
  assert (Mono : forall i j, (i <= j)%nat -> (j < 2 * n - 1)%nat -> nth i (mvp_shifts n) 0 <= nth j (mvp_shifts n) 0).
  { intros i j H J. destruct (Nat.eq_dec i j) as [->|D]; [lra|]. apply Qlt_le_weak. apply shift_lt; lia. }
  unfold mvp_patch. cbv zeta. change (map (fun d : Q => mvp_prob_error coverage scores (map (fun x : Q => x + d) xs) bs) (mvp_shifts n)) with errors.
  assert (NA := argmin_list_nonempty errors NE). assert (SA := argmin_list_sorted errors).
  destruct (existsb (fun i => (n <=? i)%nat) (argmin_list errors)) eqn:Ex.
  - destruct (sorted_hd _ SA NA) as (H1 & H2). exists (nth (hd O (argmin_list errors)) (mvp_shifts n) 0). destruct (Min _ H1) as (Hi & Mi).
    split; [reflexivity|]. split; [apply nth_In; lia|]. split; [exact Mi|]. split.
    + intros _ d' Hd' E. destruct (Idx _ d' H1 Hd' E) as (j & Hj & Lj & <-). apply Mono; [apply H2; exact Hj|exact Lj].
    + intros A. exfalso. apply existsb_exists in Ex. destruct Ex as (j & Hj & Ej). apply Nat.leb_le in Ej. destruct (Min j Hj) as (Lj & Mj).
      assert (P : 0 < nth j (mvp_shifts n) 0) by (apply shift_pos; lia). assert (Z := A (nth j (mvp_shifts n) 0) ltac:(apply nth_In; lia)).
      assert (nth j (mvp_shifts n) 0 <= 0); [|lra]. apply Z. apply Qle_antisym; [apply Mj; apply nth_In; lia|apply Mi; apply nth_In; lia].
  - destruct (sorted_last _ SA NA) as (H1 & H2). exists (nth (last (argmin_list errors) O) (mvp_shifts n) 0). destruct (Min _ H1) as (Hi & Mi).
    split; [reflexivity|]. split; [apply nth_In; lia|]. split; [exact Mi|]. split.
    + intros (d' & Hd' & P & E). exfalso. destruct (Idx _ d' H1 Hd' E) as (j & Hj & Lj & <-). apply shift_pos in P; [|exact N|exact Lj].
      assert (existsb (fun i => (n <=? i)%nat) (argmin_list errors) = true); [|congruence]. apply existsb_exists. exists j. split; [exact Hj|]. apply Nat.leb_le. lia.
    + intros _ d' Hd' E. destruct (Idx _ d' H1 Hd' E) as (j & Hj & Lj & <-). apply Mono; [apply H2; exact Hj|exact Hi].
Qed.
Theorem mvp_multiplicative : forall n coverage scores xs bs, mvp_patch n coverage Multiplicative scores xs bs = Err NotImplementedErr.
Proof. reflexivity. Qed.
Theorem pinball_nonneg : forall coverage x s, 0 <= coverage <= 1 ->
  (x < s -> pinball1 coverage x s == coverage * (s - x)) /\ (s <= x -> pinball1 coverage x s == (1 - coverage) * (x - s)) /\ 0 <= pinball1 coverage x s.
Proof.
  intros c x s [C0 C1]. unfold pinball1.
  assert (A : x < s -> (s - x) * c * of_bool (Qlt_bool x s) - (s - x) * (1 - c) * of_bool (Qle_bool s x) == c * (s - x)).
  { intros H. rewrite (proj2 (Qltb_true _ _) H), (proj2 (Qleb_false _ _) H). cbn [of_bool]. ring. }
  assert (B : s <= x -> (s - x) * c * of_bool (Qlt_bool x s) - (s - x) * (1 - c) * of_bool (Qle_bool s x) == (1 - c) * (x - s)).
  { intros H. rewrite (proj2 (Qltb_false _ _) H), (proj2 (Qleb_true _ _) H). cbn [of_bool]. ring. }
  split; [exact A|]. split; [exact B|]. destruct (Qlt_le_dec x s) as [H|H].
  - rewrite (A H). apply Qmult_le_0_compat; lra.
  - rewrite (B H). apply Qmult_le_0_compat; lra.
Qed.
Theorem mvp_sets : forall class_scores thresholds sets i row t, mvp_conformal_set class_scores thresholds = Ok sets ->
  nth_error class_scores i = Some row -> nth_error thresholds i = Some t ->
  length sets = length class_scores /\ exists set, nth_error sets i = Some set /\ forall c, In c set <-> exists s, nth_error row c = Some s /\ s <= t.
Proof.
  intros cs ts sets i row t H R T. unfold mvp_conformal_set in H. destruct (Nat.eqb_spec (length cs) (length ts)) as [L|]; [|discriminate]. cbn [negb] in H. injection H as <-.
  rewrite sets_from_conds_rows. split; [rewrite map_length; now apply zip_length|]. exists (true_columns (map (fun s => Qle_bool s t) row)). split.
  - rewrite nth_error_map, zip_nth_error, R, T. reflexivity.
  - intros c. rewrite true_columns_in, nth_error_map. destruct (nth_error row c) as [s|]; cbn; split.
    + intros E. injection E as E. exists s. split; [reflexivity|]. now apply Qleb_true.
    + intros (s' & E & Hs). injection E as <-. f_equal. now apply Qleb_true.
    + discriminate.
    + intros (s' & E & _). discriminate.
Qed.

(** ---- C70: arguments ---- *)
Theorem check_call_ok : forall a, check_call a = Ok tt <->
  (1 <= c_n_rounds a)%Z /\ 0 < c_eta a <= 1 /\ 0 < c_split a <= 1 /\ match c_min_prob a with None => True | Some p => in_unit p end /\ c_ptype a <> None /\
  (has_test_values a = true -> has_values a = true) /\ (has_test_groups a = true -> has_groups a = true) /\
  (has_values a = true -> has_test_groups a = true -> has_test_values a = true) /\ (has_groups a = true -> has_test_values a = true -> has_test_groups a = true).
Proof.
  intros a. unfold check_call, in_unit.
  destruct (Z.ltb_spec (c_n_rounds a) 1); [split; [discriminate|intros; lia]|].
  destruct (has_test_values a) eqn:E1, (has_values a) eqn:E2, (has_test_groups a) eqn:E3, (has_groups a) eqn:E4; cbn [andb negb];
    try (split; [discriminate|intuition congruence]).
  all: destruct (Qle_bool (c_eta a) 0) eqn:F1; cbn [orb]; [apply Qleb_true in F1; split; [discriminate|intros; lra]|apply Qleb_false in F1].
  all: destruct (Qlt_bool 1 (c_eta a)) eqn:F2; [apply Qltb_true in F2; split; [discriminate|intros; lra]|apply Qltb_false in F2].
  all: destruct (Qle_bool (c_split a) 0) eqn:F3; cbn [orb]; [apply Qleb_true in F3; split; [discriminate|intros; lra]|apply Qleb_false in F3].
  all: destruct (Qlt_bool 1 (c_split a)) eqn:F4; [apply Qltb_true in F4; split; [discriminate|intros; lra]|apply Qltb_false in F4].
  all: destruct (c_min_prob a) as [p|];
    [destruct (Qlt_bool p 0) eqn:F5; cbn [orb]; [apply Qltb_true in F5; split; [discriminate|intros (_ & _ & _ & X & _); lra]|apply Qltb_false in F5];
     destruct (Qlt_bool 1 p) eqn:F6; [apply Qltb_true in F6; split; [discriminate|intros (_ & _ & _ & X & _); lra]|apply Qltb_false in F6]|].
  all: destruct (c_ptype a); split; try discriminate; try reflexivity; try tauto; intros _; repeat split; try assumption; try congruence; try lra.
Qed.
Theorem bucket_types : forall bts, (forall b, In b bts -> (b <= 2)%nat) ->
  exists ts, check_bucket_types bts = Ok ts /\ (forall t, In t ts <-> In t bts) /\ StronglySorted lt ts.
Proof.
  intros bts H. unfold check_bucket_types. destruct (existsb (fun b => (2 <? b)%nat) bts) eqn:E.
  - exfalso. apply existsb_exists in E. destruct E as (b & Hb & L). apply Nat.ltb_lt in L. specialize (H b Hb). lia.
  - eexists. split; [reflexivity|]. split.
    + intros t. rewrite filter_In, existsb_exists. split.
      * intros (_ & x & Hx & Ex). apply Nat.eqb_eq in Ex. now subst.
      * intros Ht. split; [|exists t; split; [exact Ht|apply Nat.eqb_refl]]. specialize (H t Ht). cbn. lia.
    + cbn [filter]. destruct (existsb (Nat.eqb 0) bts), (existsb (Nat.eqb 1) bts), (existsb (Nat.eqb 2) bts); repeat (constructor; try lia).
Qed.
Theorem bucket_types_unknown : forall bts b, In b bts -> (2 < b)%nat -> check_bucket_types bts = Err ValueError.
Proof.
  intros bts b Hb L. unfold check_bucket_types. replace (existsb (fun b => (2 <? b)%nat) bts) with true; [reflexivity|]. symmetry. apply existsb_exists. exists b. split; [exact Hb|]. now apply Nat.ltb_lt.
Qed.
Theorem binary_targets : forall ts, check_binary_targets ts = Ok tt <-> (forall y, In y ts -> y = 0%Z \/ y = 1%Z) /\ In 0%Z ts /\ In 1%Z ts.
Proof.
  intros ts. unfold check_binary_targets. destruct (forallb _ ts && _ && _) eqn:E.
  - split; [intros _|reflexivity]. rewrite !andb_true_iff, forallb_forall, !existsb_exists in E. destruct E as ((A & (x & Hx & Ex)) & (y & Hy & Ey)).
    apply Z.eqb_eq in Ex, Ey. subst. split; [|auto]. intros z Hz. specialize (A z Hz). apply orb_true_iff in A. rewrite !Z.eqb_eq in A. exact A.
  - split; [discriminate|]. intros (A & B & C). exfalso. assert (forallb (fun y => (y =? 0)%Z || (y =? 1)%Z) ts && existsb (fun y => (y =? 0)%Z) ts && existsb (fun y => (y =? 1)%Z) ts = true); [|congruence].
    rewrite !andb_true_iff, forallb_forall, !existsb_exists. repeat split; [|exists 0%Z; auto|exists 1%Z; auto]. intros z Hz. apply orb_true_iff. rewrite !Z.eqb_eq. auto.
Qed.
Theorem one_hot : forall K ts i y, nth_error ts i = Some y -> (y < K)%nat ->
  exists row, nth_error (top_label_scores K ts) i = Some row /\ length row = K /\ forall c, (c < K)%nat -> nth c row 0 = if (c =? y)%nat then 1 else 0.
Proof.
  intros K ts i y H Hy. unfold top_label_scores. rewrite nth_error_map, H. eexists. split; [reflexivity|]. split; [rewrite map_length; apply seq_length|].
  intros c Hc. rewrite (nth_indep _ 0 (of_bool (y =? 0)%nat)) by (rewrite map_length, seq_length; exact Hc). rewrite (map_nth (fun i => of_bool (y =? i)%nat)), seq_nth by exact Hc.
  cbn [Nat.add]. rewrite Nat.eqb_sym. destruct (c =? y)%nat; reflexivity.
Qed.
Theorem split_sizes : forall split size, 0 < split <= 1 -> (0 < size)%nat ->
  (1 <= calib_size split size <= size)%nat /\ inject_Z (Z.of_nat size) * split <= inject_Z (Z.of_nat (calib_size split size)) < inject_Z (Z.of_nat size) * split + 1.
Proof.
  intros sp size [S0 S1] N. unfold calib_size. set (x := sp * inject_Z (Z.of_nat size)). assert (P : 0 < inject_Z (Z.of_nat size)) by (rewrite <- (Zlt_Qlt 0); lia).
  assert (Px : 0 < x) by (unfold x; now apply Qmult_lt_0_compat). pose proof (Qle_ceiling x) as C. pose proof (Qceiling_lt x) as D.
  assert (Lx : x <= inject_Z (Z.of_nat size)) by (unfold x; eapply Qle_trans; [apply Qmult_le_compat_r; [exact S1|lra]|lra]).
  assert (C0 : (0 < Qceiling x)%Z) by (rewrite Zlt_Qlt; change (inject_Z 0) with 0; lra).
  assert (C1 : (Qceiling x <= Z.of_nat size)%Z). { assert (Qceiling x - 1 < Z.of_nat size)%Z by (rewrite Zlt_Qlt; lra). lia. }
  split; [lia|]. rewrite Z2Nat.id by lia. rewrite (Qmult_comm _ sp). fold x. split; [exact C|]. unfold Z.sub in D. rewrite inject_Z_plus in D. change (inject_Z (-(1))) with (-(1)) in D. lra.
Qed.
Theorem min_prob_default : forall nb nd, (0 < nb)%nat -> (0 < nd)%nat -> init_min_prob None nb nd * (inject_Z (Z.of_nat nb) * inject_Z (Z.of_nat nd)) == 1.
Proof.
  intros nb nd A B. unfold init_min_prob. rewrite Nat2Z.inj_mul, inject_Z_mult.
  assert (0 < inject_Z (Z.of_nat nb)) by (rewrite <- (Zlt_Qlt 0); lia). assert (0 < inject_Z (Z.of_nat nd)) by (rewrite <- (Zlt_Qlt 0); lia). field. split; lra.
Qed.
