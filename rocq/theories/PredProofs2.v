(** Proofs about credible sets, conformal sets and credible intervals. *)
From Coq Require Import List Arith ZArith QArith Qminmax Qabs Qround Bool Lia Lqa Sorting.Sorted Sorting.Permutation String.
From Verif Require Import Lib QuantModel QuantProofs ConfRegModel ConfClassModel ConfClassSpec ConfClassProofs ConfClassProofs2 MetricSpec MetricProofs MetricProofs2 PredModel PredSpec PredProofs.
Import ListNotations.
Local Notation length := List.length.
Open Scope Q_scope.

(** ---- assigning by groups ---- *)
Section Group.
Context {A : Type} (n : nat) (key : nat -> nat) (g : nat -> nat -> A).
Definition group_step (sets : list A) (s : nat) : list A :=
  let idx := filter (fun i => (key i =? s)%nat) (seq 0 n) in assign idx (map (g s) idx) sets.
Lemma group_fold d : forall L sets, length sets = n ->
  length (fold_left group_step L sets) = n /\
  forall i, (i < n)%nat -> nth i (fold_left group_step L sets) d = if existsb (Nat.eqb (key i)) L then g (key i) i else nth i sets d.
Proof.
  induction L as [|s L IH]; intros sets HL; cbn [fold_left existsb]; [split; [exact HL|reflexivity]|].
  destruct (IH (group_step sets s)) as [X Y]. { unfold group_step. cbv zeta. rewrite assign_length. exact HL. }
  split; [exact X|]. intros i Hi. rewrite (Y i Hi). destruct (existsb _ L) eqn:E; [now rewrite orb_true_r|]. rewrite orb_false_r.
  unfold group_step. cbv zeta. rewrite (assign_map (g s)) by (now rewrite HL).
  destruct (Nat.eqb_spec (key i) s) as [K|K].
  - assert (Z : existsb (Nat.eqb i) (filter (fun i => (key i =? s)%nat) (seq 0 n)) = true).
    { apply existsb_exists. exists i. split; [|apply Nat.eqb_refl]. apply filter_In. split; [apply in_seq; lia|now apply Nat.eqb_eq]. }
    now rewrite Z, K.
  - destruct (existsb (Nat.eqb i) _) eqn:Z; [|reflexivity]. exfalso. apply existsb_exists in Z. destruct Z as [j [Hj W]].
    apply Nat.eqb_eq in W. subst j. apply filter_In in Hj. destruct Hj as [_ W]. apply Nat.eqb_eq in W. contradiction.
Qed.
End Group.

Lemma first_true_spec l : forall i, match first_true l i with
  | Some k => (i <= k < i + length l)%nat /\ nth (k - i) l false = true /\ forall j, (j < k - i)%nat -> nth j l false = false
  | None => forall j, nth j l false = false end.
Proof.
  induction l as [|b l IH]; intros i; cbn [first_true]. intros [|j]; reflexivity.
  destruct b.
  - cbn [List.length]. rewrite Nat.sub_diag. split; [lia|]. split; [reflexivity|]. intros j Hj. lia.
  - specialize (IH (S i)). destruct (first_true l (S i)) as [k|].
    + destruct IH as (A & B & C). cbn [List.length]. split; [lia|]. replace (k - i)%nat with (S (k - S i)) by lia. cbn [nth]. split; [exact B|].
      intros [|j] Hj; [reflexivity|]. cbn [nth]. apply C. lia.
    + intros [|j]; [reflexivity|]. apply IH.
Qed.
Lemma argmax_bool_bound l : l <> [] -> (argmax_bool l < length l)%nat.
Proof. intros H. unfold argmax_bool. assert (X := first_true_spec l 0). destruct (first_true l 0). lia. destruct l; [congruence|]. cbn. lia. Qed.

(** ---- ranking ---- *)
Lemma Qle_tot x y : Qle_bool x y = false -> Qle_bool y x = true.
Proof. rewrite Qleb_false, Qleb_true. lra. Qed.
Lemma Qle_tr x y z : Qle_bool x y = true -> Qle_bool y z = true -> Qle_bool x z = true.
Proof. rewrite !Qleb_true. lra. Qed.
Lemma ranked_perm p : Permutation (seq 0 (length p)) (ranked_labels p).
Proof. unfold ranked_labels. etransitivity; [apply (argsort_perm Qle_bool 0 Qle_tot Qle_tr p)|apply Permutation_rev]. Qed.
Lemma ranked_length p : length (ranked_labels p) = length p.
Proof. rewrite <- (Permutation_length (ranked_perm p)). apply seq_length. Qed.
Lemma ranked_sorted p : StronglySorted (fun i j => nth j p 0 <= nth i p 0) (ranked_labels p).
Proof.
  unfold ranked_labels. assert (X := sorted_rev _ _ (argsort_sorted Qle_bool 0 Qle_tot Qle_tr p)).
  rewrite <- (map_id (rev _)). eapply StronglySorted_map; [|exact X]. intros i j Hij. destruct Hij as [A _]. now apply Qleb_true.
Qed.
Lemma ranked_nodup p : NoDup (ranked_labels p).
Proof. eapply Permutation_NoDup; [apply ranked_perm|apply seq_NoDup]. Qed.
Lemma ranked_in p i : In i (ranked_labels p) <-> (i < length p)%nat.
Proof. split; intros H. apply (Permutation_in _ (Permutation_sym (ranked_perm p))) in H. apply in_seq in H. lia. apply (Permutation_in _ (ranked_perm p)). apply in_seq. lia. Qed.

Lemma sorted_app {A} (R : A -> A -> Prop) l m : StronglySorted R (l ++ m) -> StronglySorted R l /\ (forall x y, In x l -> In y m -> R x y).
Proof.
  induction l as [|x l IH]; cbn [app]; intros H. split; [constructor|intros ? ? []]. apply StronglySorted_inv in H. destruct H as [H F]. destruct (IH H) as [A1 B]. rewrite Forall_forall in F. split.
  - constructor; [assumption|]. apply Forall_forall. intros y Hy. apply F. apply in_app_iff. now left.
  - intros a y [<-|Ha] Hy; [apply F; apply in_app_iff; now right|now apply B].
Qed.
Lemma NoDup_app_l {A} (l m : list A) : NoDup (l ++ m) -> NoDup l /\ (forall x, In x l -> ~ In x m).
Proof.
  induction l as [|x l IH]; cbn [app]; intros H. split; [constructor|intros ? []]. inversion H as [|? ? N D]; subst. destruct (IH D) as [A1 B]. split.
  - constructor; [|assumption]. intros Hx. apply N. apply in_app_iff. now left.
  - intros y [<-|Hy]; [intros Hm; apply N; apply in_app_iff; now right|now apply B].
Qed.
Lemma prefix_top p k : top_labels p (firstn k (ranked_labels p)).
Proof.
  assert (S0 := ranked_sorted p). assert (N := ranked_nodup p). rewrite <- (firstn_skipn k (ranked_labels p)) in S0, N.
  apply sorted_app in S0. destruct S0 as [S1 S2]. apply NoDup_app_l in N. destruct N as [N1 N2].
  assert (I : forall i, (i < length p)%nat -> In i (firstn k (ranked_labels p)) \/ In i (skipn k (ranked_labels p))).
  { intros i Hi. apply in_app_iff. rewrite firstn_skipn. now apply ranked_in. }
  repeat split; try assumption.
  - intros i Hi. apply ranked_in. rewrite <- (firstn_skipn k (ranked_labels p)). apply in_app_iff. now left.
  - intros i j Hi Hj Nj. destruct (I j Hj) as [X|X]; [contradiction|]. now apply S2.
Qed.

(** ---- masses ---- *)
Lemma mass_tot p l : mass p l = tot (fun i => nth i p 0) l. Proof. reflexivity. Qed.
Lemma mass_perm p l m : Permutation l m -> mass p l == mass p m.
Proof. intros H. rewrite !mass_tot. now apply tot_perm. Qed.
Lemma mass_le p : forall l m, length l = length m -> (forall i j, In i l -> In j m -> nth i p 0 <= nth j p 0) -> mass p l <= mass p m.
Proof.
  induction l as [|i l IH]; intros [|j m] L H; try discriminate L. apply Qle_refl. rewrite !mass_tot, !tot_cons, <- !mass_tot.
  assert (X := H i j (or_introl eq_refl) (or_introl eq_refl)). specialize (IH m ltac:(cbn in L; lia) (fun a b Ha Hb => H a b (or_intror Ha) (or_intror Hb))). lra.
Qed.
Lemma mass_nonneg p l : Forall (fun x => 0 <= x) p -> 0 <= mass p l.
Proof.
  intros F. rewrite mass_tot. apply tot_nonneg. intros i _. destruct (Nat.lt_ge_cases i (length p)) as [H|H]. rewrite Forall_forall in F. apply F. now apply nth_In. rewrite nth_overflow by assumption. apply Qle_refl.
Qed.
Definition memb (l : list nat) (i : nat) : bool := existsb (Nat.eqb i) l.
Lemma memb_in l i : memb l i = true <-> In i l.
Proof. unfold memb. rewrite existsb_exists. split. intros (j & H & E). apply Nat.eqb_eq in E. now subst. intros H. exists i. split; [assumption|apply Nat.eqb_refl]. Qed.
Lemma filter_split_perm {A} (f : A -> bool) l : Permutation l (filter f l ++ filter (fun x => negb (f x)) l).
Proof.
  induction l as [|x l IH]; cbn [filter]. constructor. destruct (f x); cbn [negb app]. now constructor.
  transitivity (x :: filter f l ++ filter (fun x => negb (f x)) l). now constructor. apply Permutation_middle.
Qed.
Lemma mass_app p l m : mass p (l ++ m) == mass p l + mass p m.
Proof. rewrite !mass_tot. apply tot_app. Qed.
(** no set of labels beats the ranked prefix of its size *)
Lemma prefix_best p q : label_set p q -> mass p q <= mass p (firstn (length q) (ranked_labels p)).
Proof.
  intros [N I]. set (T := firstn (length q) (ranked_labels p)). assert (TT := prefix_top p (length q)). fold T in TT. destruct TT as (NT & IT & _ & BT).
  assert (Lq : (length q <= length p)%nat). { assert (X := NoDup_incl_length N (l' := seq 0 (length p))). rewrite seq_length in X. apply X. intros i Hi. apply in_seq. specialize (I i Hi). lia. }
  assert (LT : length T = length q). { unfold T. rewrite firstn_length, ranked_length. lia. }
  assert (P : Permutation (filter (memb T) q) (filter (memb q) T)).
  { apply NoDup_Permutation; try (now apply NoDup_filter). intros x. rewrite !filter_In, !memb_in. tauto. }
  assert (Pq := filter_split_perm (memb T) q). assert (PT := filter_split_perm (memb q) T).
  assert (L : length (filter (fun x => negb (memb T x)) q) = length (filter (fun x => negb (memb q x)) T)).
  { apply Permutation_length in Pq, PT, P. rewrite app_length in Pq, PT. lia. }
  rewrite (mass_perm p _ _ Pq), (mass_perm p _ _ PT), !mass_app, (mass_perm p _ _ P).
  assert (X : mass p (filter (fun x => negb (memb T x)) q) <= mass p (filter (fun x => negb (memb q x)) T)).
  { apply mass_le; [exact L|]. intros i j Hi Hj. apply filter_In in Hi, Hj. destruct Hi as [Hi Hi'], Hj as [Hj Hj']. apply BT; [assumption|now apply I|]. intros Z. apply memb_in in Z. rewrite Z in Hi'. discriminate. }
  lra.
Qed.
Lemma qsum_total l : qsum l = total l. Proof. reflexivity. Qed.
Lemma nth_cums p k : (k < length p)%nat -> nth k (cumsum (map (fun i => nth i p 0) (ranked_labels p))) 0 == mass p (firstn (S k) (ranked_labels p)).
Proof. intros H. unfold cumsum. rewrite cumsum_from_nth by (rewrite map_length, ranked_length; exact H). rewrite firstn_map, qsum_total. unfold mass. ring. Qed.
Lemma cumsum_length l : forall acc, length (cumsum_from acc l) = length l.
Proof. induction l as [|x l IH]; intros acc; cbn; [reflexivity|now rewrite IH]. Qed.
Lemma mass_all p : mass p (ranked_labels p) == total p.
Proof. rewrite <- (mass_perm p _ _ (ranked_perm p)). unfold mass. now rewrite map_nth_self. Qed.
Definition cset (p : list Q) (e : Q) : list nat := firstn (S (index_true p e)) (ranked_labels p).
Lemma index_true_bound p e : p <> [] -> (index_true p e < length p)%nat.
Proof.
  intros H. unfold index_true. set (l := map _ (cumsum _)). assert (L : length l = length p). { unfold l, cumsum. rewrite map_length, cumsum_length, map_length. apply ranked_length. }
  rewrite <- L. apply argmax_bool_bound. intros Z. rewrite Z in L. destruct p; [congruence|discriminate].
Qed.
Lemma index_true_spec p e : p <> [] ->
  (1 - e < mass p (cset p e) /\ forall j, (j < index_true p e)%nat -> mass p (firstn (S j) (ranked_labels p)) <= 1 - e) \/
  (index_true p e = 0%nat /\ forall j, (j < length p)%nat -> mass p (firstn (S j) (ranked_labels p)) <= 1 - e).
Proof.
  intros H. unfold cset. unfold index_true, argmax_bool. set (c := cumsum _). assert (L : length c = length p). { unfold c, cumsum. rewrite cumsum_length, map_length. apply ranked_length. }
  assert (X := first_true_spec (map (fun c => Qlt_bool (1 - e) c) c) 0). rewrite map_length, L in X.
  assert (NT : forall j, (j < length p)%nat -> nth j (map (fun c => Qlt_bool (1 - e) c) c) false = Qlt_bool (1 - e) (nth j c 0)).
  { intros j Hj. rewrite (nth_indep _ false (Qlt_bool (1 - e) 0)) by (rewrite map_length, L; exact Hj). now rewrite (map_nth (fun c => Qlt_bool (1 - e) c)). }
  destruct (first_true _ 0) as [k|].
  - left. destruct X as (A & B & C). rewrite Nat.sub_0_r in B, C. split.
    + rewrite NT in B by lia. apply Qltb_true in B. unfold c in B. rewrite nth_cums in B by lia. exact B.
    + intros j Hj. specialize (C j Hj). rewrite NT in C by lia. apply Qltb_false in C. unfold c in C. rewrite nth_cums in C by lia. exact C.
  - right. split; [reflexivity|]. intros j Hj. specialize (X j). rewrite NT in X by lia. apply Qltb_false in X. unfold c in X. rewrite nth_cums in X by lia. exact X.
Qed.
Lemma cset_length p e : p <> [] -> length (cset p e) = S (index_true p e).
Proof. intros H. assert (B := index_true_bound p e H). unfold cset. rewrite firstn_length, ranked_length. lia. Qed.
(** reachable levels *)
Lemma cset_reach p e : p <> [] -> 1 - e < total p ->
  1 - e < mass p (cset p e) /\ forall j, (j < index_true p e)%nat -> mass p (firstn (S j) (ranked_labels p)) <= 1 - e.
Proof.
  intros H R. destruct (index_true_spec p e H) as [X|[_ X]]; [exact X|exfalso]. assert (0 < length p)%nat by (destruct p; [congruence|cbn; lia]).
  specialize (X (length p - 1)%nat ltac:(lia)). replace (S (length p - 1)) with (length (ranked_labels p)) in X by (rewrite ranked_length; lia). rewrite firstn_all, mass_all in X. lra.
Qed.

Lemma credible_rows k rows e : (forall r, In r rows -> length r = k) -> (0 < k)%nat ->
  length (credible_sets k rows e) = length rows /\
  forall i p, nth_error rows i = Some p -> nth_error (credible_sets k rows e) i = Some (Some (cset p e)).
Proof.
  intros H K. unfold credible_sets. cbv zeta. set (idxs := map _ rows).
  destruct (group_fold (length rows) (fun i => nth i idxs 0%nat) (fun s i => Some (firstn (S s) (ranked_labels (nth i rows [])))) None (seq 0 k) (repeat None (length rows)) (repeat_length _ _)) as [A B].
  unfold group_step in A, B. split; [exact A|]. intros i p Hi. assert (Li : (i < length rows)%nat) by (apply nth_error_Some; congruence).
  erewrite nth_error_nth' by (rewrite A; exact Li). f_equal. rewrite (B i Li).
  assert (E : nth i idxs 0%nat = index_true p e). { apply nth_error_nth. unfold idxs. rewrite nth_error_map, Hi. reflexivity. }
  assert (Hp : p <> []). { assert (L := H p (nth_error_In _ _ Hi)). destruct p; [cbn in L; lia|congruence]. }
  rewrite E. replace (existsb _ _) with true. { unfold cset. now rewrite (nth_error_nth _ _ _ Hi). }
  symmetry. apply existsb_exists. exists (index_true p e). split; [|apply Nat.eqb_refl]. apply in_seq. assert (B0 := index_true_bound p e Hp). rewrite (H p (nth_error_In _ _ Hi)) in B0. lia.
Qed.

Theorem credible_set_meaning : forall k rows e i p, (forall r, In r rows -> length r = k) -> (0 < k)%nat ->
  nth_error rows i = Some p -> 1 - e < total p -> 
  exists s, nth_error (credible_sets k rows e) i = Some (Some s) /\ top_labels p s /\ s <> [] /\ 1 - e < mass p s /\
    forall q, label_set p q -> 1 - e < mass p q -> e <= 1 -> (length s <= length q)%nat.
Proof.
  intros k rows e i p H K Hi R. destruct (credible_rows k rows e H K) as [_ B]. exists (cset p e). split; [now apply B|].
  assert (Hp : p <> []). { assert (L := H p (nth_error_In _ _ Hi)). destruct p; [cbn in L; lia|congruence]. }
  destruct (cset_reach p e Hp R) as [M F]. split; [apply prefix_top|]. split. { intros Z. assert (L := cset_length p e Hp). rewrite Z in L. discriminate. }
  split; [exact M|]. intros q Lq Mq E. rewrite (cset_length p e Hp). destruct (Nat.le_gt_cases (S (index_true p e)) (length q)) as [G|G]; [exact G|exfalso].
  assert (Bq := prefix_best p q Lq). destruct (length q) as [|m]. { cbn [firstn] in Bq. change (mass p []) with 0 in Bq. lra. }
  assert (X := F m ltac:(lia)). lra.
Qed.
Theorem credible_sets_length : forall k rows e, (forall r, In r rows -> length r = k) -> (0 < k)%nat -> length (credible_sets k rows e) = length rows.
Proof. intros k rows e H K. now apply credible_rows. Qed.
Theorem credible_nested : forall k rows e e' i p s s', (forall r, In r rows -> length r = k) -> (0 < k)%nat ->
  nth_error rows i = Some p -> e' <= e -> e <= 1 -> 1 - e' < total p ->
  nth_error (credible_sets k rows e) i = Some (Some s) -> nth_error (credible_sets k rows e') i = Some (Some s') ->
  exists r, s' = s ++ r.
Proof.
  intros k rows e e' i p s s' H K Hi L1 L2 R Hs Hs'. destruct (credible_rows k rows e H K) as [_ B]. destruct (credible_rows k rows e' H K) as [_ B']. rewrite (B i p Hi) in Hs. rewrite (B' i p Hi) in Hs'. injection Hs as <-. injection Hs' as <-.
  assert (Hp : p <> []). { assert (L := H p (nth_error_In _ _ Hi)). destruct p; [cbn in L; lia|congruence]. }
  destruct (cset_reach p e' Hp R) as [M _]. destruct (credible_set_meaning k rows e i p H K Hi ltac:(lra)) as (s0 & E & _ & _ & _ & Min). rewrite (B i p Hi) in E. injection E as <-.
  assert (T := prefix_top p (S (index_true p e'))). fold (cset p e') in T. destruct T as (N & I & _).
  assert (X := Min (cset p e') (conj N I) ltac:(lra) L2). rewrite !cset_length in X by assumption. unfold cset. 
  exists (skipn (S (index_true p e)) (firstn (S (index_true p e')) (ranked_labels p))).
  rewrite <- (firstn_skipn (S (index_true p e)) (firstn (S (index_true p e')) (ranked_labels p))) at 1. f_equal. rewrite firstn_firstn. f_equal. lia.
Qed.
(** a level that no set exceeds gives the single most probable label *)
Theorem credible_unreachable : forall k rows e i p, (forall r, In r rows -> length r = k) -> (0 < k)%nat ->
  nth_error rows i = Some p -> Forall (fun x => 0 <= x) p -> total p <= 1 - e ->
  exists c, nth_error (credible_sets k rows e) i = Some (Some [c]) /\ (c < length p)%nat /\ forall j, (j < length p)%nat -> nth j p 0 <= nth c p 0.
Proof.
  intros k rows e i p H K Hi NN R. destruct (credible_rows k rows e H K) as [_ B]. rewrite (B i p Hi).
  assert (Hp : p <> []). { assert (L := H p (nth_error_In _ _ Hi)). destruct p; [cbn in L; lia|congruence]. }
  assert (Z : index_true p e = 0%nat). { destruct (index_true_spec p e Hp) as [[M _]|[Z _]]; [exfalso|exact Z]. unfold cset in M. rewrite <- (mass_all p) in R. rewrite <- (firstn_skipn (S (index_true p e)) (ranked_labels p)) in R at 1. rewrite mass_app in R. assert (X := mass_nonneg p (skipn (S (index_true p e)) (ranked_labels p)) NN). lra. }
  assert (L := cset_length p e Hp). rewrite Z in L. destruct (cset p e) as [|c [|d s]] eqn:E; try discriminate. exists c. split; [reflexivity|].
  assert (T := prefix_top p (S (index_true p e))). fold (cset p e) in T. rewrite E in T. destruct T as (_ & I & _ & D). split; [apply I; now left|]. intros j Hj. destruct (Nat.eq_dec j c) as [->|N]. apply Qle_refl. apply D; [now left|assumption|]. intros [->|[]]. congruence.
Qed.
(** so error 0 does not give full coverage *)
Theorem credible_zero_error_refuted : exists k rows p s, (forall r, In r rows -> length r = k) /\ total p == 1 /\ Forall (fun x => 0 <= x) p /\
  nth_error rows 0 = Some p /\ nth_error (credible_sets k rows 0) 0 = Some (Some s) /\ ~ 1 - 0 <= mass p s.
Proof.
  exists 2%nat, [[1 # 2; 1 # 2]], [1 # 2; 1 # 2], [1%nat]. split. { intros r [<-|[]]. reflexivity. } split; [reflexivity|]. split. { repeat constructor; discriminate. } split; [reflexivity|]. split; [reflexivity|]. vm_compute. intros H. now apply H.
Qed.
