From Coq Require Import List Arith ZArith QArith Qround Qminmax Qabs Bool Lia Lqa Permutation Sorted.
From Verif Require Import Lib QuantModel QuantSpec QuantProofs ConfRegModel ConfRegSpec ConfRegProofs.
Import ListNotations.
Open Scope Q_scope.

(** ---- split conformal methods, every point held out in turn ---- *)
Lemma without_map {A B} (f : A -> B) i l : without i (map f l) = map f (without i l).
Proof. unfold without. now rewrite map_app, firstn_map, skipn_map. Qed.

Lemma point_split {A} (l : list A) i d : (i < length l)%nat -> firstn 1 (skipn i l) = [nth i l d].
Proof.
  revert i. induction l as [|x l IH]; intros [|i] H; simpl in H; try lia; [reflexivity|]. simpl. apply IH. lia.
Qed.

Lemma zip_map {A B C D} (f : B -> C -> D) (g : A -> B) (h : A -> C) l : zip_with f (map g l) (map h l) = map (fun x => f (g x) (h x)) l.
Proof. unfold zip_with. induction l as [|x l IH]; [reflexivity|]. simpl. f_equal. apply IH. Qed.

Lemma combine_map {A B C} (g : A -> B) (h : A -> C) l : combine (map g l) (map h l) = map (fun x => (g x, h x)) l.
Proof. induction l as [|x l IH]; [reflexivity|]. simpl. f_equal. apply IH. Qed.

Lemma scores_map (sc : Q -> Q -> Q -> Q) (data : list (Q * Q * Q)) :
  broadcast (fun b y => sc (fst b) (snd b) y) (combine (map (fun d => fst (fst d)) data) (map (fun d => snd (fst d)) data)) (map (fun d => snd d) data)
  = Ok (map (fun d => sc (fst (fst d)) (snd (fst d)) (snd d)) data).
Proof.
  unfold broadcast. rewrite combine_map, !map_length, Nat.eqb_refl. rewrite zip_map. reflexivity.
Qed.

Lemma holdout_quantile_eq data error i : (i < length data)%nat -> 0 <= error <= 1 ->
  holdout_quantile data error i = holdout_covered (map (fun d => quantile_score1 (fst (fst d)) (snd (fst d)) (snd d)) data) error i.
Proof.
  intros Hi E. unfold holdout_quantile. rewrite (point_split data i (0, 0, 0) Hi).
  set (d := nth i data (0, 0, 0)).
  unfold quantile_interval. rewrite !map_length, !Nat.eqb_refl. cbn [negb map].
  unfold quantile_quantile. apply error_range in E. rewrite E. unfold quantile_score. rewrite !map_length, Nat.eqb_refl.
  rewrite scores_map. cbn [bind]. unfold split_quantile. rewrite E. cbn [bind].
  unfold zip_with, are_in. cbn [combine map forallb fst snd]. rewrite andb_true_r, quantile_is_in.
  unfold holdout_covered. rewrite without_map, !map_length.
  rewrite (without_length data i Hi).
  f_equal. unfold d.
  rewrite (nth_indep _ 0 (quantile_score1 (fst (fst (0, 0, 0))) (snd (fst (0, 0, 0))) (snd (0, 0, 0)))) by now rewrite map_length.
  rewrite (map_nth (fun d : Q * Q * Q => quantile_score1 (fst (fst d)) (snd (fst d)) (snd d))). reflexivity.
Qed.

Theorem holdout_quantile_coverage data error : (2 <= length data)%nat -> 0 <= error <= 1 ->
  let n := (length data - 1)%nat in
  (Nat.min (split_k n error) n <= count (holdout_quantile data error) (seq 0 (length data)))%nat.
Proof.
  intros L E n. set (ss := map (fun d => quantile_score1 (fst (fst d)) (snd (fst d)) (snd d)) data).
  assert (X : length ss = length data) by apply map_length.
  pose proof (holdout_coverage ss error ltac:(lia) E) as H. rewrite X in H. cbv zeta in H.
  rewrite (count_ext (holdout_quantile data error) (holdout_covered ss error)); [exact H|].
  intros i Hi. apply in_seq in Hi. apply holdout_quantile_eq; [lia|assumption].
Qed.

Lemma existsb_le0 us : (forall u, In u us -> 0 < u) -> existsb (fun u => Qle_bool u 0) us = false.
Proof.
  intros H. destruct (existsb _ us) eqn:X; [|reflexivity]. apply existsb_exists in X. destruct X as (u & Hu & X).
  apply Qleb_true in X. specialize (H u Hu). lra.
Qed.

Lemma holdout_uncert_eq data error i : (i < length data)%nat -> 0 <= error <= 1 -> (forall d, In d data -> 0 < snd (fst d)) ->
  holdout_uncert data error i = holdout_covered (map (fun d => uncert_score1 (fst (fst d)) (snd (fst d)) (snd d)) data) error i.
Proof.
  intros Hi E U. unfold holdout_uncert. rewrite (point_split data i (0, 0, 0) Hi).
  set (d := nth i data (0, 0, 0)). assert (Hd : In d data) by now apply nth_In.
  assert (W : forall x, In x (without i data) -> In x data).
  { intros x Hx. apply (Permutation_in x (Permutation_sym (without_perm data i d (nth_error_nth' data (0, 0, 0) Hi)))). now right. }
  unfold uncert_interval. rewrite existsb_le0.
  2:{ intros u Hu. simpl in Hu. destruct Hu as [<-|[]]. now apply U. }
  unfold uncert_quantile. apply error_range in E. rewrite E. unfold uncert_score. rewrite existsb_le0.
  2:{ intros u Hu. apply in_map_iff in Hu. destruct Hu as (x & <- & Hx). apply U, W, Hx. }
  rewrite !map_length, Nat.eqb_refl.
  rewrite scores_map. cbn [bind]. unfold split_quantile. rewrite E. cbn [bind].
  unfold broadcast. cbn [map length]. rewrite Nat.eqb_refl.
  unfold zip_with, are_in. cbn [combine map forallb fst snd]. rewrite andb_true_r, uncert_is_in by now apply U.
  unfold holdout_covered. rewrite without_map, !map_length.
  rewrite (without_length data i Hi).
  f_equal. unfold d.
  rewrite (nth_indep _ 0 (uncert_score1 (fst (fst (0, 0, 0))) (snd (fst (0, 0, 0))) (snd (0, 0, 0)))) by now rewrite map_length.
  rewrite (map_nth (fun d : Q * Q * Q => uncert_score1 (fst (fst d)) (snd (fst d)) (snd d))). reflexivity.
Qed.

Theorem holdout_uncert_coverage data error : (2 <= length data)%nat -> 0 <= error <= 1 -> (forall d, In d data -> 0 < snd (fst d)) ->
  let n := (length data - 1)%nat in
  (Nat.min (split_k n error) n <= count (holdout_uncert data error) (seq 0 (length data)))%nat.
Proof.
  intros L E U n. set (ss := map (fun d => uncert_score1 (fst (fst d)) (snd (fst d)) (snd d)) data).
  assert (X : length ss = length data) by apply map_length.
  pose proof (holdout_coverage ss error ltac:(lia) E) as H. rewrite X in H. cbv zeta in H.
  rewrite (count_ext (holdout_uncert data error) (holdout_covered ss error)); [exact H|].
  intros i Hi. apply in_seq in Hi. apply holdout_uncert_eq; [lia|assumption|assumption].
Qed.

(** ---- jackknife+ ---- *)
(** tournaments *)
Definition nsum (l : list nat) : nat := fold_right Nat.add 0%nat l.

Lemma nsum_map_plus {A} (f g : A -> nat) l : nsum (map (fun x => f x + g x)%nat l) = (nsum (map f l) + nsum (map g l))%nat.
Proof. induction l as [|x l IH]; [reflexivity|]. simpl. fold (nsum (map (fun x => (f x + g x)%nat) l)). rewrite IH. simpl. unfold nsum. lia. Qed.

Lemma nsum_map_ext {A} (f g : A -> nat) l : (forall x, In x l -> f x = g x) -> nsum (map f l) = nsum (map g l).
Proof. intros H. f_equal. apply map_ext_in, H. Qed.

Lemma nsum_ge {A} (f : A -> nat) k l : (forall x, In x l -> k <= f x)%nat -> (k * length l <= nsum (map f l))%nat.
Proof.
  induction l as [|x l IH]; intros H; [simpl; lia|]. simpl. pose proof (H x (or_introl eq_refl)).
  assert (k * length l <= nsum (map f l))%nat by (apply IH; intros; apply H; now right). unfold nsum in *. lia.
Qed.

Lemma count_nsum {A} (f : A -> bool) l : count f l = nsum (map (fun x => if f x then 1 else 0)%nat l).
Proof. induction l as [|x l IH]; [reflexivity|]. rewrite count_cons, IH. reflexivity. Qed.

Lemma tournament {A} (beats : A -> A -> bool) : (forall a b, beats a b = true -> beats b a = false) ->
  forall s, (2 * nsum (map (fun i => count (beats i) s) s) <= length s * (length s - 1))%nat.
Proof.
  intros Anti. assert (Irr : forall a, beats a a = false) by (intros a; destruct (beats a a) eqn:X; [pose proof (Anti a a X); congruence|reflexivity]).
  induction s as [|x s IH]; [simpl; lia|].
  cbn [map nsum fold_right]. rewrite count_cons, Irr.
  rewrite (nsum_map_ext _ (fun i => (if beats i x then 1 else 0) + count (beats i) s)%nat) by (intros; apply count_cons).
  fold (nsum (map (fun i => ((if beats i x then 1 else 0) + count (beats i) s)%nat) s)).
  rewrite nsum_map_plus.
  rewrite <- (count_nsum (fun i => beats i x)).
  assert (D : (count (beats x) s + count (fun i => beats i x) s <= length s)%nat).
  { apply count_disjoint. intros y _ B1 B2. rewrite (Anti _ _ B1) in B2. discriminate. }
  cbn [length]. nia.
Qed.

Lemma count_in_filter {A} (f g : A -> bool) l : (count f l <= count f (filter g l) + count (fun x => negb (g x)) l)%nat.
Proof.
  induction l as [|x l IH]; [unfold count; simpl; lia|]. rewrite !count_cons. simpl filter.
  destruct (g x) eqn:G; [rewrite count_cons|]; destruct (f x); simpl; lia.
Qed.

(** at most 2(N-m)-1 players beat m others *)
Lemma strong_players (beats : nat -> nat -> bool) (f : nat -> bool) N m :
  (forall a b, beats a b = true -> beats b a = false) ->
  (forall i, (i < N)%nat -> f i = true -> (m <= count (beats i) (seq 0 N))%nat) -> (m < N)%nat ->
  (count f (seq 0 N) <= 2 * (N - m) - 1)%nat.
Proof.
  intros Anti H MN. set (s := filter f (seq 0 N)).
  assert (C : count f (seq 0 N) = length s) by reflexivity.
  pose proof (tournament beats Anti s) as T.
  pose proof (count_split f (seq 0 N)) as SP. rewrite seq_length, C in SP.
  assert (G : ((m - (N - length s)) * length s <= nsum (map (fun i => count (beats i) s) s))%nat).
  { apply nsum_ge. intros i Hi. apply filter_In in Hi. destruct Hi as (Hi & Fi). apply in_seq in Hi.
    specialize (H i ltac:(lia) Fi). pose proof (count_in_filter (beats i) f (seq 0 N)) as K. fold s in K. lia. }
  rewrite C. destruct (Nat.eq_dec (length s) 0) as [Z|Z]; [lia|].
  assert (X : (2 * (m - (N - length s)) <= length s - 1)%nat).
  { apply (Nat.mul_le_mono_pos_r _ _ (length s)); [lia|]. nia. }
  lia.
Qed.

Lemma others_length N i : (i < N)%nat -> length (others N i) = (N - 1)%nat.
Proof.
  intros H. unfold others. pose proof (count_split (fun j => negb (j =? i)%nat) (seq 0 N)) as S. rewrite seq_length in S.
  assert (C : count (fun j => negb (negb (j =? i)%nat)) (seq 0 N) = 1%nat).
  { rewrite (count_ext _ (fun j => (i =? j)%nat)).
    2:{ intros x _. rewrite negb_involutive. apply Nat.eqb_sym. }
    clear S. replace N with (i + (1 + (N - i - 1)))%nat by lia. rewrite !seq_app, !count_app. simpl (0 + i)%nat.
    rewrite (count_ext _ (fun _ => false) (seq 0 i)).
    2:{ intros x Hx. apply in_seq in Hx. apply Nat.eqb_neq. lia. }
    rewrite (count_ext _ (fun _ => false) (seq (i + 1) _)).
    2:{ intros x Hx. apply in_seq in Hx. apply Nat.eqb_neq. lia. }
    assert (Z : forall l : list nat, count (fun _ => false) l = 0%nat) by (intros l; induction l; [reflexivity|now rewrite count_cons]).
    rewrite !Z. simpl. unfold count. simpl. now rewrite Nat.eqb_refl. }
  unfold count in *. lia.
Qed.

Lemma count_others f N i : (count f (others N i) <= count f (seq 0 N))%nat.
Proof.
  unfold others. generalize (seq 0 N) as l. induction l as [|x l IH]; [simpl; lia|]. simpl.
  destruct (negb (x =? i)%nat); rewrite !count_cons; lia.
Qed.

Lemma slack_le n e : (0 < n)%nat -> 0 <= e <= 1 -> (slack n e <= n - 1)%nat /\
  e * (inject_Z (Z.of_nat n) - 1) <= inject_Z (Z.of_nat (slack n e)).
Proof.
  intros P E. unfold slack.
  assert (NN : inject_Z (Z.of_nat n) - 1 == inject_Z (Z.of_nat n - 1)) by (unfold Z.sub; rewrite inject_Z_plus; reflexivity).
  assert (N0 : 0 <= inject_Z (Z.of_nat n - 1)) by (change 0 with (inject_Z 0); rewrite <- Zle_Qle; lia).
  set (x := inject_Z (Z.of_nat n) - 1) in *.
  assert (X0 : 0 <= e * x) by (apply Qmult_le_0_compat; lra).
  assert (C0 : (0 <= Qceiling (e * x))%Z).
  { change 0%Z with (Qceiling (inject_Z 0)). apply Qceiling_resp_le. exact X0. }
  split.
  - assert (Qceiling (e * x) <= Z.of_nat n - 1)%Z; [|lia]. apply ceiling_le.
    assert (e * x <= 1 * x) by (apply Qmult_le_compat_r; lra). lra.
  - rewrite Z2Nat.id by assumption. apply Qle_ceiling.
Qed.

(** i beats j when its residual under the model without both is larger *)
Definition beats (y : nat -> Q) (pred : nat -> nat -> Q) (i j : nat) : bool :=
  Qlt_bool (Qabs (y j - pred j i)) (Qabs (y i - pred i j)).

Lemma beats_anti y pred a b : beats y pred a b = true -> beats y pred b a = false.
Proof. unfold beats. intros H. apply Qltb_true in H. apply Qltb_false. lra. Qed.

Lemma count_beats_of y pred i l (v : nat -> bool) k : (k <= count v l)%nat ->
  (forall j, In j l -> v j = true -> beats y pred i j = true) -> (k <= count (beats y pred i) l)%nat.
Proof. intros K H. eapply Nat.le_trans; [exact K|]. apply count_mono, H. Qed.

Lemma holdout_plus_interval y pred N error i : (2 <= N)%nat -> (i < N)%nat ->
  holdout_jack jack_plus y pred N error i =
  is_in (y i) (jack_plus1 (map (fun j => pred i j) (others N i)) (map (fun j => Qabs (y j - pred j i)) (others N i)) error).
Proof.
  intros HN Hi. unfold holdout_jack, jack_plus. rewrite !map_length, Nat.eqb_refl. cbn [negb].
  pose proof (others_length N i Hi) as OL. destruct (others N i) as [|o os] eqn:O; [simpl in OL; lia|].
  cbn [map n_columns length seq]. unfold are_in. cbn [combine map forallb fst snd]. rewrite andb_true_r.
  f_equal. rewrite <- !map_cons with (f := fun j => [pred i j]). 
  assert (C : column 0 ([pred i o] :: map (fun j => [pred i j]) os) = pred i o :: map (fun j => pred i j) os).
  { unfold column. simpl. f_equal. rewrite map_map. reflexivity. }
  assert (R : residuals (pred o i :: map (fun j => pred j i) os) (y o :: map y os) = Qabs (y o - pred o i) :: map (fun j => Qabs (y j - pred j i)) os).
  { unfold residuals. rewrite zip_cons, zip_map. reflexivity. }
  simpl map. rewrite C, R. reflexivity.
Qed.

Lemma plus_uncovered y pred N error i : (2 <= N)%nat -> (i < N)%nat -> 0 <= error <= 1 ->
  holdout_jack jack_plus y pred N error i = false ->
  (N - 1 - slack (N - 1) error <= count (beats y pred i) (seq 0 N))%nat.
Proof.
  intros HN Hi E H. rewrite holdout_plus_interval in H by assumption.
  pose proof (others_length N i Hi) as OL. set (n := (N - 1)%nat) in *.
  destruct (slack_le n error ltac:(lia) E) as (S1 & S2). set (c := slack n error) in *.
  eapply Nat.le_trans; [|apply (count_others _ N i)].
  unfold is_in, jack_plus1 in H. cbn [fst snd] in H. rewrite !zip_map in H. 
  set (U := map (fun j => pred i j + Qabs (y j - pred j i)) (others N i)) in H.
  set (L := map (fun j => pred i j - Qabs (y j - pred j i)) (others N i)) in H.
  assert (LU : length U = n) by (unfold U; now rewrite map_length).
  assert (LL : length L = n) by (unfold L; now rewrite map_length).
  assert (NC : inject_Z (Z.of_nat (n - c)) == inject_Z (Z.of_nat n) - inject_Z (Z.of_nat c)).
  { rewrite Nat2Z.inj_sub by lia. unfold Z.sub. now rewrite inject_Z_plus, inject_Z_opp. }
  apply andb_false_iff in H. destruct H as [H|H]; apply Qleb_false in H.
  - assert (K : (n - c <= n_le (quantile U (1 - error)) U)%nat).
    { apply quantile_n_le; [lia|]. unfold qpos. rewrite LU, NC.
      setoid_replace ((1 - error) * (inject_Z (Z.of_nat n) - 1) + 1) with (inject_Z (Z.of_nat n) - error * (inject_Z (Z.of_nat n) - 1)) by ring. lra. }
    set (v := quantile U (1 - error)) in *. unfold n_le, U in K. rewrite count_map in K. eapply count_beats_of; [exact K|].
    intros j _ Hj. apply Qleb_true in Hj. unfold beats. apply Qltb_true.
    pose proof (Qle_Qabs (y i - pred i j)). lra.
  - assert (K : (n - c <= n_ge (quantile L error) L)%nat).
    { apply quantile_n_ge; [lia|]. unfold qpos, qlen. rewrite LL, NC. lra. }
    set (v := quantile L error) in *. unfold n_ge, L in K. rewrite count_map in K. eapply count_beats_of; [exact K|].
    intros j _ Hj. apply Qleb_true in Hj. unfold beats. apply Qltb_true.
    pose proof (Qle_Qabs (- (y i - pred i j))) as A. rewrite Qabs_opp in A. lra.
Qed.

Theorem jack_plus_coverage y pred N error : (2 <= N)%nat -> 0 <= error <= 1 ->
  (count (fun i => negb (holdout_jack jack_plus y pred N error i)) (seq 0 N) <= 2 * slack (N - 1) error + 1)%nat.
Proof.
  intros HN E. destruct (slack_le (N - 1) error ltac:(lia) E) as (S1 & _).
  pose proof (strong_players (beats y pred) (fun i => negb (holdout_jack jack_plus y pred N error i)) N (N - 1 - slack (N - 1) error)
    (beats_anti y pred)) as P.
  assert ((count (fun i => negb (holdout_jack jack_plus y pred N error i)) (seq 0 N) <= 2 * (N - (N - 1 - slack (N - 1) error)) - 1)%nat); [|lia].
  apply P; [|lia]. intros i Hi F. apply negb_true_iff in F. now apply plus_uncovered.
Qed.

(** ---- jackknife-minmax ---- *)
Lemma holdout_minmax_interval y pred N error i : (2 <= N)%nat -> (i < N)%nat ->
  holdout_jack jack_minmax y pred N error i =
  is_in (y i) (jack_minmax1 (map (fun j => pred i j) (others N i)) (map (fun j => Qabs (y j - pred j i)) (others N i)) error).
Proof.
  intros HN Hi. unfold holdout_jack, jack_minmax. rewrite !map_length, Nat.eqb_refl. cbn [negb].
  pose proof (others_length N i Hi) as OL. destruct (others N i) as [|o os] eqn:O; [simpl in OL; lia|].
  cbn [map n_columns length seq]. unfold are_in. cbn [combine map forallb fst snd]. rewrite andb_true_r.
  f_equal.
  assert (C : column 0 ([pred i o] :: map (fun j => [pred i j]) os) = pred i o :: map (fun j => pred i j) os).
  { unfold column. simpl. f_equal. rewrite map_map. reflexivity. }
  assert (R : residuals (pred o i :: map (fun j => pred j i) os) (y o :: map y os) = Qabs (y o - pred o i) :: map (fun j => Qabs (y j - pred j i)) os).
  { unfold residuals. rewrite zip_cons, zip_map. reflexivity. }
  rewrite C, R. reflexivity.
Qed.

(** smallest residual of point i over all models *)
Definition best (y : nat -> Q) (pred : nat -> nat -> Q) (N i : nat) : Q :=
  qmin_list (map (fun j => Qabs (y i - pred i j)) (others N i)).

Lemma nth_map_seq0 (f : nat -> Q) N i : (i < N)%nat -> nth i (map f (seq 0 N)) 0 = f i.
Proof.
  intros H. rewrite (nth_indep _ 0 (f 0%nat)) by now rewrite map_length, seq_length.
  rewrite map_nth, seq_nth by assumption. reflexivity.
Qed.

Lemma in_others N i j : In j (others N i) <-> (j < N)%nat /\ j <> i.
Proof. unfold others. rewrite filter_In, in_seq, negb_true_iff, Nat.eqb_neq. lia. Qed.

Lemma minmax_uncovered y pred N error i : (2 <= N)%nat -> (i < N)%nat -> 0 <= error <= 1 ->
  holdout_jack jack_minmax y pred N error i = false ->
  (N - 1 - slack (N - 1) error <= n_lt (best y pred N i) (map (best y pred N) (seq 0 N)))%nat.
Proof.
  intros HN Hi E H. rewrite holdout_minmax_interval in H by assumption.
  pose proof (others_length N i Hi) as OL. set (n := (N - 1)%nat) in *.
  destruct (slack_le n error ltac:(lia) E) as (S1 & S2). set (c := slack n error) in *.
  unfold n_lt. rewrite count_map.
  eapply Nat.le_trans; [|apply (count_others _ N i)].
  set (R := map (fun j => Qabs (y j - pred j i)) (others N i)) in *.
  assert (LR : length R = n) by (unfold R; now rewrite map_length).
  assert (NC : inject_Z (Z.of_nat (n - c)) == inject_Z (Z.of_nat n) - inject_Z (Z.of_nat c)).
  { rewrite Nat2Z.inj_sub by lia. unfold Z.sub. now rewrite inject_Z_plus, inject_Z_opp. }
  assert (K : (n - c <= n_le (quantile R (1 - error)) R)%nat).
  { apply quantile_n_le; [lia|]. unfold qpos. rewrite LR, NC.
    setoid_replace ((1 - error) * (inject_Z (Z.of_nat n) - 1) + 1) with (inject_Z (Z.of_nat n) - error * (inject_Z (Z.of_nat n) - 1)) by ring. lra. }
  assert (B : quantile R (1 - error) < best y pred N i).
  { destruct (qmin_list_in (map (fun j => Qabs (y i - pred i j)) (others N i))) as (x & Hx & Ex).
    { intros X. apply map_eq_nil in X. rewrite X in OL. simpl in OL. lia. }
    unfold best. rewrite Ex. apply in_map_iff in Hx. destruct Hx as (j & <- & Hj).
    unfold is_in, jack_minmax1 in H. cbn [fst snd] in H.
    pose proof (qmin_list_le (map (fun j => pred i j) (others N i)) (pred i j) (in_map _ _ _ Hj)).
    pose proof (qmax_list_ge (map (fun j => pred i j) (others N i)) (pred i j) (in_map _ _ _ Hj)).
    pose proof (Qle_Qabs (y i - pred i j)).
    pose proof (Qle_Qabs (- (y i - pred i j))) as A. rewrite Qabs_opp in A.
    apply andb_false_iff in H. destruct H as [H|H]; apply Qleb_false in H; lra. }
  set (v := quantile R (1 - error)) in *. unfold n_le, R in K. rewrite count_map in K.
  eapply Nat.le_trans; [exact K|]. apply count_mono. intros j Hj Lj. apply Qleb_true in Lj. apply Qltb_true.
  apply in_others in Hj. destruct Hj as (Hj & NE).
  assert (M : best y pred N j <= Qabs (y j - pred j i)).
  { unfold best. apply qmin_list_le. apply in_map_iff. exists i. split; [reflexivity|]. apply in_others. split; [assumption|congruence]. }
  lra.
Qed.

Theorem jack_minmax_coverage y pred N error : (2 <= N)%nat -> 0 <= error <= 1 ->
  (count (fun i => negb (holdout_jack jack_minmax y pred N error i)) (seq 0 N) <= slack (N - 1) error + 1)%nat.
Proof.
  intros HN E. destruct (slack_le (N - 1) error ltac:(lia) E) as (S1 & _).
  set (f := fun i => negb (holdout_jack jack_minmax y pred N error i)).
  set (l := map (best y pred N) (seq 0 N)).
  assert (LL : length l = N) by (unfold l; now rewrite map_length, seq_length).
  pose proof (rank_bound l f (N - 1 - slack (N - 1) error)) as P. rewrite LL in P.
  destruct (Nat.eq_dec (count f (seq 0 N)) 0) as [Z|Z]; [lia|].
  assert ((count f (seq 0 N) + (N - 1 - slack (N - 1) error) <= N)%nat); [|lia].
  apply P; [|lia]. intros i Hi F. apply negb_true_iff in F.
  unfold l. rewrite nth_map_seq0 by assumption. now apply minmax_uncovered.
Qed.

(** the documented guarantees fail by the missing finite-sample correction *)
Definition bad_y (i : nat) : Q := match i with O => 10 | _ => 0 end.

Theorem jack_plus_guarantee_fails : exists y pred N error, (2 <= N)%nat /\ 0 < error /\
  inject_Z (Z.of_nat N) * (2 * error) < inject_Z (Z.of_nat (count (fun i => negb (holdout_jack jack_plus y pred N error i)) (seq 0 N))).
Proof. exists bad_y, (fun _ _ => 0), 2%nat, (1 # 10). repeat split; try (simpl; lia); reflexivity. Qed.
Theorem jack_minmax_guarantee_fails : exists y pred N error, (2 <= N)%nat /\ 0 < error /\
  inject_Z (Z.of_nat N) * error < inject_Z (Z.of_nat (count (fun i => negb (holdout_jack jack_minmax y pred N error i)) (seq 0 N))).
Proof. exists bad_y, (fun _ _ => 0), 2%nat, (1 # 10). repeat split; try (simpl; lia); reflexivity. Qed.

(** error below 1/(n+1): the corrected quantile would be infinite, the code takes the maximum *)
Theorem holdout_small_error_fails : exists data error, (2 <= length data)%nat /\ 0 < error < 1 /\
  inject_Z (Z.of_nat (count (holdout_quantile data error) (seq 0 (length data)))) < (1 - error) * qlen data.
Proof. exists [(0, 0, 1); (0, 0, 5)], (1 # 10). repeat split; try (simpl; lia); reflexivity. Qed.

Theorem minmax_contains_jack_plus outputs targets test e is1 is2 : outputs <> [] ->
  jack_minmax outputs targets test e = Ok is1 -> jack_plus outputs targets test e = Ok is2 -> Forall2 contains is1 is2.
Proof.
  intros N H1 H2. unfold jack_minmax, jack_plus in *.
  destruct (length outputs =? length targets)%nat eqn:L1; [|discriminate H1]. apply Nat.eqb_eq in L1.
  destruct (length test =? length outputs)%nat eqn:L2; [|discriminate H2]. apply Nat.eqb_eq in L2. simpl in *.
  injection H1 as <-. injection H2 as <-. apply map_forall2. intros t _. apply minmax_contains_plus.
  - apply (nonempty_len _ outputs); [now rewrite column_length|assumption].
  - rewrite column_length, residuals_length; auto.
Qed.

Theorem clip_ratio_fails : exists outs e t g es, 0 < g <= 1 /\ 0 < t < 1 /\ 0 <= e <= 1 /\
  adaptive_run e t g outs = Ok es /\
  (forall i, (i < length outs)%nat -> nth i outs true = false -> 0 < nth i es 0) /\
  t * qlen outs + 1 / g < misses outs.
Proof.
  exists (alternate 3), (1 # 10), (1 # 10), 1. eexists. split; [split; lra|]. split; [split; lra|]. split; [split; lra|].
  split; [reflexivity|]. split; [|reflexivity].
  intros i Hi F. simpl in Hi. do 6 (destruct i as [|i]; [simpl in F; try discriminate; reflexivity|]). lia.
Qed.

Theorem holdout_quantile_not_wide data error : (2 <= length data)%nat -> 0 <= error <= 1 ->
  (forall i j d e, nth_error data i = Some d -> nth_error data j = Some e ->
     quantile_score1 (fst (fst d)) (snd (fst d)) (snd d) == quantile_score1 (fst (fst e)) (snd (fst e)) (snd e) -> i = j) ->
  (count (holdout_quantile data error) (seq 0 (length data)) <= split_k (length data - 1) error + 1)%nat.
Proof.
  intros L E D. set (sc := fun d : Q * Q * Q => quantile_score1 (fst (fst d)) (snd (fst d)) (snd d)). set (ss := map sc data).
  assert (X : length ss = length data) by apply map_length.
  rewrite (count_ext (holdout_quantile data error) (holdout_covered ss error)).
  - rewrite <- X. apply holdout_not_wide; [lia|assumption|]. rewrite X. intros i j Hi Hj EQ.
    apply (D i j (nth i data (0,0,0)) (nth j data (0,0,0))); try (apply nth_error_nth'; assumption).
    unfold ss in EQ. rewrite (nth_indep _ 0 (sc (0,0,0))) in EQ by (now rewrite map_length).
    rewrite (nth_indep (map sc data) 0 (sc (0,0,0)) (n := j)) in EQ by (now rewrite map_length). rewrite !map_nth in EQ. exact EQ.
  - intros i Hi. apply in_seq in Hi. apply holdout_quantile_eq; [lia|assumption].
Qed.
