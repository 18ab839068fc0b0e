(** Coverage of CV+ over held-out folds. *)
From Coq Require Import List Arith ZArith QArith Qabs Bool Lia Lqa.
From Verif Require Import Lib QuantModel QuantSpec QuantProofs ConfRegModel ConfRegSpec ConfRegProofs ConfRegProofs2 ConfRegProofs3 CvSpec.
Import ListNotations.
Open Scope Q_scope.

(** ---- tournaments in which some players never meet ---- *)
Lemma tournament_meet {A} (beats meet : A -> A -> bool) : (forall a b, beats a b = true -> beats b a = false) ->
  (forall a b, beats a b = true -> meet a b = true) -> (forall a b, meet a b = meet b a) ->
  forall s, (2 * nsum (map (fun i => count (beats i) s) s) <= nsum (map (fun i => count (meet i) s) s))%nat.
Proof.
  intros Anti BM Sym. assert (Irr : forall a, beats a a = false) by (intros a; destruct (beats a a) eqn:X; [pose proof (Anti a a X); congruence|reflexivity]).
  induction s as [|x s IH]; [simpl; lia|].
  cbn [map nsum fold_right]. rewrite !count_cons, Irr.
  rewrite (nsum_map_ext _ (fun i => (if beats i x then 1 else 0) + count (beats i) s)%nat) by (intros; apply count_cons).
  rewrite (nsum_map_ext (fun i => count (meet i) (x :: s)) (fun i => (if meet i x then 1 else 0) + count (meet i) s)%nat) by (intros; apply count_cons).
  fold (nsum (map (fun i => ((if beats i x then 1 else 0) + count (beats i) s)%nat) s)).
  fold (nsum (map (fun i => ((if meet i x then 1 else 0) + count (meet i) s)%nat) s)).
  rewrite !nsum_map_plus, <- (count_nsum (fun i => beats i x)), <- (count_nsum (fun i => meet i x)).
  assert (E : count (fun i => meet i x) s = count (meet x) s) by (apply count_ext; intros; apply Sym). rewrite E.
  assert (D : (count (beats x) s + count (fun i => beats i x) s <= count (meet x) s)%nat).
  { clear - Anti BM Sym. induction s as [|y s IH]; [reflexivity|]. rewrite !count_cons. pose proof (Anti x y) as H1. pose proof (BM x y) as H2. pose proof (BM y x) as H3. rewrite (Sym y x) in H3.
    destruct (beats x y), (beats y x), (meet x y); try (specialize (H1 eq_refl); congruence); try (specialize (H2 eq_refl); congruence); try (specialize (H3 eq_refl); congruence); lia. }
  destruct (meet x x); lia.
Qed.
Lemma count_and_split {A} (f g : A -> bool) l : count g l = (count g (filter f l) + count (fun x => g x && negb (f x)) l)%nat.
Proof. induction l as [|x l IH]; [reflexivity|]. cbn [filter]. rewrite !count_cons. destruct (f x) eqn:F; [rewrite count_cons|]; rewrite IH; destruct (g x); cbn; lia. Qed.
Lemma nsum_le {A} (f g : A -> nat) l : (forall x, In x l -> f x <= g x)%nat -> (nsum (map f l) <= nsum (map g l))%nat.
Proof. induction l as [|x l IH]; intros H; [reflexivity|]. cbn [map nsum fold_right]. pose proof (H x (or_introl eq_refl)). assert (nsum (map f l) <= nsum (map g l))%nat by (apply IH; intros; apply H; now right). unfold nsum in *. lia. Qed.
Lemma nsum_const {A} (k : nat) (l : list A) : nsum (map (fun _ => k) l) = (k * length l)%nat.
Proof. induction l as [|x l IH]; [cbn; lia|]. cbn [map nsum fold_right length]. unfold nsum in IH. rewrite IH. lia. Qed.

(** players that beat all but c of the n they meet *)
Lemma strong_meet {A} (beats meet : A -> A -> bool) (f : A -> bool) l n m c :
  (forall a b, beats a b = true -> beats b a = false) -> (forall a b, beats a b = true -> meet a b = true) -> (forall a b, meet a b = meet b a) ->
  (forall i, In i l -> count (meet i) l = n) -> (forall i s, In i l -> s = filter f l -> (length s - m <= count (meet i) s)%nat) ->
  (forall i, In i l -> f i = true -> (n - c <= count (beats i) l)%nat) -> (count f l <= m + 2 * c)%nat.
Proof.
  intros Anti BM Sym CM CF H. set (s := filter f l).
  assert (C : count f l = length s) by reflexivity. rewrite C.
  assert (G : forall i, In i s -> (count (meet i) s <= c + count (beats i) s)%nat).
  { intros i I. apply filter_In in I. destruct I as (I & Fi). specialize (H i I Fi). pose proof (count_and_split f (beats i) l) as B. pose proof (count_and_split f (meet i) l) as M. rewrite (CM i I) in M. fold s in B, M.
    assert (W : (count (fun x => beats i x && negb (f x)) l <= count (fun x => meet i x && negb (f x)) l)%nat).
    { apply count_mono. intros x _ X. apply andb_true_iff in X. destruct X as (X1 & X2). rewrite (BM _ _ X1). exact X2. }
    lia. }
  pose proof (tournament_meet beats meet Anti BM Sym s) as T.
  pose proof (nsum_le _ _ s G) as S1. rewrite nsum_map_plus, nsum_const in S1.
  assert (S2 : ((length s - m) * length s <= nsum (map (fun i => count (meet i) s) s))%nat).
  { apply nsum_ge. intros i I. apply CF; [|reflexivity]. now apply filter_In in I. }
  destruct (Nat.eq_dec (length s) 0) as [Z|Z]; [lia|].
  assert (X : (length s - m <= 2 * c)%nat); [|lia].
  apply (Nat.mul_le_mono_pos_r _ _ (length s)); [lia|]. lia.
Qed.

(** ---- the points of folds ---- *)
Section Folds.
Variables (y : nat -> nat -> Q) (pred : nat -> nat -> nat -> Q) (K m : nat) (error : Q).
Definition points : list (nat * nat) := list_prod (seq 0 K) (seq 0 m).
Definition apart_folds (p q : nat * nat) : bool := negb (fst p =? fst q)%nat.
Definition resid (p : nat * nat) (l : nat) : Q := Qabs (y (fst p) (snd p) - pred (fst p) l (snd p)).
Definition fbeats (p q : nat * nat) : bool := apart_folds p q && Qlt_bool (resid q (fst p)) (resid p (fst q)).
Lemma fbeats_anti p q : fbeats p q = true -> fbeats q p = false.
Proof. unfold fbeats. intros H. apply andb_true_iff in H. destruct H as (_ & H). apply Qltb_true in H. apply andb_false_iff. right. apply Qltb_false. lra. Qed.
Lemma fbeats_apart p q : fbeats p q = true -> apart_folds p q = true.
Proof. unfold fbeats. intros H. now apply andb_true_iff in H. Qed.
Lemma apart_sym p q : apart_folds p q = apart_folds q p.
Proof. unfold apart_folds. now rewrite Nat.eqb_sym. Qed.
Lemma prod_filter (g : nat -> bool) l : filter (fun p => g (fst p)) (list_prod l (seq 0 m)) = list_prod (filter g l) (seq 0 m).
Proof.
  induction l as [|k l IH]; [reflexivity|]. cbn [list_prod filter]. rewrite filter_app, IH. destruct (g k) eqn:G.
  - cbn [list_prod]. f_equal. clear - G. induction (seq 0 m) as [|a r IHr]; [reflexivity|]. cbn [map filter fst]. rewrite G. now rewrite IHr.
  - assert (E : filter (fun p => g (fst p)) (map (fun b => (k, b)) (seq 0 m)) = []) by (clear - G; induction (seq 0 m) as [|a r IHr]; [reflexivity|cbn [map filter fst]; now rewrite G]). now rewrite E.
Qed.
Definition rivals (h : nat) : list (nat * nat) := list_prod (others K h) (seq 0 m).
Lemma rivals_filter p : filter (apart_folds p) points = rivals (fst p).
Proof. unfold points, rivals, others. rewrite <- prod_filter. apply filter_ext. intros q. unfold apart_folds. now rewrite Nat.eqb_sym. Qed.
Lemma in_points p : In p points <-> (fst p < K)%nat /\ (snd p < m)%nat.
Proof. destruct p as [k a]. unfold points. rewrite in_prod_iff, !in_seq. cbn. lia. Qed.
Lemma rivals_length h : (h < K)%nat -> length (rivals h) = ((K - 1) * m)%nat.
Proof. intros H. unfold rivals. rewrite prod_length, seq_length, others_length; auto. Qed.
Lemma count_apart p : In p points -> count (apart_folds p) points = ((K - 1) * m)%nat.
Proof. intros I. apply in_points in I. unfold count. rewrite rivals_filter. apply rivals_length. tauto. Qed.
Lemma same_fold k : (count (fun q => (k =? fst q)%nat) points <= m)%nat.
Proof.
  unfold count, points. rewrite (prod_filter (Nat.eqb k)), prod_length, seq_length.
  assert (L : (length (filter (Nat.eqb k) (seq 0 K)) <= 1)%nat); [|nia].
  assert (N : NoDup (filter (Nat.eqb k) (seq 0 K))) by apply NoDup_filter, seq_NoDup.
  assert (I : incl (filter (Nat.eqb k) (seq 0 K)) [k]). { intros x X. apply filter_In in X. destruct X as (_ & X). apply Nat.eqb_eq in X. left. exact X. }
  exact (NoDup_incl_length N I).
Qed.
Lemma apart_strong f p : (length (filter f points) - m <= count (apart_folds p) (filter f points))%nat.
Proof.
  pose proof (count_split (apart_folds p) (filter f points)) as S.
  assert (L : (count (fun x => negb (apart_folds p x)) (filter f points) <= m)%nat).
  { eapply Nat.le_trans; [|apply (same_fold (fst p))]. unfold apart_folds. rewrite (count_ext _ (fun q => (fst p =? fst q)%nat)) by (intros; apply negb_involutive).
    clear S. unfold count. induction points as [|q r IH]; [reflexivity|]. cbn [filter]. destruct (f q); cbn [filter]; destruct (fst p =? fst q)%nat; cbn [length]; lia. }
  lia.
Qed.

Lemma combine_same {A B C} (f : A -> B) (g : A -> C) l : combine (map f l) (map g l) = map (fun x => (f x, g x)) l.
Proof. apply combine_map. Qed.
Lemma pairs_rivals h t : (t < m)%nat -> cv_pairs t (map (fun k => map (pred h k) (seq 0 m)) (others K h)) (cv_residuals (map (fun k => map (pred k h) (seq 0 m)) (others K h)) (map (fun k => map (y k) (seq 0 m)) (others K h))) =
  map (fun q => (pred h (fst q) t, resid q h)) (rivals h).
Proof.
  intros T. unfold cv_pairs, cv_residuals. rewrite zip_map, combine_map. unfold rivals. induction (others K h) as [|k l IH]; [reflexivity|]. cbn [map flat_map list_prod fst snd]. rewrite map_app, IH. f_equal.
  unfold residuals. rewrite zip_map, !map_map. apply map_ext. intros b. cbn [fst snd]. f_equal. rewrite (nth_indep _ 0 (pred h k 0%nat)) by (now rewrite map_length, seq_length). now rewrite map_nth, seq_nth.
Qed.
Definition fold_interval (h t : nat) : interval :=
  (quantile (map (fun q => pred h (fst q) t - resid q h) (rivals h)) error, quantile (map (fun q => pred h (fst q) t + resid q h) (rivals h)) (1 - error)).
Lemma holdout_fold_eq h : (2 <= K)%nat -> (h < K)%nat -> (1 <= m)%nat -> holdout_fold y pred K m error h = map (fun t => is_in (y h t) (fold_interval h t)) (seq 0 m).
Proof.
  intros K2 H M. unfold holdout_fold, cv_plus.
  assert (E : existsb (fun p : list Q * list Q * list Q => negb (length (fst (fst p)) =? length (snd (fst p)))%nat)
      (combine (combine (map (fun k => map (pred k h) (seq 0 m)) (others K h)) (map (fun k => map (y k) (seq 0 m)) (others K h))) (map (fun k => map (pred h k) (seq 0 m)) (others K h))) = false).
  { rewrite !combine_map. clear. induction (others K h) as [|k l IH]; [reflexivity|]. cbn [map existsb fst snd]. rewrite !map_length, Nat.eqb_refl. exact IH. }
  rewrite E. assert (NC : n_columns (map (fun k => map (pred h k) (seq 0 m)) (others K h)) = m).
  { pose proof (others_length K h H) as OL. destruct (others K h) as [|o os]; [cbn in OL; lia|]. cbn [map n_columns]. now rewrite map_length, seq_length. }
  rewrite NC. unfold are_in. rewrite combine_map, map_map. apply map_ext_in. intros t T. apply in_seq in T. cbn [fst snd]. rewrite pairs_rivals by lia. unfold fold_interval. now rewrite !map_map.
Qed.
Lemma fold_uncovered h t : (2 <= K)%nat -> (h < K)%nat -> (t < m)%nat -> 0 <= error <= 1 -> is_in (y h t) (fold_interval h t) = false ->
  ((K - 1) * m - slack ((K - 1) * m) error <= count (fbeats (h, t)) points)%nat.
Proof.
  intros K2 Hh Ht E H. pose proof (rivals_length h Hh) as RL. set (n := ((K - 1) * m)%nat) in *. assert (NP : (0 < n)%nat) by (unfold n; nia).
  destruct (slack_le n error NP E) as (S1 & S2). set (c := slack n error) in *.
  assert (CF : count (fbeats (h, t)) points = count (fun q => Qlt_bool (resid q h) (resid (h, t) (fst q))) (rivals h)).
  { change (rivals h) with (rivals (fst (h, t))). rewrite <- rivals_filter. unfold count, fbeats. cbn [fst]. clear. induction points as [|q r IH]; [reflexivity|]. cbn [filter]. destruct (apart_folds (h, t) q); cbn [andb filter]; [destruct (Qlt_bool _ _); cbn [length]; now rewrite IH|exact IH]. }
  rewrite CF. unfold is_in, fold_interval in H. cbn [fst snd] in H.
  set (U := map (fun q => pred h (fst q) t + resid q h) (rivals h)) in H.
  set (L := map (fun q => pred h (fst q) t - resid q h) (rivals h)) in H.
  assert (LU : length U = n) by (unfold U; now rewrite map_length).
  assert (LL : length L = n) by (unfold L; now rewrite map_length).
  assert (NC : inject_Z (Z.of_nat (n - c)) == inject_Z (Z.of_nat n) - inject_Z (Z.of_nat c)).
  { rewrite Nat2Z.inj_sub by lia. unfold Z.sub. now rewrite inject_Z_plus, inject_Z_opp. }
  apply andb_false_iff in H. destruct H as [H|H]; apply Qleb_false in H.
  - assert (X : (n - c <= n_le (quantile U (1 - error)) U)%nat).
    { apply quantile_n_le; [lia|]. unfold qpos. rewrite LU, NC.
      setoid_replace ((1 - error) * (inject_Z (Z.of_nat n) - 1) + 1) with (inject_Z (Z.of_nat n) - error * (inject_Z (Z.of_nat n) - 1)) by ring. lra. }
    set (v := quantile U (1 - error)) in *. unfold n_le, U in X. rewrite count_map in X. eapply Nat.le_trans; [exact X|]. apply count_mono.
    intros q _ Hq. apply Qleb_true in Hq. apply Qltb_true. unfold resid at 2. cbn [fst snd]. pose proof (Qle_Qabs (y h t - pred h (fst q) t)). lra.
  - assert (X : (n - c <= n_ge (quantile L error) L)%nat).
    { apply quantile_n_ge; [lia|]. unfold qpos, qlen. rewrite LL, NC. lra. }
    set (v := quantile L error) in *. unfold n_ge, L in X. rewrite count_map in X. eapply Nat.le_trans; [exact X|]. apply count_mono.
    intros q _ Hq. apply Qleb_true in Hq. apply Qltb_true. unfold resid at 2. cbn [fst snd]. pose proof (Qle_Qabs (- (y h t - pred h (fst q) t))) as A. rewrite Qabs_opp in A. lra.
Qed.
Lemma misses_points : (2 <= K)%nat -> (1 <= m)%nat -> fold_misses y pred K m error = count (fun p => negb (is_in (y (fst p) (snd p)) (fold_interval (fst p) (snd p)))) points.
Proof.
  intros K2 M. unfold fold_misses. rewrite (map_ext_in _ (fun h => map (fun t => is_in (y h t) (fold_interval h t)) (seq 0 m))) by (intros h I; apply in_seq in I; apply holdout_fold_eq; lia).
  unfold points. induction (seq 0 K) as [|h l IH]; [reflexivity|]. cbn [map concat list_prod]. rewrite !count_app, IH, !count_map. reflexivity.
Qed.
End Folds.

Theorem cv_plus_coverage : forall y pred K m error, (2 <= K)%nat -> (1 <= m)%nat -> 0 <= error <= 1 ->
  (fold_misses y pred K m error <= m + 2 * slack ((K - 1) * m) error)%nat.
Proof.
  intros y pred K m error K2 M E. rewrite misses_points by assumption.
  apply (strong_meet (fbeats y pred) apart_folds _ _ ((K - 1) * m)%nat).
  - apply fbeats_anti.
  - apply fbeats_apart.
  - apply apart_sym.
  - intros p I. now apply count_apart.
  - intros p s _ ->. apply apart_strong.
  - intros p I F. apply negb_true_iff in F. apply in_points in I. rewrite (surjective_pairing p) at 1. apply fold_uncovered; tauto.
Qed.
Theorem cv_plus_share : forall y pred K m error, (2 <= K)%nat -> (1 <= m)%nat -> 0 <= error <= 1 ->
  inject_Z (Z.of_nat (fold_misses y pred K m error)) <= inject_Z (Z.of_nat (K * m)) * (2 * error) + inject_Z (Z.of_nat (m + 2)).
Proof.
  intros y pred K m error K2 M E. pose proof (cv_plus_coverage y pred K m error K2 M E) as B.
  assert (NP : (0 < (K - 1) * m)%nat) by nia.
  assert (S : inject_Z (Z.of_nat (slack ((K - 1) * m) error)) <= error * inject_Z (Z.of_nat ((K - 1) * m)) + 1).
  { unfold slack. set (x := error * (inject_Z (Z.of_nat ((K - 1) * m)) - 1)).
    assert (X0 : 0 <= x). { apply Qmult_le_0_compat; [lra|]. assert (1 <= inject_Z (Z.of_nat ((K - 1) * m))) by (change 1 with (inject_Z 1); rewrite <- Zle_Qle; lia). lra. }
    assert (C0 : (0 <= Qround.Qceiling x)%Z) by (change 0%Z with (Qround.Qceiling (inject_Z 0)); now apply Qround.Qceiling_resp_le).
    rewrite Z2Nat.id by exact C0. pose proof (Qround.Qceiling_lt x) as L. unfold Z.sub in L. rewrite inject_Z_plus, inject_Z_opp in L. change (inject_Z 1) with 1 in L. unfold x in *. lra. }
  assert (B' : inject_Z (Z.of_nat (fold_misses y pred K m error)) <= inject_Z (Z.of_nat (m + 2 * slack ((K - 1) * m) error))) by (rewrite <- Zle_Qle; lia).
  assert (E1 : inject_Z (Z.of_nat (m + 2 * slack ((K - 1) * m) error)) == inject_Z (Z.of_nat m) + 2 * inject_Z (Z.of_nat (slack ((K - 1) * m) error))).
  { rewrite Nat2Z.inj_add, Nat2Z.inj_mul, inject_Z_plus, inject_Z_mult. reflexivity. }
  assert (E2 : inject_Z (Z.of_nat (m + 2)) == inject_Z (Z.of_nat m) + 2) by (rewrite Nat2Z.inj_add, inject_Z_plus; reflexivity).
  assert (E3 : inject_Z (Z.of_nat ((K - 1) * m)) <= inject_Z (Z.of_nat (K * m))) by (rewrite <- Zle_Qle; nia).
  assert (E4 : error * inject_Z (Z.of_nat ((K - 1) * m)) <= error * inject_Z (Z.of_nat (K * m))) by (rewrite !(Qmult_comm error); apply Qmult_le_compat_r; lra).
  lra.
Qed.
(** the first fold is far off, the others are exact *)
Definition off (k _ : nat) : Q := if (k =? 0)%nat then 1 else 0.
Definition exact0 (_ _ _ : nat) : Q := 0.
Theorem cv_plus_guarantee_fails : forall K m error, (2 <= K)%nat -> (1 <= m)%nat -> 0 <= error -> error * inject_Z (Z.of_nat (2 * K)) < 1 -> exists y pred,
  inject_Z (Z.of_nat (K * m)) * (2 * error) < inject_Z (Z.of_nat (fold_misses y pred K m error)).
Proof.
  intros K m error K2 M E0 E1. exists off, exact0. rewrite misses_points by lia.
  assert (I : forall t, is_in (off 0 t) (fold_interval off exact0 K m error 0 t) = false).
  { intros t. unfold is_in. apply andb_false_iff. left. unfold fold_interval. cbn [snd]. apply Qleb_false.
    set (U := map _ (rivals K m 0)). assert (NE : U <> []).
    { intros Z. apply (f_equal (@length _)) in Z. unfold U in Z. rewrite map_length, rivals_length in Z by lia. cbn in Z. nia. }
    destruct (quantile_in_range U (1 - error) 0 0 NE) as (_ & B); [|unfold off; cbn [Nat.eqb]; lra].
    intros q I. unfold U in I. apply in_map_iff in I. destruct I as ([k b] & <- & I). unfold rivals in I. apply in_prod_iff in I. destruct I as (I & _). unfold others in I. apply filter_In in I. destruct I as (_ & I). apply negb_true_iff in I.
    unfold resid, off, exact0. cbn [fst snd]. rewrite I. split; unfold Qle; cbn; lia. }
  assert (C : (m <= count (fun p => negb (is_in (off (fst p) (snd p)) (fold_interval off exact0 K m error (fst p) (snd p)))) (points K m))%nat).
  { unfold points. destruct K as [|K]; [lia|]. cbn [seq list_prod]. rewrite count_app. eapply Nat.le_trans; [|apply Nat.le_add_r]. rewrite count_map. cbn [fst snd].
    unfold count. rewrite <- (seq_length m 0) at 1. generalize (seq 0 m) as l. intros l. induction l as [|t l IH]; [reflexivity|]. cbn [filter]. rewrite I. cbn [negb length]. lia. }
  assert (B : inject_Z (Z.of_nat m) <= inject_Z (Z.of_nat (count (fun p => negb (is_in (off (fst p) (snd p)) (fold_interval off exact0 K m error (fst p) (snd p)))) (points K m)))) by (rewrite <- Zle_Qle; lia).
  eapply Qlt_le_trans; [|exact B]. rewrite Nat2Z.inj_mul, inject_Z_mult in *. change (inject_Z (Z.of_nat 2)) with 2 in E1.
  assert (MP : 0 < inject_Z (Z.of_nat m)) by (change 0 with (inject_Z 0); rewrite <- Zlt_Qlt; lia).
  setoid_replace (inject_Z (Z.of_nat K) * inject_Z (Z.of_nat m) * (2 * error)) with (error * (2 * inject_Z (Z.of_nat K)) * inject_Z (Z.of_nat m)) by ring.
  setoid_replace (inject_Z (Z.of_nat m)) with (1 * inject_Z (Z.of_nat m)) at 2 by ring. apply Qmult_lt_compat_r; assumption.
Qed.
