From Coq Require Import List Arith ZArith QArith Qround Qminmax Qabs Bool Lia Lqa Permutation Sorted.
From Verif Require Import Lib QuantModel QuantSpec QuantProofs ConfRegModel ConfRegSpec.
Import ListNotations.
Open Scope Q_scope.

Lemma ok_bool (b : bool) {A} (e : error) (x y : A) : (if b then Err e else Ok x) = Ok y -> b = false /\ x = y.
Proof. destruct b; [discriminate|]. intros H. injection H as ->. auto. Qed.

Lemma error_range e : Qlt_bool e 0 || Qlt_bool 1 e = false <-> 0 <= e <= 1.
Proof.
  rewrite orb_false_iff, !Qltb_false. tauto.
Qed.

(** ---- split conformal ---- *)

Lemma inject_nat_pos n : (0 < n)%nat -> 0 < inject_Z (Z.of_nat n).
Proof. intros H. change 0 with (inject_Z 0). rewrite <- Zlt_Qlt. lia. Qed.

Lemma split_k_Z n error : error <= 1 ->
  Z.of_nat (split_k n error) = Qceiling (inject_Z (Z.of_nat (n + 1)) * (1 - error)).
Proof.
  intros E. unfold split_k. rewrite Z2Nat.id; [reflexivity|].
  change 0%Z with (Qceiling (inject_Z 0)). apply Qceiling_resp_le. change (inject_Z 0) with 0.
  apply Qmult_le_0_compat; [|lra]. change 0 with (inject_Z 0). rewrite <- Zle_Qle. lia.
Qed.

Lemma split_k_le n error : 0 <= error -> (split_k n error <= n + 1)%nat.
Proof.
  intros E. unfold split_k.
  assert (H : (Qceiling (inject_Z (Z.of_nat (n + 1)) * (1 - error)) <= Z.of_nat (n + 1))%Z).
  { apply ceiling_le. pose proof (inject_nat_pos (n + 1) ltac:(lia)) as P.
    set (m := inject_Z (Z.of_nat (n + 1))) in *.
    assert (0 <= m * error) by (apply Qmult_le_0_compat; lra). lra. }
  lia.
Qed.

Lemma split_pos l error : l <> [] -> error <= 1 ->
  qpos l (split_level (length l) error) ==
  inject_Z (Z.of_nat (split_k (length l) error)) - inject_Z (Z.of_nat (split_k (length l) error)) / qlen l.
Proof.
  intros N E. unfold qpos, split_level. rewrite <- (split_k_Z (length l) error E). unfold qlen.
  assert (P : 0 < inject_Z (Z.of_nat (length l))) by (apply inject_nat_pos; destruct l; [congruence|simpl; lia]).
  field. lra.
Qed.

Lemma split_covers_k l error : l <> [] -> error <= 1 ->
  (Nat.min (split_k (length l) error) (length l) <= n_le (quantile l (split_level (length l) error)) l)%nat.
Proof.
  intros N E.
  assert (P : (0 < length l)%nat) by (destruct l; [congruence|simpl; lia]).
  pose proof (inject_nat_pos _ P) as PQ.
  set (k := split_k (length l) error).
  apply quantile_n_le; [lia|]. rewrite split_pos by assumption. fold k. unfold qlen.
  destruct (le_lt_dec k (length l)) as [H|H].
  - rewrite Nat.min_l by assumption.
    assert (D : inject_Z (Z.of_nat k) / inject_Z (Z.of_nat (length l)) <= 1).
    { apply Qle_shift_div_r; [assumption|]. rewrite Qmult_1_l. rewrite <- Zle_Qle. lia. }
    lra.
  - rewrite Nat.min_r by lia.
    assert (D : inject_Z (Z.of_nat k) - inject_Z (Z.of_nat k) / inject_Z (Z.of_nat (length l)) + 1
       == inject_Z (Z.of_nat (length l)) + (inject_Z (Z.of_nat k) - inject_Z (Z.of_nat (length l))) * (1 - 1 / inject_Z (Z.of_nat (length l)))).
    { field. lra. }
    rewrite D.
    assert (H0 : 0 <= inject_Z (Z.of_nat k) - inject_Z (Z.of_nat (length l))).
    { assert (inject_Z (Z.of_nat (length l)) <= inject_Z (Z.of_nat k)) by (rewrite <- Zle_Qle; lia). lra. }
    assert (H1 : 0 <= 1 - 1 / inject_Z (Z.of_nat (length l))).
    { assert (1 / inject_Z (Z.of_nat (length l)) <= 1); [|lra]. apply Qle_shift_div_r; [assumption|].
      rewrite Qmult_1_l. change 1 with (inject_Z 1). rewrite <- Zle_Qle. lia. }
    assert (X := Qmult_le_0_compat _ _ H0 H1). lra.
Qed.

(** at most k scores lie strictly below the quantile *)
Lemma split_not_wide l error : l <> [] -> 0 <= error <= 1 -> (split_k (length l) error < length l)%nat ->
  (n_lt (quantile l (split_level (length l) error)) l <= split_k (length l) error)%nat.
Proof.
  intros N E K. assert (P : (0 < length l)%nat) by lia. pose proof (inject_nat_pos _ P) as PQ.
  apply quantile_n_lt; [assumption|]. rewrite split_pos by (auto; lra).
  assert (0 <= inject_Z (Z.of_nat (split_k (length l) error)) / qlen l).
  { apply Qle_shift_div_l; [exact PQ|]. rewrite Qmult_0_l. change 0 with (inject_Z 0). rewrite <- Zle_Qle. lia. }
  lra.
Qed.

Theorem split_quantile_ok l error : l <> [] ->
  (forall q, split_quantile l error = Ok q ->
     0 <= error <= 1 /\ (Nat.min (split_k (length l) error) (length l) <= n_le q l)%nat) /\
  (~ (0 <= error <= 1) -> split_quantile l error = Err ValueError).
Proof.
  intros N. split.
  - intros q H. unfold split_quantile in H. apply ok_bool in H. destruct H as (B & <-).
    apply error_range in B. split; [assumption|]. apply split_covers_k; [assumption|lra].
  - intros H. unfold split_quantile. destruct (_ || _) eqn:B; [reflexivity|]. apply error_range in B. contradiction.
Qed.

(** score below the quantile = target inside the interval *)
Lemma quantile_is_in lo hi y q : is_in y (quantile_interval1 q lo hi) = Qle_bool (quantile_score1 lo hi y) q.
Proof.
  unfold is_in, quantile_interval1, quantile_score1. simpl.
  destruct (Q.max_spec (lo - y) (y - hi)) as [(L & E)|(L & E)].
  - assert (B : Qle_bool (Qmax (lo - y) (y - hi)) q = Qle_bool (y - hi) q) by (qleb (y - hi) q; [apply Qleb_true|apply Qleb_false]; lra).
    rewrite B. qleb (y - hi) q; qleb y (hi + q); qleb (lo - q) y; simpl; auto; exfalso; lra.
  - assert (B : Qle_bool (Qmax (lo - y) (y - hi)) q = Qle_bool (lo - y) q) by (qleb (lo - y) q; [apply Qleb_true|apply Qleb_false]; lra).
    rewrite B. qleb (lo - y) q; qleb y (hi + q); qleb (lo - q) y; simpl; auto; exfalso; lra.
Qed.

Lemma Qabs_le x a : Qabs x <= a <-> - a <= x <= a.
Proof.
  rewrite Qabs_Qle_condition. tauto.
Qed.

Lemma uncert_is_in mu u y q : 0 < u -> is_in y (uncert_interval1 q mu u) = Qle_bool (uncert_score1 mu u y) q.
Proof.
  intros U. unfold is_in, uncert_interval1, uncert_score1. cbn [fst snd].
  assert (B : Qle_bool (Qabs (y - mu) / u) q = Qle_bool (Qabs (y - mu)) (u * q)).
  { qleb (Qabs (y - mu)) (u * q).
    - apply Qleb_true. apply Qle_shift_div_r; [assumption|lra].
    - apply Qleb_false. apply Qlt_shift_div_l; [assumption|lra]. }
  rewrite B. qleb (Qabs (y - mu)) (u * q).
  - apply Qabs_le in E. apply andb_true_iff. rewrite !Qleb_true. lra.
  - apply andb_false_iff. rewrite !Qleb_false.
    destruct (Qlt_le_dec (mu + u * q) y) as [H|H]; [auto|].
    right. apply Qnot_le_lt. intros C. assert (Qabs (y - mu) <= u * q); [|lra]. apply Qabs_le. lra.
Qed.

(** zipping *)
Lemma zip_length {A B C} (f : A -> B -> C) l m : length l = length m -> length (zip_with f l m) = length l.
Proof. intros H. unfold zip_with. rewrite map_length, combine_length. lia. Qed.
Lemma zip_cons {A B C} (f : A -> B -> C) x l y m : zip_with f (x :: l) (y :: m) = f x y :: zip_with f l m.
Proof. reflexivity. Qed.
Lemma broadcast_ok {A B C} (f : A -> B -> C) l m r : broadcast f l m = Ok r -> length l = length m /\ r = zip_with f l m.
Proof.
  unfold broadcast. destruct (length l =? length m)%nat eqn:E; [|discriminate]. apply Nat.eqb_eq in E.
  intros H. injection H as <-. auto.
Qed.

Lemma count_zip_in q los : forall his ys, length los = length his -> length (combine los his) = length ys ->
  n_le q (zip_with (fun b y => quantile_score1 (fst b) (snd b) y) (combine los his) ys)
  = count (fun b => b) (are_in ys (zip_with (quantile_interval1 q) los his)).
Proof.
  induction los as [|lo los IH]; intros [|hi his] [|y ys] L1 L2; try discriminate; [reflexivity|].
  simpl combine. rewrite !zip_cons. unfold are_in. simpl combine. rewrite map_cons. cbn [fst snd].
  unfold n_le in *. rewrite !count_cons, quantile_is_in. f_equal. apply IH; auto.
Qed.

(** intervals for the validation points themselves *)
Theorem quantile_interval_covers los his ys error is : ys <> [] ->
  quantile_interval los his los his ys error = Ok is ->
  (Nat.min (split_k (length ys) error) (length ys) <= count (fun b => b) (are_in ys is))%nat.
Proof.
  intros N H. unfold quantile_interval in H.
  destruct (length los =? length his)%nat eqn:L; [|discriminate]. apply Nat.eqb_eq in L. simpl in H.
  unfold quantile_quantile in H. destruct (_ || _) eqn:B; [discriminate|].
  unfold quantile_score in H. rewrite (proj2 (Nat.eqb_eq _ _) L) in H.
  destruct (broadcast _ _ _) as [sc|] eqn:BC; [|discriminate]. simpl in H.
  apply broadcast_ok in BC. destruct BC as (L2 & ->).
  set (sc := zip_with _ _ _) in *. destruct (split_quantile sc error) as [q|] eqn:SQ; [|discriminate].
  simpl in H. injection H as <-.
  assert (Lsc : length sc = length ys) by (unfold sc; rewrite zip_length; auto).
  assert (Nsc : sc <> []) by (destruct sc; [destruct ys; [congruence|discriminate]|discriminate]).
  apply (split_quantile_ok sc error Nsc) in SQ. destruct SQ as (_ & K). rewrite Lsc in K.
  rewrite <- (count_zip_in q los his ys L L2). exact K.
Qed.

Lemma count_zip_in_u q mus : forall us ys, length mus = length us -> length (combine mus us) = length ys ->
  existsb (fun u => Qle_bool u 0) us = false ->
  n_le q (zip_with (fun b y => uncert_score1 (fst b) (snd b) y) (combine mus us) ys)
  = count (fun b => b) (are_in ys (zip_with (uncert_interval1 q) mus us)).
Proof.
  induction mus as [|mu mus IH]; intros [|u us] [|y ys] L1 L2 P; try discriminate; [reflexivity|].
  simpl combine. rewrite !zip_cons. unfold are_in. simpl combine. rewrite map_cons. cbn [fst snd].
  simpl in P. apply orb_false_iff in P. destruct P as (P1 & P2). apply Qleb_false in P1.
  unfold n_le in *. rewrite !count_cons, uncert_is_in by assumption. f_equal. apply IH; auto.
Qed.

Theorem uncert_interval_covers mus us ys error is : ys <> [] ->
  uncert_interval mus us mus us ys error = Ok is ->
  (Nat.min (split_k (length ys) error) (length ys) <= count (fun b => b) (are_in ys is))%nat.
Proof.
  intros N H. unfold uncert_interval in H. destruct (existsb _ us) eqn:P; [discriminate|].
  unfold uncert_quantile in H. destruct (_ || _) eqn:B; [discriminate|].
  unfold uncert_score in H. rewrite P in H.
  destruct (length mus =? length us)%nat eqn:L; [|discriminate]. apply Nat.eqb_eq in L.
  destruct (broadcast _ (combine mus us) ys) as [sc|] eqn:BC; [|discriminate]. simpl in H.
  apply broadcast_ok in BC. destruct BC as (L2 & ->).
  set (sc := zip_with _ _ _) in *. destruct (split_quantile sc error) as [q|] eqn:SQ; [|discriminate].
  simpl in H. apply broadcast_ok in H. destruct H as (_ & ->).
  assert (Lsc : length sc = length ys) by (unfold sc; rewrite zip_length; auto).
  assert (Nsc : sc <> []) by (destruct sc; [destruct ys; [congruence|discriminate]|discriminate]).
  apply (split_quantile_ok sc error Nsc) in SQ. destruct SQ as (_ & K). rewrite Lsc in K.
  rewrite <- (count_zip_in_u q mus us ys L L2 P). exact K.
Qed.

(** ---- hold-out coverage ---- *)
Lemma without_perm {A} (l : list A) i x : nth_error l i = Some x -> Permutation l (x :: without i l).
Proof.
  unfold without. revert i. induction l as [|a l IH]; intros [|i] H; simpl in *; try discriminate.
  - injection H as ->. reflexivity.
  - rewrite (IH i H) at 1. apply perm_swap.
Qed.

Lemma without_length {A} (l : list A) i : (i < length l)%nat -> length (without i l) = (length l - 1)%nat.
Proof. intros H. unfold without. rewrite app_length, firstn_length, skipn_length. lia. Qed.

(** number of positions whose element is greater than at least k others *)
Lemma rank_bound (l : list Q) (f : nat -> bool) k :
  (forall i, (i < length l)%nat -> f i = true -> (k <= n_lt (nth i l 0%Q) l)%nat) ->
  (0 < count f (seq 0 (length l)))%nat -> (count f (seq 0 (length l)) + k <= length l)%nat.
Proof.
  intros H P.
  (* the position with the smallest element among those satisfying f *)
  assert (M : forall idx, (forall i, In i idx -> (i < length l)%nat) -> (0 < count f idx)%nat ->
     exists a, (a < length l)%nat /\ f a = true /\ forall i, In i idx -> f i = true -> nth a l 0 <= nth i l 0).
  { induction idx as [|i idx IH]; intros B C; [unfold count in C; simpl in C; lia|].
    rewrite count_cons in C. destruct (f i) eqn:Fi.
    - destruct (count f idx) as [|c] eqn:Ci.
      + exists i. split; [apply B; now left|]. split; [assumption|]. intros j [<-|Hj] Fj; [lra|].
        exfalso. assert (0 < count f idx)%nat by (apply count_pos; eauto). lia.
      + destruct IH as (a & A1 & A2 & A3); [intros; apply B; now right|lia|].
        destruct (Qlt_le_dec (nth i l 0) (nth a l 0)) as [X|X].
        * exists i. split; [apply B; now left|]. split; [assumption|]. intros j [<-|Hj] Fj; [lra|]. specialize (A3 j Hj Fj). lra.
        * exists a. split; [assumption|]. split; [assumption|]. intros j [<-|Hj] Fj; [lra|auto].
    - destruct IH as (a & A1 & A2 & A3); [intros; apply B; now right|simpl in C; lia|].
      exists a. split; [assumption|]. split; [assumption|]. intros j [<-|Hj] Fj; [congruence|auto]. }
  destruct (M (seq 0 (length l))) as (a & A1 & A2 & A3); [intros i Hi; apply in_seq in Hi; lia|exact P|].
  pose proof (H a A1 A2) as K.
  assert (E : n_lt (nth a l 0) l = count (fun i => Qlt_bool (nth i l 0) (nth a l 0)) (seq 0 (length l))).
  { unfold n_lt. rewrite <- (count_map (fun x => Qlt_bool x (nth a l 0)) (fun i => nth i l 0)). f_equal.
    clear. induction l as [|x l IH]; [reflexivity|]. simpl. f_equal. rewrite <- seq_shift, map_map. exact IH. }
  rewrite E in K.
  pose proof (count_disjoint f (fun i => Qlt_bool (nth i l 0) (nth a l 0)) (seq 0 (length l))) as D.
  rewrite seq_length in D. assert (count f (seq 0 (length l)) + count (fun i => Qlt_bool (nth i l 0%Q) (nth a l 0%Q)) (seq 0 (length l)) <= length l)%nat; [|lia].
  apply D. intros i Hi Fi Li. apply Qltb_true in Li. specialize (A3 i Hi Fi). lra.
Qed.

(** position i is covered when held out *)
Definition holdout_covered (ss : list Q) (error : Q) (i : nat) : bool :=
  Qle_bool (nth i ss 0) (quantile (without i ss) (split_level (length ss - 1) error)).

Lemma n_lt_without ss i v : (i < length ss)%nat -> nth i ss 0 == v -> n_lt v (without i ss) = n_lt v ss.
Proof.
  intros H E. pose proof (without_perm ss i (nth i ss 0) (nth_error_nth' ss 0 H)) as P.
  unfold n_lt. rewrite (count_perm _ _ _ P), count_cons.
  assert (X : Qlt_bool (nth i ss 0) v = false) by (apply Qltb_false; lra). now rewrite X.
Qed.

Lemma n_le_lt v w l : v < w -> (n_le v l <= n_lt w l)%nat.
Proof.
  intros H. unfold n_le, n_lt. apply count_mono. intros x _ L. apply Qleb_true in L. apply Qltb_true. lra.
Qed.

Theorem holdout_coverage (ss : list Q) error : (2 <= length ss)%nat -> 0 <= error <= 1 ->
  let n := (length ss - 1)%nat in
  (Nat.min (split_k n error) n <= count (holdout_covered ss error) (seq 0 (length ss)))%nat.
Proof.
  intros L E n. set (k := Nat.min (split_k n error) n).
  pose proof (count_split (holdout_covered ss error) (seq 0 (length ss))) as S. rewrite seq_length in S.
  set (bad := count (fun i => negb (holdout_covered ss error i)) (seq 0 (length ss))) in *.
  destruct (Nat.eq_dec bad 0) as [Z|Z]; [unfold k, n; lia|].
  assert (B : (bad + k <= length ss)%nat); [|lia].
  apply rank_bound; [|unfold bad in Z; lia].
  intros i Hi F. apply negb_true_iff in F. unfold holdout_covered in F. apply Qleb_false in F.
  set (o := without i ss) in *.
  assert (Lo : length o = n) by (apply without_length; assumption).
  assert (No : o <> []) by (intros X; rewrite X in Lo; simpl in Lo; unfold n in Lo; lia).
  pose proof (split_covers_k o error No (proj2 E)) as C. rewrite Lo in C. fold n in F.
  pose proof (n_le_lt _ _ o F) as D.
  pose proof (n_lt_without ss i (nth i ss 0) Hi (Qeq_refl _)) as X. fold o in X. rewrite X in D. unfold k. lia.
Qed.

(** distinct scores: not more than k+1 covered *)
Lemma rank_bound_above (l : list Q) (f : nat -> bool) k : 
  (forall i j, (i < length l)%nat -> (j < length l)%nat -> nth i l 0 == nth j l 0 -> i = j) ->
  (forall i, (i < length l)%nat -> f i = true -> (n_lt (nth i l 0%Q) l <= k)%nat) ->
  (count f (seq 0 (length l)) <= k + 1)%nat.
Proof.
  intros Inj H. destruct (Nat.eq_dec (count f (seq 0 (length l))) 0) as [Z|Z]; [lia|].
  assert (M : forall idx, (forall i, In i idx -> (i < length l)%nat) -> (0 < count f idx)%nat ->
     exists a, (a < length l)%nat /\ f a = true /\ forall i, In i idx -> f i = true -> nth i l 0 <= nth a l 0).
  { induction idx as [|i idx IH]; intros B C; [unfold count in C; simpl in C; lia|].
    rewrite count_cons in C. destruct (f i) eqn:Fi.
    - destruct (count f idx) as [|c] eqn:Ci.
      + exists i. split; [apply B; now left|]. split; [assumption|]. intros j [<-|Hj] Fj; [lra|].
        exfalso. assert (0 < count f idx)%nat by (apply count_pos; eauto). lia.
      + destruct IH as (a & A1 & A2 & A3); [intros; apply B; now right|lia|].
        destruct (Qlt_le_dec (nth a l 0) (nth i l 0)) as [X|X].
        * exists i. split; [apply B; now left|]. split; [assumption|]. intros j [<-|Hj] Fj; [lra|]. specialize (A3 j Hj Fj). lra.
        * exists a. split; [assumption|]. split; [assumption|]. intros j [<-|Hj] Fj; [lra|auto].
    - destruct IH as (a & A1 & A2 & A3); [intros; apply B; now right|simpl in C; lia|].
      exists a. split; [assumption|]. split; [assumption|]. intros j [<-|Hj] Fj; [congruence|auto]. }
  destruct (M (seq 0 (length l))) as (a & A1 & A2 & A3); [intros i Hi; apply in_seq in Hi; lia|lia|].
  pose proof (H a A1 A2) as K.
  assert (E : n_lt (nth a l 0) l = count (fun i => Qlt_bool (nth i l 0) (nth a l 0)) (seq 0 (length l))).
  { unfold n_lt. rewrite <- (count_map (fun x => Qlt_bool x (nth a l 0)) (fun i => nth i l 0)). f_equal.
    clear. induction l as [|x l IH]; [reflexivity|]. simpl. f_equal. rewrite <- seq_shift, map_map. exact IH. }
  rewrite E in K.
  assert (C : (count f (seq 0 (length l)) <= count (fun i => Qlt_bool (nth i l 0%Q) (nth a l 0%Q) || (i =? a)%nat) (seq 0 (length l)))%nat).
  { apply count_mono. intros i Hi Fi. specialize (A3 i Hi Fi). apply in_seq in Hi. apply orb_true_iff.
    destruct (Nat.eq_dec i a) as [->|Ni]; [right; apply Nat.eqb_refl|]. left. apply Qltb_true.
    destruct (Qlt_le_dec (nth i l 0) (nth a l 0)) as [X|X]; [assumption|]. exfalso. apply Ni. apply Inj; [lia|assumption|lra]. }
  assert (D : forall idx, NoDup idx -> (count (fun i => Qlt_bool (nth i l 0%Q) (nth a l 0%Q) || (i =? a)%nat) idx
     <= count (fun i => Qlt_bool (nth i l 0%Q) (nth a l 0%Q)) idx + 1)%nat).
  { induction 1 as [|i idx NI ND IH]; [unfold count; simpl; lia|]. rewrite !count_cons.
    destruct (Nat.eqb_spec i a) as [->|Ni].
    - assert (X : count (fun i => Qlt_bool (nth i l 0) (nth a l 0) || (i =? a)%nat) idx = count (fun i => Qlt_bool (nth i l 0) (nth a l 0)) idx).
      { apply count_ext. intros j Hj. destruct (Nat.eqb_spec j a) as [->|]; [contradiction|]. now rewrite orb_false_r. }
      rewrite X, orb_true_r. destruct (Qlt_bool _ _); lia.
    - rewrite orb_false_r. destruct (Qlt_bool (nth i l 0) _); lia. }
  specialize (D _ (seq_NoDup (length l) 0)). lia.
Qed.

Theorem holdout_not_wide (ss : list Q) error : (2 <= length ss)%nat -> 0 <= error <= 1 ->
  (forall i j, (i < length ss)%nat -> (j < length ss)%nat -> nth i ss 0 == nth j ss 0 -> i = j) ->
  (count (holdout_covered ss error) (seq 0 (length ss)) <= split_k (length ss - 1) error + 1)%nat.
Proof.
  intros L E Inj. set (n := (length ss - 1)%nat).
  destruct (le_lt_dec n (split_k n error)) as [K|K].
  { pose proof (count_le_length (holdout_covered ss error) (seq 0 (length ss))). rewrite seq_length in H. unfold n in *. lia. }
  apply rank_bound_above; [exact Inj|]. intros i Hi F. unfold holdout_covered in F. apply Qleb_true in F.
  set (o := without i ss) in *.
  assert (Lo : length o = n) by (apply without_length; assumption).
  assert (No : o <> []) by (intros X; rewrite X in Lo; simpl in Lo; unfold n in Lo; lia).
  pose proof (split_not_wide o error No E) as C. rewrite Lo in C. specialize (C K). fold n in F.
  rewrite <- (n_lt_without ss i) by (auto; reflexivity). fold o.
  eapply Nat.le_trans; [|exact C]. unfold n_lt. apply count_mono. intros x _ H. apply Qltb_true in H. apply Qltb_true. lra.
Qed.

(** ---- nesting ---- *)
Lemma split_level_mono n e1 e2 : (0 < n)%nat -> e1 <= e2 -> split_level n e2 <= split_level n e1.
Proof.
  intros P E. unfold split_level, Qdiv. apply Qmult_le_compat_r.
  - rewrite <- Zle_Qle. apply Qceiling_resp_le.
    pose proof (inject_nat_pos (n + 1) ltac:(lia)). set (m := inject_Z (Z.of_nat (n + 1))) in *.
    assert (0 <= m * (e2 - e1)) by (apply Qmult_le_0_compat; lra). lra.
  - apply Qinv_le_0_compat. pose proof (inject_nat_pos n P). lra.
Qed.


Lemma split_quantile_mono l e1 e2 q1 q2 : l <> [] -> e1 <= e2 ->
  split_quantile l e1 = Ok q1 -> split_quantile l e2 = Ok q2 -> q2 <= q1.
Proof.
  intros N E H1 H2. unfold split_quantile in *. apply ok_bool in H1, H2.
  destruct H1 as (_ & <-), H2 as (_ & <-). apply quantile_mono_q; [assumption|].
  apply split_level_mono; [|assumption]. destruct l; [congruence|simpl; lia].
Qed.

Lemma quantile_interval1_nested q1 q2 lo hi : q2 <= q1 -> contains (quantile_interval1 q1 lo hi) (quantile_interval1 q2 lo hi).
Proof. intros H. split; simpl; lra. Qed.
Lemma uncert_interval1_nested q1 q2 mu u : 0 < u -> q2 <= q1 -> contains (uncert_interval1 q1 mu u) (uncert_interval1 q2 mu u).
Proof.
  intros U H. assert (u * q2 <= u * q1) by (rewrite !(Qmult_comm u); apply Qmult_le_compat_r; lra).
  split; simpl; lra.
Qed.

Lemma zip_forall2 {A B C} (R : C -> C -> Prop) (f g : A -> B -> C) l m : (forall a b, In b m -> R (f a b) (g a b)) ->
  Forall2 R (zip_with f l m) (zip_with g l m).
Proof.
  intros H. unfold zip_with. revert m H. induction l as [|x l IH]; intros [|y m] H; simpl; constructor.
  - apply H. now left.
  - apply IH. intros. apply H. now right.
Qed.

Theorem quantile_interval_nested vlo vhi tlo thi ys e1 e2 is1 is2 : ys <> [] -> e1 <= e2 ->
  quantile_interval vlo vhi tlo thi ys e1 = Ok is1 -> quantile_interval vlo vhi tlo thi ys e2 = Ok is2 ->
  Forall2 contains is1 is2.
Proof.
  intros N E H1 H2. unfold quantile_interval in *.
  destruct (negb _); [discriminate|]. destruct (negb _); [discriminate|].
  unfold quantile_quantile in *. destruct (_ || _); [discriminate|]. destruct (_ || _); [discriminate|].
  destruct (quantile_score vlo vhi ys) as [sc|] eqn:S; [|discriminate]. simpl in *.
  destruct (split_quantile sc e1) as [q1|] eqn:Q1; [|discriminate].
  destruct (split_quantile sc e2) as [q2|] eqn:Q2; [|discriminate].
  simpl in *. injection H1 as <-. injection H2 as <-.
  assert (Nsc : sc <> []).
  { unfold quantile_score in S. destruct (_ =? _)%nat; [|discriminate]. apply broadcast_ok in S.
    destruct S as (L & ->). destruct (combine vlo vhi); destruct ys; try discriminate. congruence. }
  apply zip_forall2. intros a b _. apply quantile_interval1_nested. eapply split_quantile_mono; eauto.
Qed.

Theorem uncert_interval_nested vmu vu tmu tu ys e1 e2 is1 is2 : ys <> [] -> e1 <= e2 ->
  uncert_interval vmu vu tmu tu ys e1 = Ok is1 -> uncert_interval vmu vu tmu tu ys e2 = Ok is2 ->
  Forall2 contains is1 is2.
Proof.
  intros N E H1 H2. unfold uncert_interval in *.
  destruct (existsb _ tu) eqn:P; [discriminate|].
  unfold uncert_quantile in *. destruct (_ || _); [discriminate|]. destruct (_ || _); [discriminate|].
  destruct (uncert_score vmu vu ys) as [sc|] eqn:S; [|discriminate]. simpl in *.
  destruct (split_quantile sc e1) as [q1|] eqn:Q1; [|discriminate].
  destruct (split_quantile sc e2) as [q2|] eqn:Q2; [|discriminate].
  simpl in *. apply broadcast_ok in H1, H2. destruct H1 as (_ & ->), H2 as (_ & ->).
  assert (Nsc : sc <> []).
  { unfold uncert_score in S. destruct (existsb _ vu); [discriminate S|].
    destruct (length vmu =? length vu)%nat; [|discriminate S]. apply broadcast_ok in S.
    destruct S as (L & ->). destruct (combine vmu vu); destruct ys; try discriminate. congruence. }
  apply zip_forall2. intros a b Hb. apply uncert_interval1_nested; [|eapply split_quantile_mono; eauto].
  apply Qleb_false. destruct (Qle_bool b 0) eqn:X; [|reflexivity]. exfalso.
  assert (existsb (fun u => Qle_bool u 0) tu = true) by (apply existsb_exists; eauto). congruence.
Qed.

(** jackknife *)
Lemma zip_nonempty {A B C} (f : A -> B -> C) l m : l <> [] -> length l = length m -> zip_with f l m <> [].
Proof.
  intros N L. destruct l as [|a l], m as [|b m]; try congruence; try discriminate L.
  rewrite zip_cons. discriminate.
Qed.

Lemma jack_plus1_nested mus rs e1 e2 : mus <> [] -> length mus = length rs -> e1 <= e2 ->
  contains (jack_plus1 mus rs e1) (jack_plus1 mus rs e2).
Proof.
  intros N L E. split; simpl; apply quantile_mono_q; try lra; now apply zip_nonempty.
Qed.

Lemma jack_minmax1_nested mus rs e1 e2 : rs <> [] -> e1 <= e2 ->
  contains (jack_minmax1 mus rs e1) (jack_minmax1 mus rs e2).
Proof.
  intros N E. pose proof (quantile_mono_q rs (1 - e2) (1 - e1) N ltac:(lra)). split; simpl; lra.
Qed.

Lemma residuals_nonneg outputs targets x : In x (residuals outputs targets) -> 0 <= x.
Proof.
  unfold residuals, zip_with. intros H. apply in_map_iff in H. destruct H as ((mu & y) & <- & _). apply Qabs_nonneg.
Qed.

Lemma zip_pointwise {A B} (R : Q -> Q -> Prop) (f g : A -> B -> Q) l m :
  (forall a b, In b m -> R (f a b) (g a b)) -> Forall2 R (zip_with f l m) (zip_with g l m).
Proof. apply zip_forall2. Qed.

Lemma jack_plus1_ordered mus rs e : mus <> [] -> length mus = length rs -> (forall x, In x rs -> 0 <= x) ->
  e <= 1 # 2 -> fst (jack_plus1 mus rs e) <= snd (jack_plus1 mus rs e).
Proof.
  intros N L P E. simpl. eapply Qle_trans.
  - apply quantile_pointwise with (m := zip_with Qplus mus rs); [|now apply zip_nonempty].
    apply zip_pointwise. intros a b Hb. specialize (P b Hb). lra.
  - apply quantile_mono_q; [now apply zip_nonempty|lra].
Qed.

Lemma qmin_list_le l x : In x l -> qmin_list l <= x.
Proof.
  destruct l as [|a l]; [contradiction|]. simpl. revert x. induction l as [|b l IH]; intros x H; simpl in *.
  - destruct H as [->|[]]. lra.
  - destruct H as [->|[->|H]].
    + eapply Qle_trans; [apply Q.le_min_r|]. apply IH. now left.
    + apply Q.le_min_l.
    + eapply Qle_trans; [apply Q.le_min_r|]. apply IH. now right.
Qed.
Lemma qmax_list_ge l x : In x l -> x <= qmax_list l.
Proof.
  destruct l as [|a l]; [contradiction|]. simpl. revert x. induction l as [|b l IH]; intros x H; simpl in *.
  - destruct H as [->|[]]. lra.
  - destruct H as [->|[->|H]].
    + eapply Qle_trans; [|apply Q.le_max_r]. apply IH. now left.
    + apply Q.le_max_l.
    + eapply Qle_trans; [|apply Q.le_max_r]. apply IH. now right.
Qed.
Lemma qmin_list_in l : l <> [] -> exists x, In x l /\ qmin_list l == x.
Proof.
  destruct l as [|a l]; [congruence|]. intros _. simpl. induction l as [|b l IH]; simpl.
  - exists a. split; [now left|lra].
  - destruct IH as (x & H & E). destruct (Q.min_spec b (fold_right Qmin a l)) as [(L & F)|(L & F)].
    + exists b. split; [right; now left|lra].
    + exists x. split; [destruct H; [now left|right; now right]|lra].
Qed.
Lemma qmax_list_in l : l <> [] -> exists x, In x l /\ qmax_list l == x.
Proof.
  destruct l as [|a l]; [congruence|]. intros _. simpl. induction l as [|b l IH]; simpl.
  - exists a. split; [now left|lra].
  - destruct IH as (x & H & E). destruct (Q.max_spec b (fold_right Qmax a l)) as [(L & F)|(L & F)].
    + exists x. split; [destruct H; [now left|right; now right]|lra].
    + exists b. split; [right; now left|lra].
Qed.

Lemma jack_minmax1_ordered mus rs e : mus <> [] -> rs <> [] -> (forall x, In x rs -> 0 <= x) ->
  fst (jack_minmax1 mus rs e) <= snd (jack_minmax1 mus rs e).
Proof.
  intros N NR P. simpl.
  destruct (quantile_bounds rs (1 - e) NR) as (a & b & Ha & _ & L). specialize (P a Ha).
  destruct (qmin_list_in mus N) as (x & Hx & E). pose proof (qmax_list_ge mus x Hx). lra.
Qed.

(** negation and shift of quantiles *)
Lemma nth_order_eq l m k : length l = length m -> (forall v, n_le v l = n_le v m) -> (k < length l)%nat ->
  nth k (qsort l) 0 == nth k (qsort m) 0.
Proof.
  intros L H K. apply Qle_antisym; apply order_stat_mono; auto; try lia; intros v; rewrite H; lia.
Qed.

Lemma quantile_shift l c q : l <> [] -> quantile (map (fun x => x + c) l) q == quantile l q + c.
Proof.
  intros N. assert (P : (0 < length l)%nat) by (destruct l; [congruence|simpl; lia]).
  assert (A : forall k, (k < length l)%nat -> nth k (qsort (map (fun x => x + c) l)) 0 == nth k (qsort l) 0 + c).
  { intros k K. apply Qle_antisym.
    - apply order_stat; [now rewrite map_length|]. rewrite n_le_shift. apply order_stat; [assumption|lra].
    - assert (nth k (qsort l) 0 <= nth k (qsort (map (fun x => x + c) l)) 0 - c); [|lra].
      apply order_stat; [assumption|]. rewrite <- n_le_shift. apply order_stat; [now rewrite map_length|lra]. }
  rewrite !quantile_eq. unfold qpos. rewrite map_length. fold (qpos l q).
  rewrite !A by (now apply clamp_lt). ring.
Qed.

Lemma n_le_opp v l : n_le v (map Qopp l) = n_ge (- v) l.
Proof.
  unfold n_le, n_ge. rewrite count_map. apply count_ext. intros x _.
  qleb (- x) v; qleb (- v) x; auto; exfalso; lra.
Qed.

Lemma order_opp l k : (k < length l)%nat -> nth k (qsort (map Qopp l)) 0 == - nth (length l - 1 - k) (qsort l) 0.
Proof.
  intros K. set (j := (length l - 1 - k)%nat).
  assert (J : (j < length l)%nat) by (unfold j; lia).
  apply Qle_antisym.
  - apply order_stat; [now rewrite map_length|]. rewrite n_le_opp.
    pose proof (n_lt_ge (- - nth j (qsort l) 0) l) as S.
    assert (n_lt (- - nth j (qsort l) 0)%Q l <= j)%nat; [|unfold j in *; lia].
    destruct (le_lt_dec (n_lt (- - nth j (qsort l) 0) l) j) as [X|X]; [exact X|]. apply order_stat_lt in X; [lra|assumption].
  - set (z := nth k (qsort (map Qopp l)) 0).
    assert (- z <= nth j (qsort l) 0); [|lra].
    assert (Z : (k < n_le z (map Qopp l))%nat) by (apply order_stat; [now rewrite map_length|unfold z; lra]).
    rewrite n_le_opp in Z. pose proof (n_lt_ge (- z) l).
    destruct (Qlt_le_dec (nth j (qsort l) 0) (- z)) as [X|X]; [|exact X].
    apply order_stat_lt in X; [|assumption]. unfold j in *. lia.
Qed.

Lemma floor_int z : Qfloor (inject_Z z) = z. Proof. apply Qfloor_Z. Qed.

Lemma ceil_opp_shift (m : Z) x : Qceiling (inject_Z m - x) = (m - Qfloor x)%Z.
Proof.
  apply Z.le_antisymm.
  - apply ceiling_le. unfold Z.sub. rewrite inject_Z_plus, inject_Z_opp. pose proof (Qfloor_le x). lra.
  - assert (H : (m - Qceiling (inject_Z m - x) <= Qfloor x)%Z); [|lia].
    apply floor_ge. unfold Z.sub. rewrite inject_Z_plus, inject_Z_opp. pose proof (Qle_ceiling (inject_Z m - x)). lra.
Qed.
Lemma floor_opp_shift (m : Z) x : Qfloor (inject_Z m - x) = (m - Qceiling x)%Z.
Proof.
  apply Z.le_antisymm.
  - assert (H : (Qceiling x <= m - Qfloor (inject_Z m - x))%Z); [|lia].
    apply ceiling_le. unfold Z.sub. rewrite inject_Z_plus, inject_Z_opp. pose proof (Qfloor_le (inject_Z m - x)). lra.
  - apply floor_ge. unfold Z.sub. rewrite inject_Z_plus, inject_Z_opp. pose proof (Qle_ceiling x). lra.
Qed.

Lemma quantile_opp l q : l <> [] -> quantile (map Qopp l) q == - quantile l (1 - q).
Proof.
  intros N. assert (P : (0 < length l)%nat) by (destruct l; [congruence|simpl; lia]).
  set (m := (Z.of_nat (length l) - 1)%Z).
  assert (EP : qpos l (1 - q) == inject_Z m - qpos l q).
  { unfold qpos, m, Z.sub. rewrite inject_Z_plus. change (inject_Z (-(1))) with (- (1)). ring. }
  assert (F : Qfloor (qpos l (1 - q)) = (m - Qceiling (qpos l q))%Z) by (rewrite (Qfloor_comp _ _ EP); apply floor_opp_shift).
  assert (C : Qceiling (qpos l (1 - q)) = (m - Qfloor (qpos l q))%Z) by (rewrite (Qceiling_comp _ _ EP); apply ceil_opp_shift).
  rewrite !quantile_eq. unfold qpos at 1 2 3 4 5 6. rewrite !map_length. fold (qpos l q).
  rewrite F, C.
  rewrite !order_opp by (now apply clamp_lt).
  set (f := Qfloor (qpos l q)). set (c := Qceiling (qpos l q)).
  assert (I1 : (length l - 1 - clamp_index (length l) f)%nat = clamp_index (length l) (m - f)).
  { unfold clamp_index, m. lia. }
  assert (I2 : (length l - 1 - clamp_index (length l) c)%nat = clamp_index (length l) (m - c)).
  { unfold clamp_index, m. lia. }
  rewrite I1, I2. set (A := nth (clamp_index (length l) (m - f)) (qsort l) 0). set (B := nth (clamp_index (length l) (m - c)) (qsort l) 0).
  rewrite EP. unfold Z.sub. rewrite !inject_Z_plus, !inject_Z_opp. set (x := qpos l q) in *.
  destruct (Z.eq_dec f c) as [FC|FC].
  - assert (X : inject_Z f == x).
    { pose proof (Qfloor_le x). pose proof (Qle_ceiling x). fold f in H. fold c in H0. rewrite <- FC in H0. lra. }
    assert (AB : A = B) by (unfold A, B; now rewrite FC). rewrite AB, <- FC, X. ring.
  - assert (CF : c = (f + 1)%Z).
    { assert (f <= c)%Z by apply floor_ceiling.
      assert (c <= f + 1)%Z; [|lia]. apply ceiling_le. rewrite inject_Z_plus. pose proof (floor_frac x). unfold f. change (inject_Z 1) with 1. lra. }
    rewrite CF, inject_Z_plus. change (inject_Z 1) with 1. ring.
Qed.

Lemma zip_min_le (mus : list Q) : forall rs c, length mus = length rs -> (forall x, In x mus -> c <= x) ->
  Forall2 Qle (map (fun x => x + c) (map Qopp rs)) (zip_with Qminus mus rs).
Proof.
  induction mus as [|mu mus IH]; intros [|r rs] c L H; try discriminate; simpl; [constructor|].
  unfold zip_with. simpl. constructor; [specialize (H mu (or_introl eq_refl)); lra|].
  apply IH; [now injection L|]. intros x Hx. apply H. now right.
Qed.
Lemma zip_max_le (mus : list Q) : forall rs c, length mus = length rs -> (forall x, In x mus -> x <= c) ->
  Forall2 Qle (zip_with Qplus mus rs) (map (fun x => x + c) rs).
Proof.
  induction mus as [|mu mus IH]; intros [|r rs] c L H; try discriminate; simpl; [constructor|].
  unfold zip_with. simpl. constructor; [specialize (H mu (or_introl eq_refl)); lra|].
  apply IH; [now injection L|]. intros x Hx. apply H. now right.
Qed.

Theorem minmax_contains_plus mus rs e : mus <> [] -> length mus = length rs ->
  contains (jack_minmax1 mus rs e) (jack_plus1 mus rs e).
Proof.
  intros N L. assert (NR : rs <> []) by (destruct rs; [destruct mus; [congruence|discriminate]|discriminate]).
  split; simpl.
  - eapply Qle_trans; [|apply (quantile_pointwise _ _ e (zip_min_le mus rs (qmin_list mus) L (fun x H => qmin_list_le mus x H)))].
    + assert (NO : map Qopp rs <> []) by (destruct rs; [congruence|discriminate]).
      pose proof (quantile_shift (map Qopp rs) (qmin_list mus) e NO). pose proof (quantile_opp rs e NR). lra.
    + destruct rs; [congruence|discriminate].
  - eapply Qle_trans; [apply (quantile_pointwise _ _ (1 - e) (zip_max_le mus rs (qmax_list mus) L (fun x H => qmax_list_ge mus x H)))|].
    + now apply zip_nonempty.
    + pose proof (quantile_shift rs (qmax_list mus) (1 - e) NR). lra.
Qed.

(** lifting to the whole methods *)
Lemma residuals_length outputs targets : length outputs = length targets -> length (residuals outputs targets) = length outputs.
Proof. intros H. unfold residuals. now apply zip_length. Qed.
Lemma column_length t rows : length (column t rows) = length rows.
Proof. apply map_length. Qed.

Lemma map_forall2 {A B C} (R : B -> C -> Prop) (f : A -> B) (g : A -> C) l : (forall x, In x l -> R (f x) (g x)) -> Forall2 R (map f l) (map g l).
Proof. induction l as [|x l IH]; intros H; simpl; constructor; [apply H; now left|apply IH; intros; apply H; now right]. Qed.

Lemma nonempty_len {A B} (l : list A) (m : list B) : length l = length m -> m <> [] -> l <> [].
Proof. destruct l, m; simpl; congruence. Qed.

Theorem jack_plus_nested outputs targets test e1 e2 is1 is2 : outputs <> [] -> e1 <= e2 ->
  jack_plus outputs targets test e1 = Ok is1 -> jack_plus outputs targets test e2 = Ok is2 ->
  Forall2 contains is1 is2.
Proof.
  intros N E H1 H2. unfold jack_plus in *.
  destruct (length outputs =? length targets)%nat eqn:L1; [|discriminate]. apply Nat.eqb_eq in L1.
  destruct (length test =? length outputs)%nat eqn:L2; [|discriminate]. apply Nat.eqb_eq in L2. simpl in *.
  injection H1 as <-. injection H2 as <-. apply map_forall2. intros t _. apply jack_plus1_nested; auto.
  - apply (nonempty_len _ outputs); [now rewrite column_length|assumption].
  - rewrite column_length, residuals_length; auto.
Qed.

Theorem jack_minmax_nested outputs targets test e1 e2 is1 is2 : outputs <> [] -> e1 <= e2 ->
  jack_minmax outputs targets test e1 = Ok is1 -> jack_minmax outputs targets test e2 = Ok is2 ->
  Forall2 contains is1 is2.
Proof.
  intros N E H1 H2. unfold jack_minmax in *.
  destruct (length outputs =? length targets)%nat eqn:L1; [|discriminate]. apply Nat.eqb_eq in L1. simpl in *.
  injection H1 as <-. injection H2 as <-. apply map_forall2. intros t _. apply jack_minmax1_nested; auto.
  apply (nonempty_len _ outputs); [now rewrite residuals_length|assumption].
Qed.

Theorem minmax_contains_jack_plus outputs targets test e is1 is2 : outputs <> [] ->
  jack_minmax outputs targets test e = Ok is1 -> jack_plus outputs targets test e = Ok is2 ->
  Forall2 contains is1 is2.
Proof.
  intros N H1 H2. unfold jack_minmax, jack_plus in *.
  destruct (length outputs =? length targets)%nat eqn:L1; [|discriminate]. apply Nat.eqb_eq in L1.
  destruct (length test =? length outputs)%nat eqn:L2; [|discriminate]. apply Nat.eqb_eq in L2. simpl in *.
  injection H1 as <-. injection H2 as <-. apply map_forall2. intros t _. apply minmax_contains_plus.
  - apply (nonempty_len _ outputs); [now rewrite column_length|assumption].
  - rewrite column_length, residuals_length; auto.
Qed.


Theorem jack_plus_ordered outputs targets test e is : outputs <> [] -> e <= 1 # 2 ->
  jack_plus outputs targets test e = Ok is -> Forall ordered is.
Proof.
  intros N E H. unfold jack_plus in *.
  destruct (length outputs =? length targets)%nat eqn:L1; [|discriminate]. apply Nat.eqb_eq in L1.
  destruct (length test =? length outputs)%nat eqn:L2; [|discriminate]. apply Nat.eqb_eq in L2. simpl in *.
  injection H as <-. apply Forall_forall. intros i Hi. apply in_map_iff in Hi. destruct Hi as (t & <- & _).
  apply jack_plus1_ordered; auto.
  - apply (nonempty_len _ outputs); [now rewrite column_length|assumption].
  - rewrite column_length, residuals_length; auto.
  - intros x. apply residuals_nonneg.
Qed.

Theorem jack_minmax_ordered outputs targets test e is : outputs <> [] -> test <> [] ->
  jack_minmax outputs targets test e = Ok is -> Forall ordered is.
Proof.
  intros N NT H. unfold jack_minmax in *.
  destruct (length outputs =? length targets)%nat eqn:L1; [|discriminate]. apply Nat.eqb_eq in L1. simpl in *.
  injection H as <-. apply Forall_forall. intros i Hi. apply in_map_iff in Hi. destruct Hi as (t & <- & _).
  apply jack_minmax1_ordered.
  - apply (nonempty_len _ test); [now rewrite column_length|assumption].
  - apply (nonempty_len _ outputs); [now rewrite residuals_length|assumption].
  - intros x. apply residuals_nonneg.
Qed.

Theorem cv_plus_nested outputs targets test e1 e2 is1 is2 : e1 <= e2 ->
  (forall t, cv_pairs t test (cv_residuals outputs targets) <> []) ->
  cv_plus outputs targets test e1 = Ok is1 -> cv_plus outputs targets test e2 = Ok is2 ->
  Forall2 contains is1 is2.
Proof.
  intros E NE H1 H2. unfold cv_plus in *. destruct (existsb _ _); [discriminate|].
  injection H1 as <-. injection H2 as <-. apply map_forall2. intros t _.
  specialize (NE t). split; simpl; apply quantile_mono_q; try lra; intros X; apply map_eq_nil in X; contradiction.
Qed.

(** CV+ with folds of size one is jackknife+ *)
Lemma cv_pairs_single t test : forall outputs targets, length outputs = length targets -> length test = length outputs ->
  cv_pairs t test (cv_residuals (map (fun x => [x]) outputs) (map (fun x => [x]) targets))
  = combine (column t test) (residuals outputs targets).
Proof.
  induction test as [|row test IH]; intros [|o outputs] [|y targets] L1 L2; try discriminate; [reflexivity|].
  unfold cv_pairs, cv_residuals, zip_with, residuals, column in *. simpl. f_equal. apply IH; auto.
Qed.

Theorem cv_plus_single outputs targets test e : length outputs = length targets -> length test = length outputs ->
  cv_plus (map (fun x => [x]) outputs) (map (fun x => [x]) targets) test e = jack_plus outputs targets test e.
Proof.
  intros L1 L2. unfold cv_plus, jack_plus. rewrite L2, !L1, !Nat.eqb_refl. simpl.
  assert (X : existsb (fun p : list Q * list Q * list Q => negb (length (fst (fst p)) =? length (snd (fst p)))%nat)
       (combine (combine (map (fun x => [x]) outputs) (map (fun x => [x]) targets)) test) = false).
  { clear -L1. revert targets test L1. induction outputs as [|o outputs IH]; intros [|y targets] test L1; try discriminate; [reflexivity|].
    destruct test; [reflexivity|]. simpl. apply IH. now injection L1. }
  rewrite X. apply (f_equal Ok). apply map_ext. intros t. rewrite cv_pairs_single by assumption. reflexivity.
Qed.
