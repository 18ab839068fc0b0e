(** Quantiles and credible intervals at fixed parameters. *)
From Coq Require Lqa.
From Coq Require Import List Arith ZArith QArith Qround Qreals Bool Reals Lia Lra String Permutation Sorting.Sorted.
From Verif Require Import Lib ConfRegModel QuantModel QuantProofs LoaderModel LoaderProofs LoaderProofs2 TempModel TempSpec TempProofs3 MetricSpec PredModel PredSpec PredProofs4
  PredProofs5 DrawModel DrawSpec DrawProofs DrawProofs2 LhpModel LhpSpec LhpProofs LhpProofs2.
Import ListNotations.
Local Notation length := List.length.
Local Notation concat := List.concat.
Local Open Scope R_scope.
Local Open Scope nat_scope.

Lemma Rleb_cases x y : Rleb x y = true /\ (x <= y)%R \/ Rleb x y = false /\ (y < x)%R.
Proof. unfold Rleb. destruct (Rle_dec x y); [left|right]; split; auto. lra. Qed.
Lemma rinsert_perm x l : Permutation (x :: l) (rinsert x l).
Proof.
  induction l as [|y l IH]; [reflexivity|]. cbn [rinsert]. destruct (Rleb x y); [reflexivity|].
  transitivity (y :: x :: l); [apply perm_swap|now apply perm_skip].
Qed.
Lemma rsort_perm l : Permutation l (rsort l).
Proof. induction l as [|x l IH]; [constructor|]. change (rsort (x :: l)) with (rinsert x (rsort l)). rewrite IH at 1. apply rinsert_perm. Qed.
Lemma rsort_length l : length (rsort l) = length l.
Proof. symmetry. apply Permutation_length, rsort_perm. Qed.
Lemma rinsert_sorted x l : StronglySorted Rle l -> StronglySorted Rle (rinsert x l).
Proof.
  induction 1 as [|y l S IH F]; cbn [rinsert]; [repeat constructor|].
  destruct (Rleb_cases x y) as [(-> & L)|(-> & L)].
  - constructor; [now constructor|]. constructor; [exact L|]. eapply Forall_impl; [|exact F]. intros a H. cbn in H. lra.
  - constructor; [exact IH|]. rewrite <- (rinsert_perm x l). constructor; [lra|exact F].
Qed.
Lemma rsort_sorted l : StronglySorted Rle (rsort l).
Proof. induction l as [|x l IH]; [constructor|]. now apply rinsert_sorted. Qed.

Lemma sorted_nth l i j : StronglySorted Rle l -> i <= j < length l -> (nth i l 0 <= nth j l 0)%R.
Proof.
  intros S. revert i j. induction S as [|x l S IH F]; intros i j H; [cbn in H; lia|].
  destruct i as [|i], j as [|j]; cbn [nth length] in *; try lia; try lra.
  - rewrite Forall_forall in F. apply F, nth_In. lia.
  - apply IH. lia.
Qed.

Lemma Q2R_inject z : Q2R (inject_Z z) = IZR z.
Proof. unfold Q2R. cbn. field. Qed.

Theorem rquantile_spec : forall l q, l <> [] -> (0 <= q <= 1)%Q -> quantile_of l q (rquantile l q).
Proof.
  intros l q NE (Q0 & Q1). set (n := length l). assert (N : 0 < n) by (destruct l; [congruence|cbn in n; lia]).
  set (pos := (q * (inject_Z (Z.of_nat n) - 1))%Q).
  assert (N1 : (0 <= inject_Z (Z.of_nat n) - 1)%Q).
  { assert (1 <= inject_Z (Z.of_nat n))%Q; [|Lqa.lra]. change 1%Q with (inject_Z 1). rewrite <- Zle_Qle. lia. }
  assert (P0 : (0 <= pos)%Q) by (apply Qmult_le_0_compat; assumption).
  assert (P1 : (pos <= inject_Z (Z.of_nat n) - 1)%Q).
  { unfold pos. rewrite <- (Qmult_1_l (inject_Z (Z.of_nat n) - 1)) at 2. apply Qmult_le_compat_r; assumption. }
  assert (F0 : (0 <= Qfloor pos)%Z) by (apply floor_ge; exact P0).
  assert (C1 : (Qceiling pos <= Z.of_nat n - 1)%Z).
  { apply ceiling_le. unfold Z.sub. rewrite inject_Z_plus. exact P1. }
  pose proof (floor_ceiling pos) as FC. pose proof (floor_frac pos) as FF. set (w := (pos - inject_Z (Qfloor pos))%Q) in *.
  exists (rsort l), (Z.to_nat (Qfloor pos)), (Q2R w).
  split; [apply rsort_perm|]. split; [apply rsort_sorted|]. split; [rewrite rsort_length; fold n; lia|].
  assert (W : (0 <= Q2R w < 1)%R).
  { split; [change 0%R with (IZR 0)|change 1%R with (IZR 1)]; rewrite <- Q2R_inject.
    - apply Qle_Rle, FF.
    - apply Qlt_Rlt, FF. }
  split; [exact W|]. split; [|split].
  - destruct (Z.eq_dec (Qceiling pos) (Qfloor pos)) as [E|E]; [left|right].
    + rewrite (Qeq_eqR w 0); [unfold Q2R; cbn; field|]. pose proof (Qfloor_le pos). pose proof (Qle_ceiling pos) as H0. rewrite E in H0. unfold w. Lqa.lra.
    + rewrite rsort_length. fold n. lia.
  - rewrite INR_IZR_INZ, Z2Nat.id, <- Q2R_inject, <- Q2R_plus by exact F0.
    rewrite (Qeq_eqR _ pos) by (unfold w; ring). unfold pos. rewrite Q2R_mult, Q2R_minus, Q2R_inject. fold n.
    rewrite INR_IZR_INZ. unfold Q2R at 2. cbn. f_equal. field.
  - unfold rquantile. fold n. fold pos. fold w. unfold clamp_index.
    replace (Nat.min (Z.to_nat (Qfloor pos)) (n - 1)) with (Z.to_nat (Qfloor pos)) by lia.
    destruct (Z.eq_dec (Qceiling pos) (Qfloor pos)) as [E|E].
    + assert (w == 0)%Q.
      { assert (pos == inject_Z (Qfloor pos))%Q; [|unfold w; Lqa.lra]. pose proof (Qfloor_le pos). pose proof (Qle_ceiling pos). rewrite E in H0. Lqa.lra. }
      rewrite (Qeq_eqR w 0 H). unfold Q2R. cbn. field.
    + replace (Nat.min (Z.to_nat (Qceiling pos)) (n - 1)) with (S (Z.to_nat (Qfloor pos))); [ring|].
      assert (Qceiling pos <= Qfloor pos + 1)%Z; [|lia]. apply ceiling_le. rewrite inject_Z_plus. change (inject_Z 1) with 1%Q. unfold w in FF. Lqa.lra.
Qed.

(** the value does not depend on the choice of order statistics *)
Lemma sorted_unique : forall s s', Permutation s s' -> StronglySorted Rle s -> StronglySorted Rle s' -> s = s'.
Proof.
  induction s as [|x s IH]; intros s' P S S'.
  - now apply Permutation_nil in P.
  - destruct s' as [|y s']; [now apply Permutation_sym, Permutation_nil in P|].
    assert (E : x = y).
    { inversion S as [|? ? _ F]; subst. inversion S' as [|? ? _ F']; subst.
      assert (I : In x (y :: s')) by (apply (Permutation_in x P); now left).
      assert (I' : In y (x :: s)) by (apply (Permutation_in y (Permutation_sym P)); now left).
      rewrite Forall_forall in F, F'. destruct I as [->|I]; [reflexivity|]. destruct I' as [->|I']; [reflexivity|].
      specialize (F y I'). specialize (F' x I). lra. }
    subst y. f_equal. inversion S; subst. inversion S'; subst. apply IH; auto. eapply Permutation_cons_inv; eauto.
Qed.

Lemma quantile_of_unique l q v v' : quantile_of l q v -> quantile_of l q v' -> v = v'.
Proof.
  intros (s & k & w & P & S & K & W & B & E & ->) (s' & k' & w' & P' & S' & K' & W' & B' & E' & ->).
  assert (s = s') as <- by (apply sorted_unique; auto; transitivity l; auto using Permutation_sym).
  assert (k = k') as <-.
  { destruct (lt_eq_lt_dec k k') as [[L|L]|L]; auto; exfalso; apply le_INR in L; rewrite S_INR in L; lra. }
  assert (w = w') as <- by lra. reflexivity.
Qed.

(** counting *)
Lemma num_perm {A} (f : A -> bool) l m : Permutation l m -> num f l = num f m.
Proof. induction 1; cbn [num]; lia. Qed.
Lemma num_app {A} (f : A -> bool) l m : num f (l ++ m) = num f l + num f m.
Proof. induction l as [|x l IH]; cbn [num app]; lia. Qed.
Lemma num_all {A} (f : A -> bool) l : (forall x, In x l -> f x = true) -> num f l = length l.
Proof.
  induction l as [|x l IH]; intros H; [reflexivity|]. cbn [num length]. rewrite (H x (or_introl eq_refl)), IH; [reflexivity|]. intros y I. apply H. now right.
Qed.
Lemma sorted_at_most s k v : StronglySorted Rle s -> k < length s -> (nth k s 0 <= v)%R -> S k <= at_most v s.
Proof.
  intros S K V. unfold at_most. rewrite <- (firstn_skipn (Datatypes.S k) s), num_app, num_all; [rewrite firstn_length; lia|].
  intros x I. destruct (In_nth _ _ 0%R I) as (i & L & E). rewrite firstn_length in L. destruct (Rle_dec x v) as [|C]; [reflexivity|]. exfalso. apply C.
  rewrite <- E. apply Rle_trans with (nth k s 0%R); [|exact V].
  replace (nth i (firstn (Datatypes.S k) s) 0%R) with (nth i s 0%R); [apply sorted_nth; [exact S|lia]|].
  rewrite <- (firstn_skipn (Datatypes.S k) s) at 1. apply app_nth1. rewrite firstn_length. lia.
Qed.
Lemma sorted_at_least s k v : StronglySorted Rle s -> k < length s -> (v <= nth k s 0)%R -> length s - k <= at_least v s.
Proof.
  intros S K V. unfold at_least. rewrite <- (firstn_skipn k s) at 2. rewrite num_app, (num_all _ (skipn k s)); [rewrite skipn_length; lia|].
  intros x I. destruct (In_nth _ _ 0%R I) as (i & L & E). rewrite skipn_length in L. destruct (Rle_dec v x) as [|C]; [reflexivity|]. exfalso. apply C.
  rewrite <- E. apply Rle_trans with (nth k s 0%R); [exact V|].
  replace (nth i (skipn k s) 0%R) with (nth (k + i) s 0%R); [apply sorted_nth; [exact S|lia]|].
  rewrite <- (firstn_skipn k s) at 1. rewrite app_nth2 by (rewrite firstn_length; lia). rewrite firstn_length. f_equal. lia.
Qed.

Theorem quantile_counts : forall l q v, quantile_of l q v ->
  (INR (at_most v l) > Q2R q * (INR (length l) - 1))%R /\ (INR (at_least v l) > (1 - Q2R q) * (INR (length l) - 1))%R.
Proof.
  intros l q v (s & k & w & P & St & K & (W0 & W1) & B & E & ->). pose proof (Permutation_length P) as L.
  set (v := ((1 - w) * nth k s 0 + w * nth (S k) s 0)%R).
  unfold at_most, at_least. rewrite !(num_perm _ l s P). fold (at_most v s) (at_least v s).
  assert (A : (nth k s 0 <= v)%R /\ (w = 0%R /\ v = nth k s 0%R \/ (0 < w)%R /\ S k < length s /\ (v <= nth (S k) s 0)%R)).
  { destruct (Req_dec w 0) as [Z|Z].
    - subst v. rewrite Z. split; [lra|left; split; [reflexivity|ring]].
    - destruct B as [B|B]; [lra|]. pose proof (sorted_nth s k (S k) St ltac:(lia)). subst v. split; [nra|right; split; [lra|split; [exact B|nra]]]. }
  destruct A as (A1 & A2). split.
  - pose proof (sorted_at_most s k v St K A1) as H. apply le_INR in H. rewrite S_INR in H. lra.
  - rewrite L in E |- *. destruct A2 as [(Z & A2)|(Z & B2 & A2)].
    + pose proof (sorted_at_least s k v St K ltac:(lra)) as H. apply le_INR in H. rewrite minus_INR in H by lia. lra.
    + pose proof (sorted_at_least s (S k) v St B2 A2) as H. apply le_INR in H. rewrite minus_INR, S_INR in H by lia. lra.
Qed.

Theorem quantile_affine : forall l q v a b, (0 <= a)%R -> quantile_of l q v -> quantile_of (map (fun z => b + a * z)%R l) q (b + a * v)%R.
Proof.
  intros l q v a b A (s & k & w & P & S & K & W & B & E & ->). exists (map (fun z => b + a * z)%R s), k, w.
  split; [now apply Permutation_map|]. split.
  - clear - S A. induction S as [|x s S IH F]; cbn [map]; constructor; [exact IH|]. apply Forall_map. eapply Forall_impl; [|exact F]. intros y L. cbn in *. nra.
  - rewrite !map_length. split; [exact K|]. split; [exact W|]. split; [exact B|]. split; [exact E|].
    assert (N : forall i, i < length s -> nth i (map (fun z => b + a * z)%R s) 0%R = (b + a * nth i s 0)%R).
    { intros i L. rewrite (nth_indep _ 0%R (b + a * 0)%R) by (rewrite map_length; exact L). exact (map_nth (fun z => b + a * z)%R s 0%R i). }
    rewrite (N k K). destruct B as [->|B]; [ring|]. rewrite (N (Datatypes.S k) B). ring.
Qed.

Lemma nth_noisy ms lvs z c : c < length ms -> nth c (noisy ms lvs z) 0%R = (nth c ms 0 + sqrt (exp (nth c lvs 0)) * z c)%R.
Proof.
  intros L. unfold noisy. set (f := fun c0 => (nth c0 ms 0 + sqrt (exp (nth c0 lvs 0)) * z c0)%R).
  rewrite (nth_indep _ 0%R (f 0)) by (rewrite map_length, seq_length; exact L). rewrite map_nth, seq_nth by exact L. reflexivity.
Qed.
Lemma noisy_length ms lvs z : length (noisy ms lvs z) = length ms.
Proof. unfold noisy. now rewrite map_length, seq_length. Qed.

Lemma numbered_length {A} (l : list A) : length (numbered l) = length l.
Proof. unfold numbered. rewrite combine_length, seq_length. lia. Qed.
Lemma nth_numbered {A} (l : list A) j : nth_error (numbered l) j = option_map (fun x => (j, x)) (nth_error l j).
Proof. unfold numbered. now rewrite nth_combine_seq. Qed.

Lemma quantile0_rows {X} (ms lvs : X -> list R) rows z m q : 1 <= m -> (0 <= q <= 1)%Q ->
  row_quantiles ms lvs rows z m q
    (quantile0 (map (fun t => map (fun jx => noisy (ms (snd jx)) (lvs (snd jx)) (z (length (ms (snd jx))) t (fst jx))) (numbered rows)) (seq 0 m)) q).
Proof.
  intros M Q. unfold quantile0. set (smp := map _ (seq 0 m)).
  assert (H : hd [] smp = map (fun jx => noisy (ms (snd jx)) (lvs (snd jx)) (z (length (ms (snd jx))) 0 (fst jx))) (numbered rows)).
  { subst smp. destruct m; [lia|reflexivity]. }
  rewrite H. fold (@numbered (list R)). fold (numbered (map (fun jx => noisy (ms (snd jx)) (lvs (snd jx)) (z (length (ms (snd jx))) 0 (fst jx))) (numbered rows))).
  split; [now rewrite map_length, numbered_length, map_length, numbered_length|].
  intros j x E. eexists. rewrite nth_error_map, nth_numbered, nth_error_map, nth_numbered, E. cbn [option_map fst snd]. split; [reflexivity|].
  rewrite map_length, seq_length, noisy_length. split; [reflexivity|]. intros c C.
  exists (rquantile (map (fun t => z (length (ms x)) t j c) (seq 0 m)) q).
  assert (NE : map (fun t => z (length (ms x)) t j c) (seq 0 m) <> []) by (destruct m; [lia|discriminate]).
  pose proof (rquantile_spec _ q NE Q) as S. split; [exact S|].
  set (F := fun c0 => rquantile (map (fun s => nth c0 (nth j s []) 0%R) smp) q).
  rewrite (nth_indep _ 0%R (F 0)) by (rewrite map_length, seq_length; exact C). rewrite map_nth, seq_nth by exact C. cbn [Nat.add]. unfold F.
  assert (D : map (fun s => nth c (nth j s []) 0%R) smp = map (fun y => nth c (ms x) 0 + sqrt (exp (nth c (lvs x) 0)) * y)%R (map (fun t => z (length (ms x)) t j c) (seq 0 m))).
  { subst smp. rewrite !map_map. apply map_ext. intros t.
    rewrite (nth_error_nth _ j [] (x := noisy (ms x) (lvs x) (z (length (ms x)) t j))); [now apply nth_noisy|].
    rewrite nth_error_map, nth_numbered, E. reflexivity. }
  rewrite D. eapply quantile_of_unique.
  - apply rquantile_spec; [|exact Q]. destruct m; [lia|discriminate].
  - apply quantile_affine; [apply sqrt_pos|exact S].
Qed.

Theorem quantile_level : forall label X normal (net : list X -> list (list R)) manager h ms lvs q m rng g distribute d loader,
  outputs_by net manager h -> divisible distribute d loader -> parts_by h ms lvs (concat loader) -> 1 <= m -> (0 <= q <= 1)%Q ->
  exists a, quantile label normal net manager (Level q) true (Some loader) m None rng g distribute d = (Ok (One a), generator_after label rng g) /\
    row_quantiles ms lvs (concat loader) (fun w => normal (key_of label rng g) m (length (concat loader)) w) m q a.
Proof.
  intros label X normal net manager h ms lvs q m rng g distribute d loader O D P M Q. eexists. split.
  - unfold quantile. rewrite (reg_samples label X normal net manager h ms lvs m [] rng g distribute d loader O D P) by constructor. cbn [bind fst np_quantile]. reflexivity.
  - now apply quantile0_rows.
Qed.
Theorem quantile_array : forall label X normal (net : list X -> list (list R)) manager h ms lvs qs m rng g distribute d loader,
  outputs_by net manager h -> divisible distribute d loader -> parts_by h ms lvs (concat loader) -> 1 <= m -> Forall (fun q => (0 <= q <= 1)%Q) qs ->
  exists arrays, quantile label normal net manager (LevelArray qs) true (Some loader) m None rng g distribute d = (Ok (Several arrays), generator_after label rng g) /\
    Forall2 (row_quantiles ms lvs (concat loader) (fun w => normal (key_of label rng g) m (length (concat loader)) w) m) qs arrays.
Proof.
  intros label X normal net manager h ms lvs qs m rng g distribute d loader O D P M Q. eexists. split.
  - unfold quantile. rewrite (reg_samples label X normal net manager h ms lvs m [] rng g distribute d loader O D P) by constructor. cbn [bind fst np_quantile]. reflexivity.
  - induction Q as [|q qs Q0 Q IH]; cbn [map]; constructor; [|exact IH]. now apply quantile0_rows.
Qed.

Theorem quantile_given : forall label X normal (net : list X -> list (list R)) manager q given loader m samples rng g distribute d rows w,
  samples <> [] -> Forall (fun s => length s = rows /\ Forall (fun r => length r = w) s) samples -> (0 <= q <= 1)%Q ->
  exists a, quantile label normal net manager (Level q) given loader m (Some samples) rng g distribute d = (Ok (One a), g) /\
    length a = rows /\ forall j, j < rows -> length (nth j a []) = w /\
      forall c, c < w -> quantile_of (map (fun s => nth c (nth j s []) 0%R) samples) q (nth c (nth j a []) 0%R).
Proof.
  intros label X normal net manager q given loader m samples rng g distribute d rows w NE F Q. eexists. split; [reflexivity|].
  destruct samples as [|s0 r]; [congruence|]. inversion F as [|? ? (L & W) _]; subst. set (smp := s0 :: r) in *.
  unfold quantile0. cbn [hd]. replace (hd [] smp) with s0 by reflexivity. fold (numbered s0).
  split; [rewrite map_length; apply numbered_length|]. intros j J.
  assert (E : exists r0, nth_error s0 j = Some r0) by (destruct (nth_error s0 j) eqn:E; [eauto|apply nth_error_None in E; lia]). destruct E as (r0 & E).
  set (a := map _ (numbered s0)).
  assert (A : nth j a [] = map (fun c => rquantile (map (fun s => nth c (nth j s []) 0%R) smp) q) (seq 0 w)).
  { apply nth_error_nth. subst a. rewrite nth_error_map, nth_numbered, E. cbn [option_map fst snd]. rewrite Forall_forall in W. now rewrite (W r0 (nth_error_In _ _ E)). }
  rewrite A, map_length, seq_length. split; [reflexivity|]. intros c C.
  set (f := fun c => rquantile (map (fun s => nth c (nth j s []) 0%R) smp) q).
  rewrite (nth_indep _ 0%R (f 0)) by (rewrite map_length, seq_length; exact C). rewrite map_nth, seq_nth by exact C. cbn [Nat.add]. unfold f. apply rquantile_spec; [discriminate|exact Q].
Qed.

Theorem quantile_refused : forall label X normal (net : list X -> list (list R)) manager q given (loader : option (list (list X))) m rng g distribute d qs samples,
  (given = false \/ loader = None -> quantile label normal net manager q given loader m None rng g distribute d = (Err ValueError, g)) /\
  quantile label normal net manager (LevelList qs) given loader m (Some samples) rng g distribute d = (Err TypeError, g).
Proof.
  intros. split; [|reflexivity]. intros [->| ->]; cbn [quantile]; [reflexivity|]. destruct given; reflexivity.
Qed.
Theorem quantile_list_refused : forall label X normal (net : list X -> list (list R)) manager h ms lvs qs m rng g distribute d loader,
  outputs_by net manager h -> divisible distribute d loader -> parts_by h ms lvs (concat loader) ->
  quantile label normal net manager (LevelList qs) true (Some loader) m None rng g distribute d = (Err TypeError, generator_after label rng g).
Proof.
  intros label X normal net manager h ms lvs qs m rng g distribute d loader O D P. unfold quantile.
  rewrite (reg_samples label X normal net manager h ms lvs m [] rng g distribute d loader O D P) by constructor. reflexivity.
Qed.

(** ---- the calibration model ---- *)
Lemma state_outputs {X P M} (apply : P -> M -> list X -> list (list R)) p mu h : (forall xs, apply p mu xs = map h xs) -> outputs_by (apply p mu) None h.
Proof. intros E. exists h, (fun o => o). auto. Qed.

Lemma num_both {A} (f g : A -> bool) l : num f l + num g l <= length l + num (fun x => f x && g x) l.
Proof. induction l as [|x l IH]; [cbn; lia|]. cbn [num length]. destruct (f x), (g x); cbn; lia. Qed.

Lemma quantile_mono l q q' v v' : quantile_of l q v -> quantile_of l q' v' -> (q <= q')%Q -> (v <= v')%R.
Proof.
  intros (s & k & w & P & S & K & W & B & E & ->) (s' & k' & w' & P' & S' & K' & W' & B' & E' & ->) L.
  assert (s = s') as <- by (apply sorted_unique; auto; transitivity l; auto using Permutation_sym).
  apply Qle_Rle in L. assert (N : (0 <= INR (length l) - 1)%R).
  { rewrite (Permutation_length P). destruct s; [cbn in K; lia|]. cbn [length]. rewrite S_INR. pose proof (pos_INR (length s)). lra. }
  assert (X : (INR k + w <= INR k' + w')%R) by (rewrite E, E'; now apply Rmult_le_compat_r).
  destruct (lt_eq_lt_dec k k') as [[H| ->]|H].
  - apply Rle_trans with (nth (Datatypes.S k) s 0%R).
    + pose proof (sorted_nth s k (Datatypes.S k) S ltac:(lia)). nra.
    + pose proof (sorted_nth s (Datatypes.S k) k' S ltac:(lia)). destruct B' as [->|B']; [lra|].
      pose proof (sorted_nth s k' (Datatypes.S k') S ltac:(lia)). nra.
  - destruct B as [->|B].
    + destruct B' as [->|B']; [lra|]. pose proof (sorted_nth s k' (Datatypes.S k') S ltac:(lia)). nra.
    + pose proof (sorted_nth s k' (Datatypes.S k') S ltac:(lia)). nra.
  - exfalso. apply le_INR in H. rewrite S_INR in H. lra.
Qed.
