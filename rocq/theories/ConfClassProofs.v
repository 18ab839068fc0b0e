From Coq Require Import List Arith ZArith QArith Qround Qminmax Bool Lia Lqa Permutation Sorted.
From Verif Require Import Lib QuantModel QuantSpec QuantProofs ConfRegModel ConfClassModel ConfClassSpec.
Import ListNotations.
Open Scope Q_scope.

(** ---- the sets are the true columns of the rows ---- *)
Lemma set_nth_length {A} (x : A) l : forall i, length (set_nth i x l) = length l.
Proof. induction l as [|y l IH]; intros [|i]; cbn; auto. Qed.
Lemma set_nth_same {A} (x d : A) l : forall i, (i < length l)%nat -> nth i (set_nth i x l) d = x.
Proof. induction l as [|y l IH]; intros [|i] H; cbn in *; try lia; auto. apply IH. lia. Qed.
Lemma set_nth_other {A} (x d : A) l : forall i j, i <> j -> nth j (set_nth i x l) d = nth j l d.
Proof. induction l as [|y l IH]; intros [|i] [|j] H; cbn in *; try lia; auto. Qed.

Lemma assign_length {A} idx (values l : list A) : length (assign idx values l) = length l.
Proof.
  unfold assign. revert l. generalize (combine idx values). induction l as [|[i v] c IH]; intros l; cbn [fold_left]; [reflexivity|].
  rewrite IH. cbn [fst snd]. apply set_nth_length.
Qed.
Lemma assign_map {A} (g : nat -> A) (d : A) idx : forall l i, (i < length l)%nat ->
  nth i (assign idx (map g idx) l) d = if existsb (Nat.eqb i) idx then g i else nth i l d.
Proof.
  unfold assign. induction idx as [|j idx IH]; intros l i H; cbn [map combine fold_left existsb]; [reflexivity|].
  cbn [fst snd]. rewrite IH by (now rewrite set_nth_length).
  destruct (Nat.eqb_spec i j) as [<-|N]; cbn [orb].
  - destruct (existsb (Nat.eqb i) idx); [reflexivity|]. now apply set_nth_same.
  - destruct (existsb (Nat.eqb i) idx); [reflexivity|]. apply set_nth_other. congruence.
Qed.

Lemma chunks_flat_map {A B} (g : A -> list B) us idx : (0 < us)%nat -> (forall i, In i idx -> length (g i) = us) ->
  forall fuel, (length idx * us <= fuel)%nat -> chunks fuel us (flat_map g idx) = map g idx.
Proof.
  intros U. induction idx as [|i idx IH]; intros H fuel F.
  - destruct fuel; reflexivity.
  - cbn [flat_map map length] in *. pose proof (H i (or_introl eq_refl)) as L.
    destruct fuel as [|fuel]; [nia|]. destruct (g i) as [|b gi] eqn:E; [cbn in L; lia|].
    cbn [app chunks]. rewrite <- E in *. change (b :: gi ++ flat_map g idx) with ((b :: gi) ++ flat_map g idx). rewrite <- E.
    assert (X1 : firstn us (g i ++ flat_map g idx) = g i)
      by (rewrite <- L, firstn_app, firstn_all, Nat.sub_diag, firstn_O; apply app_nil_r).
    assert (X2 : skipn us (g i ++ flat_map g idx) = flat_map g idx)
      by (rewrite <- L, skipn_app, skipn_all, Nat.sub_diag, skipn_O; reflexivity).
    rewrite X1, X2. f_equal. apply IH; [|nia].
    intros j Hj. apply H. now right.
Qed.

Lemma true_columns_length row : length (true_columns row) = length (filter (fun b => b) row).
Proof.
  unfold true_columns. rewrite map_length. generalize 0%nat. induction row as [|b row IH]; intros k; [reflexivity|].
  cbn [length seq combine filter snd]. destruct b; cbn [length]; now rewrite IH.
Qed.

Lemma insert_nat_in x l y : In y (insert_nat x l) <-> y = x \/ In y l.
Proof.
  induction l as [|z l IH]; cbn [insert_nat]; [cbn; intuition congruence|]. destruct (x <? z)%nat; [cbn; intuition congruence|].
  destruct (Nat.eqb_spec x z) as [E|N]; [subst z; cbn; intuition congruence|]. cbn. rewrite IH. intuition congruence.
Qed.
Lemma unique_nat_in l y : In y (unique_nat l) <-> In y l.
Proof. induction l as [|x l IH]; cbn; [reflexivity|]. rewrite insert_nat_in, IH. intuition congruence. Qed.

Lemma sets_from_conds_rows cs : sets_from_conds cs = map true_columns cs.
Proof.
  unfold sets_from_conds. set (sizes := map (fun row => length (filter (fun b => b) row)) cs).
  set (g := fun i => true_columns (nth i cs [])).
  assert (Hs : forall i, (i < length cs)%nat -> nth i sizes O = length (g i)).
  { intros i Hi. unfold g, sizes. rewrite true_columns_length.
    change O with ((fun row => length (filter (fun b : bool => b) row)) []). now rewrite map_nth. }
  set (step := fun (sets : list (list nat)) (us : nat) =>
      let idx := filter (fun i => (nth i sizes O =? us)%nat) (seq 0 (length cs)) in
      if (us =? 0)%nat then assign idx (repeat [] (length idx)) sets
      else let flat := flat_map g idx in assign idx (chunks (length flat) us flat) sets).
  assert (Hstep : forall sets us, step sets us =
     assign (filter (fun i => (nth i sizes O =? us)%nat) (seq 0 (length cs)))
            (map g (filter (fun i => (nth i sizes O =? us)%nat) (seq 0 (length cs)))) sets).
  { intros sets us. unfold step. set (idx := filter _ _). cbv zeta.
    assert (Hidx : forall i, In i idx -> length (g i) = us).
    { intros i Hi. apply filter_In in Hi. destruct Hi as [Hi E]. apply in_seq in Hi. apply Nat.eqb_eq in E.
      rewrite <- E. symmetry. apply Hs. lia. }
    destruct (Nat.eqb_spec us 0) as [->|N].
    - f_equal. clear - Hidx. induction idx as [|i idx IH]; cbn [length repeat map]; [reflexivity|].
      rewrite IH by (intros j Hj; apply Hidx; now right). f_equal.
      pose proof (Hidx i (or_introl eq_refl)) as L. destruct (g i); [reflexivity|discriminate].
    - f_equal. apply chunks_flat_map; [lia|exact Hidx|].
      clear - Hidx. induction idx as [|i idx IH]; cbn [flat_map length]; [lia|]. rewrite app_length.
      rewrite (Hidx i (or_introl eq_refl)). specialize (IH (fun j Hj => Hidx j (or_intror Hj))). nia. }
  assert (Hfold : forall L sets, length sets = length cs ->
     length (fold_left step L sets) = length cs /\
     forall i, (i < length cs)%nat -> nth i (fold_left step L sets) [] =
       if existsb (Nat.eqb (nth i sizes O)) L then g i else nth i sets []).
  { induction L as [|us L IH]; intros sets HL; cbn [fold_left existsb]; [split; [exact HL|reflexivity]|].
    destruct (IH (step sets us)) as [A B].
    { rewrite Hstep, assign_length. exact HL. }
    split; [exact A|]. intros i Hi. rewrite (B i Hi). destruct (existsb _ L); [now rewrite orb_true_r|].
    rewrite orb_false_r, Hstep, assign_map by (now rewrite HL).
    destruct (Nat.eqb_spec (nth i sizes O) us) as [E|N].
    - assert (X : existsb (Nat.eqb i) (filter (fun i => (nth i sizes O =? us)%nat) (seq 0 (length cs))) = true).
      { apply existsb_exists. exists i. split; [|apply Nat.eqb_refl]. apply filter_In. split; [apply in_seq; lia|now apply Nat.eqb_eq]. }
      now rewrite X.
    - destruct (existsb _ _) eqn:X; [|reflexivity]. exfalso. apply existsb_exists in X. destruct X as [j [Hj E]].
      apply Nat.eqb_eq in E. subst j. apply filter_In in Hj. destruct Hj as [_ E]. apply Nat.eqb_eq in E. contradiction. }
  change (fold_left step (unique_nat sizes) (repeat [] (length cs)) = map true_columns cs).
  destruct (Hfold (unique_nat sizes) (repeat [] (length cs)) (repeat_length _ _)) as [A B].
  apply nth_ext with (d := []) (d' := true_columns []).
  - now rewrite A, map_length.
  - intros i Hi. rewrite A in Hi. rewrite (B i Hi), map_nth.
    assert (X : existsb (Nat.eqb (nth i sizes O)) (unique_nat sizes) = true).
    { apply existsb_exists. exists (nth i sizes O). split; [|apply Nat.eqb_refl]. apply unique_nat_in, nth_In.
      unfold sizes. now rewrite map_length. }
    now rewrite X.
Qed.

Lemma true_columns_from (row : list bool) k c :
  In c (map fst (filter snd (combine (seq k (length row)) row))) <-> (k <= c)%nat /\ nth_error row (c - k) = Some true.
Proof.
  revert k. induction row as [|b row IH]; intros k; cbn [length seq combine filter map].
  - split; [intros []|]. intros [_ H]. destruct (c - k)%nat; discriminate.
  - cbn [snd]. destruct b; cbn [map fst In]; rewrite IH.
    + split.
      * intros [->|[A B]]; [rewrite Nat.sub_diag; auto|]. split; [lia|]. now replace (c - k)%nat with (S (c - S k)) by lia.
      * intros [A B]. destruct (Nat.eq_dec k c) as [|N]; [now left|]. right. split; [lia|].
        replace (c - k)%nat with (S (c - S k)) in B by lia. exact B.
    + split.
      * intros [A B]. split; [lia|]. now replace (c - k)%nat with (S (c - S k)) by lia.
      * intros [A B]. destruct (Nat.eq_dec k c) as [->|N]; [rewrite Nat.sub_diag in B; discriminate|]. split; [lia|].
        replace (c - k)%nat with (S (c - S k)) in B by lia. exact B.
Qed.
Lemma true_columns_in row c : In c (true_columns row) <-> nth_error row c = Some true.
Proof. unfold true_columns. rewrite true_columns_from, Nat.sub_0_r. intuition lia. Qed.
Lemma true_columns_sorted row : ascending_labels (true_columns row).
Proof.
  unfold true_columns, ascending_labels. generalize 0%nat. induction row as [|b row IH]; intros k; cbn [length seq combine filter map]; [constructor|].
  cbn [snd]. destruct b; cbn [map fst]; [|apply IH]. constructor; [apply IH|].
  apply Forall_forall. intros c Hc. apply true_columns_from in Hc. lia.
Qed.

Lemma cond1_spec vs e s : cond1 vs e s = true <-> inject_Z (Z.of_nat (n_above s vs)) < (1 - e) * inject_Z (Z.of_nat (length vs + 1)).
Proof. unfold cond1. rewrite Qltb_true. reflexivity. Qed.

Theorem sets_spec : forall vs ts e,
  length (get_conformal_sets vs ts e) = length ts /\
  forall i row, nth_error ts i = Some row -> exists s, nth_error (get_conformal_sets vs ts e) i = Some s /\ ascending_labels s /\
    forall c, In c s <-> exists x, nth_error row c = Some x /\
      inject_Z (Z.of_nat (n_above x vs)) < (1 - e) * inject_Z (Z.of_nat (length vs + 1)).
Proof.
  intros vs ts e. unfold get_conformal_sets. rewrite sets_from_conds_rows. unfold conds. rewrite map_map. split; [apply map_length|].
  intros i row Hi. exists (true_columns (map (cond1 vs e) row)).
  split; [rewrite nth_error_map, Hi; reflexivity|]. split; [apply true_columns_sorted|].
  intros c. rewrite true_columns_in, nth_error_map. destruct (nth_error row c) as [x|]; cbn.
  - split.
    + intros E. injection E as E. exists x. split; [reflexivity|]. now apply cond1_spec.
    + intros (x' & E & H). injection E as <-. f_equal. now apply cond1_spec.
  - split; [discriminate|]. intros (x & E & _). discriminate.
Qed.

Lemma cond1_mono_error vs e e' s : e' <= e -> cond1 vs e s = true -> cond1 vs e' s = true.
Proof.
  rewrite !cond1_spec. intros H L. eapply Qlt_le_trans; [exact L|]. apply Qmult_le_compat_r; [lra|].
  rewrite <- (Zle_Qle 0). lia.
Qed.
Theorem sets_nested : forall vs ts e e' i s s' c, e' <= e ->
  nth_error (get_conformal_sets vs ts e) i = Some s -> nth_error (get_conformal_sets vs ts e') i = Some s' -> In c s -> In c s'.
Proof.
  intros vs ts e e' i s s' c H. unfold get_conformal_sets. rewrite !sets_from_conds_rows. unfold conds. rewrite !map_map, !nth_error_map.
  destruct (nth_error ts i) as [row|]; [|discriminate]. cbn. intros E E'. injection E as <-. injection E' as <-.
  rewrite !true_columns_in, !nth_error_map. destruct (nth_error row c) as [x|]; [|discriminate]. cbn. intros E. injection E as E.
  f_equal. eapply cond1_mono_error; eassumption.
Qed.
Theorem sets_empty : forall vs ts e, (1 - e) * inject_Z (Z.of_nat (length vs + 1)) <= 0 ->
  Forall (fun s => s = []) (get_conformal_sets vs ts e).
Proof.
  intros vs ts e H. apply Forall_forall. intros s Hs. apply In_nth_error in Hs. destruct Hs as [i Hi].
  destruct (sets_spec vs ts e) as [L S]. destruct (nth_error ts i) as [row|] eqn:E.
  - destruct (S i row E) as (s' & E' & _ & M). rewrite Hi in E'. injection E' as <-.
    destruct s as [|c s]; [reflexivity|]. exfalso. destruct (proj1 (M c) (or_introl eq_refl)) as (x & _ & X).
    assert (0 <= inject_Z (Z.of_nat (n_above x vs))) by (rewrite <- (Zle_Qle 0); lia). lra.
  - exfalso. apply nth_error_None in E. assert (nth_error (get_conformal_sets vs ts e) i <> None) by congruence.
    apply nth_error_Some in H0. lia.
Qed.

(** ---- closed upwards in the score ---- *)
Lemma n_above_mono x y l : x <= y -> (n_above y l <= n_above x l)%nat.
Proof. intros H. apply count_mono. intros z _. rewrite !Qltb_true. lra. Qed.
Theorem sets_upward : forall vs ts e i row s c c' x x',
  nth_error ts i = Some row -> nth_error (get_conformal_sets vs ts e) i = Some s ->
  nth_error row c = Some x -> nth_error row c' = Some x' -> x <= x' -> In c s -> In c' s.
Proof.
  intros vs ts e i row s c c' x x' Hr Hs Hx Hx' L Hin.
  destruct (sets_spec vs ts e) as [_ S]. destruct (S i row Hr) as (s' & E & _ & M). rewrite Hs in E. injection E as <-.
  apply M. apply M in Hin. destruct Hin as (z & Ez & Lz). rewrite Hx in Ez. injection Ez as <-. exists x'. split; [exact Hx'|].
  eapply Qle_lt_trans; [|exact Lz]. rewrite <- Zle_Qle. pose proof (n_above_mono x x' vs L). lia.
Qed.

(** ---- coverage ---- *)
Lemma n_above_le v l : (n_above v l + n_le v l)%nat = length l.
Proof.
  unfold n_above, n_le. rewrite <- (count_split (fun x => Qlt_bool v x) l). f_equal. apply count_ext.
  intros x _. unfold Qlt_bool. now rewrite negb_involutive.
Qed.
Lemma top_k s k : (k <= length s)%nat -> (k <= count (fun x => (n_above x s <? k)%nat) s)%nat.
Proof.
  intros H. destruct k as [|k]; [lia|]. set (N := length s) in *.
  set (v := nth (N - S k) (qsort s) 0).
  assert (Hk : (N - S k < length s)%nat) by (unfold N in *; lia).
  assert (A : (N - S k < n_le v s)%nat) by (apply order_stat; [exact Hk|unfold v; lra]).
  assert (B : (n_lt v s <= N - S k)%nat).
  { destruct (le_lt_dec (n_lt v s) (N - S k)) as [|L]; [assumption|]. apply order_stat_lt in L; [|exact Hk]. unfold v in L. lra. }
  pose proof (n_lt_ge v s) as C. fold N in C.
  apply Nat.le_trans with (n_ge v s); [lia|]. unfold n_ge. apply count_mono. intros x _ Hx. apply Qleb_true in Hx.
  apply Nat.ltb_lt. pose proof (n_above_mono v x s Hx). pose proof (n_above_le v s) as D. fold N in D. lia.
Qed.

Lemma without_map {A B} (f : A -> B) i l : map f (without i l) = without i (map f l).
Proof. unfold without. now rewrite map_app, firstn_map, skipn_map. Qed.
Lemma without_count {A} (f : A -> bool) i l x : nth_error l i = Some x -> f x = false -> count f (without i l) = count f l.
Proof.
  revert i. induction l as [|y l IH]; intros [|i] H F; try discriminate.
  - injection H as ->. unfold without. cbn [firstn skipn app]. rewrite count_cons, F. reflexivity.
  - change (without (S i) (y :: l)) with (y :: without i l). rewrite !count_cons. cbn in H. rewrite (IH i H F). reflexivity.
Qed.
Lemma without_length {A} i (l : list A) : (i < length l)%nat -> length (without i l) = (length l - 1)%nat.
Proof. intros H. unfold without. rewrite app_length, firstn_length, skipn_length. lia. Qed.

Lemma zip_with_fst_snd (score : list Q -> nat -> Q) data : zip_with score (map fst data) (map snd data) = map (fun d => score (fst d) (snd d)) data.
Proof. unfold zip_with. induction data as [|[p y] data IH]; cbn; [reflexivity|]. now rewrite IH. Qed.


Lemma holdout_eq score data e K i p y : (forall d, In d data -> length (fst d) = K /\ (snd d < K)%nat) -> (2 <= length data)%nat ->
  nth_error data i = Some (p, y) ->
  let s := map (fun d => score (fst d) (snd d)) data in
  holdout_class score data e i = Qlt_bool (inject_Z (Z.of_nat (n_above (score p y) s))) ((1 - e) * inject_Z (Z.of_nat (length data))).
Proof.
  intros HK HN Hi s. unfold holdout_class. rewrite Hi. cbv zeta.
  assert (Li : (i < length data)%nat) by (apply nth_error_Some; congruence).
  assert (Lw : length (without i data) = (length data - 1)%nat) by (now apply without_length).
  unfold split_conformal_set. rewrite zip_with_fst_snd.
  assert (NC : n_classes (map fst (without i data)) = K).
  { destruct (without i data) as [|d r] eqn:E; [cbn in Lw; lia|]. cbn [map n_classes]. apply HK.
    assert (In d (without i data)) by (rewrite E; now left). unfold without in H. apply in_app_iff in H.
    destruct H as [H|H]; [rewrite <- (firstn_skipn i data)|rewrite <- (firstn_skipn (S i) data)]; apply in_app_iff; auto. }
  rewrite NC. unfold get_conformal_sets. rewrite sets_from_conds_rows. unfold class_scores, conds. cbn [map].
  rewrite without_map. fold s. rewrite map_map.
  assert (Hs : nth_error s i = Some (score p y)) by (unfold s; rewrite nth_error_map, Hi; reflexivity).
  assert (Hy : (y < K)%nat) by (apply (HK (p, y)); eapply nth_error_In; eassumption).
  assert (E : cond1 (without i s) e (score p y) = Qlt_bool (inject_Z (Z.of_nat (n_above (score p y) s))) ((1 - e) * inject_Z (Z.of_nat (length data)))).
  { unfold cond1. change (length (filter (fun v => Qlt_bool (score p y) v) (without i s))) with (n_above (score p y) (without i s)).
    unfold n_above at 1. rewrite (without_count _ i s (score p y) Hs) by (apply Qltb_false; lra).
    fold (n_above (score p y) s). rewrite without_length by (unfold s; now rewrite map_length). unfold s at 2. rewrite map_length.
    now replace (length data - 1 + 1)%nat with (length data) by lia. }
  rewrite <- E. unfold set_is_in.
  assert (NE : nth_error (map (fun x => cond1 (without i s) e (score p x)) (seq 0 K)) y = Some (cond1 (without i s) e (score p y))).
  { rewrite nth_error_map. rewrite (nth_error_nth' _ O) by (now rewrite seq_length). rewrite seq_nth by exact Hy. reflexivity. }
  destruct (cond1 (without i s) e (score p y)) eqn:C.
  - apply existsb_exists. exists y. split; [|apply Nat.eqb_refl]. apply true_columns_in. exact NE.
  - rewrite <- not_true_iff_false. intros X. apply existsb_exists in X. destruct X as [z [Hz Ez]]. apply Nat.eqb_eq in Ez. subst z.
    apply true_columns_in in Hz. rewrite Hz in NE. discriminate.
Qed.

Lemma count_seq_nth {A} (f : A -> bool) (g : nat -> bool) l : (forall i x, nth_error l i = Some x -> g i = f x) -> count g (seq 0 (length l)) = count f l.
Proof.
  revert g. induction l as [|x l IH]; intros g H; [reflexivity|]. cbn [length seq]. rewrite !count_cons.
  rewrite (H O x eq_refl). f_equal. rewrite <- seq_shift, count_map. apply IH. intros i y Hi. apply (H (S i) y Hi).
Qed.

Theorem coverage : forall score data e K, (forall d, In d data -> length (fst d) = K /\ (snd d < K)%nat) -> (2 <= length data)%nat -> 0 <= e ->
  (1 - e) * inject_Z (Z.of_nat (length data)) <= inject_Z (Z.of_nat (count (holdout_class score data e) (seq 0 (length data)))).
Proof.
  intros score data e K HK HN He. set (s := map (fun d => score (fst d) (snd d)) data).
  set (N := length data) in *. set (T := (1 - e) * inject_Z (Z.of_nat N)).
  assert (E : count (holdout_class score data e) (seq 0 N) = count (fun x => Qlt_bool (inject_Z (Z.of_nat (n_above x s))) T) s).
  { transitivity (count (fun d => Qlt_bool (inject_Z (Z.of_nat (n_above (score (fst d) (snd d)) s))) T) data).
    - apply count_seq_nth. intros i [p y] Hi. apply (holdout_eq score data e K i p y HK HN Hi).
    - symmetry. unfold s at 3. apply count_map. }
  rewrite E. destruct (Qlt_le_dec 0 T) as [P|P].
  - set (k := Z.to_nat (Qceiling T)).
    assert (C1 : T <= inject_Z (Qceiling T)) by apply Qle_ceiling.
    assert (C2 : inject_Z (Qceiling T) < T + 1). { pose proof (Qceiling_lt T) as C. rewrite Z.sub_1_r, <- Z.sub_1_r in C.
      unfold Z.sub in C. rewrite inject_Z_plus in C. change (inject_Z (- (1))) with (-1) in C. lra. }
    assert (P0 : (0 < Qceiling T)%Z). { rewrite Zlt_Qlt. change (inject_Z 0) with 0. lra. }
    assert (LN : T <= inject_Z (Z.of_nat N)).
    { unfold T. assert (0 <= inject_Z (Z.of_nat N)) by (rewrite <- (Zle_Qle 0); lia).
      assert (0 <= e * inject_Z (Z.of_nat N)) by (apply Qmult_le_0_compat; assumption). lra. }
    assert (Kle : (k <= length s)%nat). { unfold s. rewrite map_length. fold N. unfold k.
      assert (Qceiling T <= Z.of_nat N)%Z by (apply ceiling_le; exact LN). lia. }
    pose proof (top_k s k Kle) as Top.
    assert (Zk : Z.of_nat k = Qceiling T) by (unfold k; lia).
    eapply Qle_trans; [exact C1|]. rewrite <- Zk. rewrite <- Zle_Qle. apply Nat2Z.inj_le.
    eapply Nat.le_trans; [exact Top|]. apply count_mono. intros x _ Hx. apply Nat.ltb_lt in Hx. apply Qltb_true.
    assert (inject_Z (Z.of_nat (n_above x s)) + 1 <= inject_Z (Qceiling T)).
    { change 1 with (inject_Z 1). rewrite <- inject_Z_plus, <- Zle_Qle. lia. }
    lra.
  - eapply Qle_trans; [exact P|]. rewrite <- (Zle_Qle 0). lia.
Qed.
