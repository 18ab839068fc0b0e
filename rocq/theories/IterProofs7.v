From Coq Require Import List Arith ZArith QArith Qabs Qminmax Qround Bool Lia Lqa Sorted Permutation.
From Verif Require Import Lib LoaderProofs QuantModel QuantSpec QuantProofs ConfRegModel ConfRegProofs ConfClassModel ConfClassProofs ConfClassProofs2 ConfClassSpec ConfClassProofs3 MultiModel MultiSpec MultiSpec2 MultiSpec3 MultiProofs MultiProofs2 MultiProofs3 MultiProofs4 MultiProofs5 MultiProofs7 MultiProofs8 OneShotModel OneShotSpec OneShotProofs OneShotProofs2 IterModel IterSpec IterProofs IterProofs2 IterProofs3 IterProofs4 IterProofs5 IterProofs6.
Import ListNotations.
Open Scope Q_scope.

(** ---- the error of one bucket ---- *)
Lemma sum_where_same bs : forall xs ys, Forall2 Qeq xs ys -> sum_where bs xs == sum_where bs ys.
Proof.
  induction bs as [|b bs IH]; intros xs ys F; [reflexivity|]. destruct F as [|x y xs ys E F]; [reflexivity|]. cbn. specialize (IH xs ys F). destruct b; rewrite ?E, IH; reflexivity.
Qed.
Lemma n_covered_same bs : forall ss ss' xs, Forall2 Qeq ss ss' -> n_covered bs ss xs == n_covered bs ss' xs.
Proof.
  induction bs as [|b bs IH]; intros ss ss' xs F; [reflexivity|]. destruct F as [|x y ss ss' E F]; [reflexivity|]. destruct xs as [|z xs]; [reflexivity|]. cbn [n_covered]. rewrite (IH ss ss' xs F). apply Qplus_comp; [|reflexivity].
  destruct b; [|reflexivity]. destruct (Qlt_le_dec z x), (Qlt_le_dec z y); try reflexivity; lra.
Qed.
Lemma part_error_same f c bs ss ss' xs : Forall2 Qeq ss ss' -> part_error f c ss xs bs == part_error f c ss' xs bs.
Proof. intros F. unfold part_error. destruct f; [rewrite (sum_where_same bs _ _ F)|rewrite (n_covered_same bs _ _ xs F)]; reflexivity. Qed.
Lemma covered_sum bs : forall ss xs, qsum (zip_with (fun st b => of_bool (Qle_bool (fst st) (snd st) && b)) (combine ss xs) bs) == n_covered bs ss xs.
Proof.
  induction bs as [|b bs IH]; intros [|s ss] [|x xs]; try reflexivity. cbn [combine n_covered]. rewrite zip_cons, qsum_cons, IH. cbn [fst snd]. apply Qplus_comp; [|reflexivity].
  destruct (Qlt_le_dec x s) as [H|H].
  - rewrite (proj2 (Qleb_false _ _) H). now destruct b.
  - rewrite (proj2 (Qleb_true _ _) H). now destruct b.
Qed.
Lemma mvp_error_part c bs ss xs : bs <> [] -> length bs = length ss -> length bs = length xs ->
  mvp_error c ss xs bs * inject_Z (Z.of_nat (length bs)) == part_error Mvp c ss xs bs.
Proof.
  intros H Ls Lx. assert (P := nQ_pos bs H). unfold mvp_error, mvp_prob_error, part_error. assert (S0 := prob_of_spec bs H). assert (N0 := n_where_nonneg bs).
  destruct (Qlt_le_dec 0 (prob_of bs)) as [E|E].
  - assert (A : mvp_prob ss xs bs * n_where bs == n_covered bs ss xs).
    { unfold mvp_prob. rewrite (proj2 (Qltb_true _ _) E). rewrite <- (covered_sum bs ss xs), <- S0. unfold qmean, qlen. rewrite zip_length by (rewrite combine_length; lia). rewrite combine_length, <- Ls, <- Lx, Nat.min_id. field. split; lra. }
    rewrite <- A, <- S0. set (p := prob_of bs) in *. set (m := inject_Z (Z.of_nat (length bs))) in *. field. split; lra.
  - assert (Z : prob_of bs == 0). { destruct (Qle_lt_or_eq _ _ N0) as [C|C]. assert (0 < prob_of bs); [|lra]. destruct (Qlt_le_dec 0 (prob_of bs)) as [D|D]; [assumption|]. assert (prob_of bs * inject_Z (Z.of_nat (length bs)) <= 0 * inject_Z (Z.of_nat (length bs))) by (apply Qmult_le_compat_r; lra). lra. apply prob_zero; [assumption|lra]. }
    rewrite Z. assert (W : n_where bs == 0) by (now apply prob_zero in Z). rewrite W. unfold Qdiv. change (/ 0) with 0. ring.
Qed.
Lemma zip_mask {V} (b : list bool -> V -> bool) rows xs mask : length rows = length xs -> length mask = length xs ->
  (forall i row x, nth_error rows i = Some row -> nth_error xs i = Some x -> (nth_error mask i = Some true <-> b row x = true)) -> zip_with b rows xs = mask.
Proof.
  intros L Lm H. assert (Lz : length (zip_with b rows xs) = length xs) by (rewrite zip_with_length; lia). apply (nth_ext _ _ false false); [lia|]. intros i Hi. rewrite Lz in Hi.
  destruct (nth_error rows i) as [row|] eqn:Er; [|apply nth_error_None in Er; lia]. destruct (nth_error xs i) as [x|] eqn:Ex; [|apply nth_error_None in Ex; lia].
  specialize (H i row x Er Ex). assert (Z := zip_nth_error b rows xs i). rewrite Er, Ex in Z. rewrite (nth_error_nth _ _ false Z).
  destruct (nth_error mask i) as [c|] eqn:Em; [|apply nth_error_None in Em; lia]. rewrite (nth_error_nth _ _ false Em).
  destruct c, (b row x); try reflexivity; destruct H as [H1 H2]; [discriminate H1; reflexivity|]. specialize (H2 eq_refl). congruence.
Qed.
Lemma within_same n a v w : v == w -> (within n a v <-> within n a w).
Proof. intros E. unfold within. now rewrite E. Qed.
Lemma total_errors {V} (m : method V) n g c rows scores values (masks : nat -> list bool) part : rows <> [] ->
  (forall j, (j < n)%nat -> m_error m (column_of c scores) (map (m_val m c) values) (zip_with (m_b m n {| k_tau := 0; k_g := g; k_v := nth j (get_buckets n) 0; k_c := c |}) rows values) * inject_Z (Z.of_nat (length rows)) == part (masks j)) ->
  (forall j, (j < n)%nat -> 0 <= part (masks j)) ->
  let size := n_where (map (fun row => nth g row false) rows) in
  (size == 0 -> calibration_error m n rows scores values g c = None) /\
  (~ size == 0 -> exists e, calibration_error m n rows scores values g c = Some e /\ 0 <= e /\ e * size == total_of (map (fun j => part (masks j)) (seq 0 n))).
Proof.
  intros NE H NN size. set (col := map (fun row => nth g row false) rows) in *. assert (Hc : col <> []) by (unfold col; destruct rows; easy).
  assert (P := nQ_pos col Hc). assert (Sz := prob_of_spec col Hc). assert (N0 := n_where_nonneg col). unfold calibration_error. fold col. cbv zeta. split; intros Z.
  - apply prob_zero in Z; [|assumption]. apply Qeq_bool_iff in Z. now rewrite Z.
  - assert (Z' : ~ prob_of col == 0) by (intros X; apply Z; now apply prob_zero in X). destruct (Qeq_bool (prob_of col) 0) eqn:E; [apply Qeq_bool_iff in E; contradiction|].
    eexists. split; [reflexivity|]. set (err := fun v => m_error m (column_of c scores) (map (m_val m c) values) (zip_with (m_b m n {| k_tau := 0; k_g := g; k_v := v; k_c := c |}) rows values)) in *.
    set (N := inject_Z (Z.of_nat (length col))) in *.
    assert (T : qsum (map err (get_buckets n)) * N == total_of (map (fun j => part (masks j)) (seq 0 n)) /\ 0 <= total_of (map (fun j => part (masks j)) (seq 0 n))).
    { assert (B : get_buckets n = map (fun j => nth j (get_buckets n) 0) (seq 0 n)).
      { apply (nth_ext _ _ 0 0); [rewrite map_length, seq_length; apply linspace_length|]. intros i Hi. unfold get_buckets in Hi. rewrite linspace_length in Hi.
        rewrite (nth_indep (map _ _) 0 (nth 0 (get_buckets n) 0)) by (now rewrite map_length, seq_length). rewrite (map_nth (fun j => nth j (get_buckets n) 0)), seq_nth by exact Hi. reflexivity. }
      rewrite B, map_map. assert (LN : N = inject_Z (Z.of_nat (length rows))) by (unfold N, col; now rewrite map_length). rewrite LN.
      assert (I : forall j, In j (seq 0 n) -> (j < n)%nat) by (intros j Hj; apply in_seq in Hj; lia). revert I. generalize (seq 0 n). induction l as [|j l IH]; intros I; [split; [cbn; ring|apply Qle_refl]|].
      destruct IH as [IH1 IH2]; [intros k Hk; apply I; now right|]. cbn [map]. rewrite qsum_cons. cbn [total_of fold_right]. unfold total_of in IH1, IH2. assert (J : (j < n)%nat) by (apply I; now left).
      split; [rewrite Qmult_plus_distr_l, IH1; apply Qplus_comp; [exact (H j J)|reflexivity]|]. specialize (NN j J). lra. }
    destruct T as [T1 T2]. set (q := qsum _) in *. assert (Hp : 0 < prob_of col). { destruct (Qlt_le_dec 0 (prob_of col)) as [D|D]; [assumption|]. assert (prob_of col * N <= 0 * N) by (apply Qmult_le_compat_r; lra). exfalso. apply Z. unfold size. lra. }
    split.
    + assert (0 <= q). { destruct (Qlt_le_dec q 0) as [D|D]; [|assumption]. assert (q * N < 0 * N) by (apply Qmult_lt_compat_r; lra). lra. }
      apply Qle_shift_div_l; lra.
    + rewrite <- T1. unfold size. rewrite <- Sz. field. lra.
Qed.
Lemma part_error_nonneg f c ss xs bs : 0 <= part_error f c ss xs bs.
Proof.
  unfold part_error. set (b := match f with Mvp => _ | _ => _ end). apply Qmult_le_0_compat; [|apply Qinv_le_0_compat; apply n_where_nonneg].
  destruct (Qlt_le_dec b 0) as [C|C]; [setoid_replace (b * b) with ((- b) * (- b)) by ring|]; apply Qmult_le_0_compat; lra.
Qed.
Lemma marks_scalar n g c rows v v' xs mask : (0 < n)%nat -> length rows = length xs -> v == v' -> marks n g c rows v' (Vec xs) mask ->
  zip_with (b1 n {| k_tau := 0; k_g := g; k_v := v; k_c := c |}) rows xs = mask.
Proof.
  intros N L E [Lm H]. apply zip_mask; [exact L|exact Lm|]. intros i row x Er Ex. rewrite (H i row Er), (MultiProofs.membership n _ row x N). unfold selected. cbn [k_g k_tau k_v].
  change (Qabs (x - v) * (2 * inject_Z (Z.of_nat n)) < 1) with (within n x v). rewrite (within_same n x v v' E). split; intros [A B]; (split; [exact A|]); [destruct B as (a & Ea & B); congruence|now exists x].
Qed.
Lemma marks_top n g c rows v v' xs mask : (0 < n)%nat -> length rows = length xs -> Forall (fun r => r <> []) xs -> v == v' -> marks n g c rows v' (Mat xs) mask ->
  zip_with (b_top n {| k_tau := 0; k_g := g; k_v := v; k_c := c |}) rows xs = mask.
Proof.
  intros N L FR E [Lm H]. apply zip_mask; [exact L|exact Lm|]. intros i row x Er Ex. assert (LX : (0 < length x)%nat). { rewrite Forall_forall in FR. specialize (FR x (nth_error_In _ _ Ex)). destruct x; [congruence|cbn; lia]. }
  rewrite (H i row Er), (membership_top n _ row x N LX). unfold selected. cbn [k_g k_tau k_v k_c].
  change (Qabs (nth c x 0 - v) * (2 * inject_Z (Z.of_nat n)) < 1) with (within n (nth c x 0) v). rewrite (within_same n _ v v' E). split; [intros [A (a & Ea & B & C)]; assert (a = x) by congruence; subst; auto|intros [[A B] C]; split; [exact A|now exists x]].
Qed.
Lemma table_entry {V} (m : method V) n w dims scores values g c : (g < g_width w)%nat -> (c < dims)%nat ->
  nth c (nth g (error_table m n w dims scores values) []) None = calibration_error m n (g_rows w) scores values g c.
Proof.
  intros G C. unfold error_table. rewrite (nth_indep _ [] (map (calibration_error m n (g_rows w) scores values 0) (seq 0 dims))) by (now rewrite map_length, seq_length).
  rewrite (map_nth (fun g => map (calibration_error m n (g_rows w) scores values g) (seq 0 dims))), seq_nth by exact G.
  rewrite (nth_indep _ None (calibration_error m n (g_rows w) scores values g 0)) by (now rewrite map_length, seq_length). rewrite map_nth, seq_nth by exact C. reflexivity.
Qed.
Lemma table_shape {V} (m : method V) n w dims scores values : length (error_table m n w dims scores values) = g_width w /\ Forall (fun r => length r = dims) (error_table m n w dims scores values).
Proof.
  unfold error_table. split; [now rewrite map_length, seq_length|]. apply Forall_forall. intros r H. apply in_map_iff in H. destruct H as (g & <- & _). now rewrite map_length, seq_length.
Qed.
Section Error.
Variable rnd : random.
Hypothesis T : tame rnd.
Theorem error_meaning f o t l w v n : good_targets (kind_of f) t -> t_array t = Vec l -> (0 < length l)%nat -> (0 < n)%nat -> (forall g, w = Some g -> proper g /\ length (g_rows g) = length l) ->
  (forall x, v = Some x -> values_fine f x /\ points x = length l /\ full_rows x) ->
  let r := ierror rnd f o t w v n in
  let x := init_values rnd f v (length l) in
  let gs := groups_for w (length l) in
  (f = Mvp -> v = None \/ i_coverage o = None -> r = Err TypeError) /\
  forall coverage, (f = Mvp -> v <> None /\ i_coverage o = Some coverage) ->
  exists table, r = Ok table /\ length table = g_width gs /\ Forall (fun row => length row = width (kind_of f)) table /\
  forall g c ss masks, (g < g_width gs)%nat -> (c < width (kind_of f))%nat -> Forall2 (score_is (kind_of f) c) l ss -> (forall j, (j < n)%nat -> marks n g c (g_rows gs) (centre n j) x (masks j)) ->
    let size := n_where (map (fun row => nth g row false) (g_rows gs)) in
    let entry := nth c (nth g table []) None in
    (size == 0 -> entry = None) /\
    (~ size == 0 -> exists e, entry = Some e /\ 0 <= e /\ e * size == total_of (map (fun j => part_error f coverage ss (dimension c x) (masks j)) (seq 0 n))).
Proof.
  intros GT Et LP N GW VF r x gs. destruct (targets_ok _ _ GT) as (l' & E' & GS & CS). assert (l' = l) by congruence. subst l'.
  assert (M : forall m, f = Mc (TopLabel m) -> (0 < m)%nat). { intros m ->. destruct GT as (l' & _ & G). apply G. }
  assert (LS : length (scores_of (kind_of f) l) = length l) by apply scores_of_length.
  assert (CG : match w with None => Ok tt | Some g => check_groups g None end = Ok tt).
  { destruct w as [g|]; [|reflexivity]. destruct (groups_cases g None) as [(E & _)|(_ & X)]; [exact E|]. exfalso. apply X. split; [now apply GW|discriminate]. }
  assert (CV : forall y, v = Some y -> check_vals f y None = Ok tt).
  { intros y E. destruct (VF y E) as (A & _). destruct (vals_cases f y None) as [(E4 & _)|(E4 & X)]; [intros ->; apply A|exact E4|]. exfalso. apply X. split; [exact A|discriminate]. }
  assert (GL : length (g_rows gs) = length l). { unfold gs. destruct w as [g|]; [now apply GW|]. cbn. now rewrite repeat_length. }
  assert (XL : points x = length l /\ values_fine f x /\ full_rows x).
  { unfold x. destruct v as [y|]; [destruct (VF y eq_refl) as (A & B & C); auto|]. split; [|split; [now apply init_fine|]]; destruct f as [[| |m]|]; cbn; rewrite ?repeat_length, ?map_length, ?seq_length; try reflexivity; try exact I.
    apply Forall_forall. intros row Hr. apply in_map_iff in Hr. destruct Hr as (i & <- & _). destruct (init_row_unit rnd T m (length l) i (M m eq_refl)) as (_ & _ & L). intros Z. rewrite Z in L. specialize (M m eq_refl). cbn in L. lia. }
  destruct XL as (XP & XF & FR).
  assert (ER : r = bind (match f, v with Mvp, None => Err TypeError | _, None => Ok tt | _, Some y => check_vals f y None end) (fun _ =>
     match f, x with
     | Mc (TopLabel m), Mat rows => Ok (error_table top_label n gs m (scores_of (kind_of f) l) rows)
     | Mc (TopLabel _), Vec _ => Err TypeError
     | Mc _, Vec xs => Ok (error_table multicalibrator n gs 1 (scores_of (kind_of f) l) xs)
     | Mvp, Vec xs => match i_coverage o with None => Err TypeError | Some c => Ok (error_table (batch_mvp c) n gs 1 (scores_of (kind_of f) l) xs) end
     | _, _ => Err TypeError
     end)).
  { unfold r, ierror. rewrite GS. cbn [bind]. rewrite CS. cbn [bind]. rewrite CG. cbn [bind]. rewrite LS. change (init_groups w (length l)) with gs. assert (EX : init_values rnd f v (length l) = x) by reflexivity. clearbody x. rewrite GL, Nat.eqb_refl. cbn [andb].
    destruct (match f, v with Mvp, None => Err TypeError | _, None => Ok tt | _, Some y => check_vals f y None end) as [u|e]; [|reflexivity]. cbn [bind].
    destruct f as [[| |m]|]; rewrite EX; destruct x as [xs|xs]; cbn [points] in XP; rewrite ?XP, ?Nat.eqb_refl; reflexivity. }
  split.
  - intros -> H. rewrite ER. destruct v as [y|]; [|reflexivity]. destruct H as [H|H]; [discriminate|]. rewrite (CV y eq_refl). cbn [bind]. rewrite H. now destruct x.
  - intros cov HC.
    assert (ER2 : r = match f, x with
     | Mc (TopLabel m), Mat rows => Ok (error_table top_label n gs m (scores_of (kind_of f) l) rows)
     | Mc (TopLabel _), Vec _ => Err TypeError
     | Mc _, Vec xs => Ok (error_table multicalibrator n gs 1 (scores_of (kind_of f) l) xs)
     | Mvp, Vec xs => Ok (error_table (batch_mvp cov) n gs 1 (scores_of (kind_of f) l) xs)
     | _, _ => Err TypeError
     end).
    { rewrite ER. destruct f as [k|].
      - destruct v as [y|]; [|reflexivity]. now rewrite (CV y eq_refl).
      - destruct (HC eq_refl) as [HV HO]. destruct v as [y|]; [|congruence]. rewrite (CV y eq_refl), HO. reflexivity. }
    clear ER HC. assert (RN : g_rows gs <> []) by (intros Z; rewrite Z in GL; cbn in GL; lia).
    assert (NEM : forall j mask, marks n j j (g_rows gs) (centre n j) x mask -> True) by auto. clear NEM.
    assert (SCALAR : forall (m : method Q) xs, x = Vec xs -> (m = multicalibrator /\ f <> Mvp \/ m = batch_mvp cov /\ f = Mvp) -> width (kind_of f) = 1%nat -> forall g c ss masks, (g < g_width gs)%nat -> (c < 1)%nat -> Forall2 (score_is (kind_of f) c) l ss ->
      (forall j, (j < n)%nat -> marks n g c (g_rows gs) (centre n j) x (masks j)) ->
      let size := n_where (map (fun row => nth g row false) (g_rows gs)) in let entry := calibration_error m n (g_rows gs) (scores_of (kind_of f) l) xs g c in
      (size == 0 -> entry = None) /\ (~ size == 0 -> exists e, entry = Some e /\ 0 <= e /\ e * size == total_of (map (fun j => part_error f cov ss (dimension c x) (masks j)) (seq 0 n)))).
    { intros m xs Ex Hm W g c ss masks Hg Hc Hs Hm'. rewrite Ex in *. cbn [points dimension] in *. assert (SC : Forall2 Qeq (column_of c (scores_of (kind_of f) l)) ss) by (apply column_scores; [lia|exact Hs]).
      apply (total_errors m n g c (g_rows gs) (scores_of (kind_of f) l) xs masks (part_error f cov ss xs)); [exact RN| |intros; apply part_error_nonneg].
      intros j Hj. specialize (Hm' j Hj). assert (MK : zip_with (b1 n {| k_tau := 0; k_g := g; k_v := nth j (get_buckets n) 0; k_c := c |}) (g_rows gs) xs = masks j). { apply (marks_scalar n g c _ _ (centre n j)); [exact N|lia|now apply bucket_centre|exact Hm']. }
      assert (LM : length (masks j) = length xs) by apply Hm'. assert (NM : masks j <> []) by (intros Z; rewrite Z in LM; cbn in LM; lia).
      assert (LC : length (column_of c (scores_of (kind_of f) l)) = length xs) by (unfold column_of; rewrite map_length; lia).
      destruct Hm as [[-> NF]|[-> ->]]; cbn [m_error m_val m_b multicalibrator batch_mvp]; rewrite map_id, MK, GL, <- XP, <- LM.
      - rewrite (mc_error_mask (masks j) (column_of c (scores_of (kind_of f) l)) xs NM ltac:(lia) ltac:(lia)). transitivity (part_error f cov (column_of c (scores_of (kind_of f) l)) xs (masks j)); [|now apply part_error_same]. unfold part_error, mask_error. destruct f; [reflexivity|congruence].
      - rewrite (mvp_error_part cov (masks j) (column_of c (scores_of (kind_of Mvp) l)) xs NM ltac:(lia) ltac:(lia)). now apply part_error_same. }
    destruct f as [[| |m]|], x as [xs|xs] eqn:Ex; try (destruct XF as [XF _]; discriminate XF); eexists; (split; [exact ER2|]); (split; [apply table_shape|]); (split; [apply table_shape|]); intros g c ss masks Hg Hc Hs Hm; cbn [kind_of width] in Hc; rewrite table_entry by assumption.
    + apply (SCALAR multicalibrator xs eq_refl); try assumption; [left; split; [reflexivity|discriminate]|reflexivity].
    + apply (SCALAR multicalibrator xs eq_refl); try assumption; [left; split; [reflexivity|discriminate]|reflexivity].
    + cbn [points dimension] in *. assert (SC : Forall2 Qeq (column_of c (scores_of (TopLabel m) l)) ss) by (apply column_scores; [exact Hc|exact Hs]).
      apply (total_errors top_label n g c (g_rows gs) (scores_of (TopLabel m) l) xs masks (part_error (Mc (TopLabel m)) cov ss (map (fun row => nth c row 0) xs))); [exact RN| |intros; apply part_error_nonneg].
      intros j Hj. specialize (Hm j Hj). assert (MK : zip_with (b_top n {| k_tau := 0; k_g := g; k_v := nth j (get_buckets n) 0; k_c := c |}) (g_rows gs) xs = masks j). { apply (marks_top n g c _ _ (centre n j)); [exact N|lia|exact FR|now apply bucket_centre|exact Hm]. }
      assert (LM : length (masks j) = length xs) by apply Hm. assert (NM : masks j <> []) by (intros Z; rewrite Z in LM; cbn in LM; lia).
      assert (LC : length (column_of c (scores_of (TopLabel m) l)) = length xs) by (unfold column_of; rewrite map_length; change (length (scores_of (TopLabel m) l) = length l) in LS; lia).
      cbn [m_error m_val m_b top_label]. rewrite MK, GL, <- XP, <- LM. assert (LX : length (map (fun row : list Q => nth c row 0) xs) = length xs) by apply map_length. rewrite (mc_error_mask (masks j) (column_of c (scores_of (TopLabel m) l)) (map (fun row : list Q => nth c row 0) xs) NM ltac:(lia) ltac:(lia)). now apply (part_error_same (Mc (TopLabel m)) cov).
    + apply (SCALAR (batch_mvp cov) xs eq_refl); try assumption; [right; auto|reflexivity].
Qed.
(** initial values *)
Theorem initial f size : (forall m, f = Mc (TopLabel m) -> (0 < m)%nat) ->
  let x := init_values rnd f None size in points x = size /\ axes x = needed (kind_of f) /\ all_entries in_unit x /\
  match f, x with
  | Mc Binary, Vec xs => forall i, (i < size)%nat -> nth i xs 0 == (1 # 2) + r_z1 rnd size i / 100
  | Mc (TopLabel m), Mat rows => forall i, (i < size)%nat -> length (nth i rows []) = m /\ total_of (nth i rows []) == 1 /\
      exists s, 0 < s /\ forall j, (j < m)%nat -> folded (Qabs (1 / inject_Z (Z.of_nat m) + r_z2 rnd size m i j / 100)) (s * nth j (nth i rows []) 0)
  | Mc Plain, Vec xs | Mvp, Vec xs => forall i, (i < size)%nat -> nth i xs 1 == 0
  | _, _ => False
  end.
Proof.
  intros M x. destruct (init_fine rnd T f size M) as [A B]. fold x in A, B. split; [unfold x; destruct f as [[| |m]|]; cbn; now rewrite ?repeat_length, ?map_length, ?seq_length|]. split; [exact A|]. split; [exact B|].
  unfold x. destruct f as [[| |m]|]; cbn [init_values].
  - intros i Hi. rewrite (nth_indep _ 1 0) by (now rewrite repeat_length). now rewrite nth_repeat.
  - intros i Hi. rewrite (nth_indep _ 0 ((1 # 2) + (1 # 100) * r_z1 rnd size 0)) by (now rewrite map_length, seq_length). rewrite (map_nth (fun i => (1 # 2) + (1 # 100) * r_z1 rnd size i)), seq_nth by exact Hi. cbn [Nat.add]. field.
  - intros i Hi. rewrite (nth_indep _ [] (init_row rnd m size 0)) by (now rewrite map_length, seq_length). rewrite (map_nth (init_row rnd m size)), seq_nth by exact Hi. cbn [Nat.add].
    destruct (init_row_unit rnd T m size i (M m eq_refl)) as (_ & Q1 & L1). split; [exact L1|]. split; [exact Q1|].
    destruct (folded_list_unit rnd T m size i (M m eq_refl)) as [F P]. exists (qsum (folded_list rnd m size i)). split; [exact P|]. intros j Hj.
    unfold init_row. fold (folded_list rnd m size i). set (q := qsum (folded_list rnd m size i)) in *.
    assert (LF : length (folded_list rnd m size i) = m) by (unfold folded_list; now rewrite !map_length, seq_length).
    rewrite (nth_indep (map (fun x0 => x0 / q) (folded_list rnd m size i)) 0 (0 / q)) by (now rewrite map_length, LF). rewrite (map_nth (fun y => y / q)).
    assert (E : nth j (folded_list rnd m size i) 0 = (fun y => y - 2 * Qmax 0 (y - 1)) (Qabs (1 / inject_Z (Z.of_nat m) + (1 # 100) * r_z2 rnd size m i j))).
    { unfold folded_list. rewrite map_map. rewrite (nth_indep _ 0 ((fun y => y - 2 * Qmax 0 (y - 1)) (Qabs (1 / inject_Z (Z.of_nat m) + (1 # 100) * r_z2 rnd size m i 0)))) by (now rewrite map_length, seq_length).
      rewrite (map_nth (fun j => (fun y => y - 2 * Qmax 0 (y - 1)) (Qabs (1 / inject_Z (Z.of_nat m) + (1 # 100) * r_z2 rnd size m i j)))), seq_nth by exact Hj. reflexivity. }
    rewrite E. cbv beta. set (y := Qabs (1 / inject_Z (Z.of_nat m) + (1 # 100) * r_z2 rnd size m i j)).
    assert (EY : Qabs (1 / inject_Z (Z.of_nat m) + r_z2 rnd size m i j / 100) == y). { unfold y. apply Qabs_wd. apply Qplus_comp; [reflexivity|]. field. }
    assert (ES : q * ((y - 2 * Qmax 0 (y - 1)) / q) == y - 2 * Qmax 0 (y - 1)) by (field; lra). destruct (fold_at y) as [F1 F2]. split; intros H; rewrite EY in *; rewrite ES; auto.
  - intros i Hi. rewrite (nth_indep _ 1 0) by (now rewrite repeat_length). now rewrite nth_repeat.
Qed.
(** the values of one point do not depend on those of the others *)
Theorem pointwise f o g v out : reached rnd f o -> (forall m, f = Mc (TopLabel m) -> (0 < m)%nat) -> iapply rnd f o (Some g) (Some v) = Ok (Some out) -> length (g_rows g) = points v -> (0 < points v)%nat -> full_rows v -> (f = Mvp -> axes v = 1%nat) ->
  let only i := {| g_rows := [nth i (g_rows g) []]; g_width := g_width g; g_two_axes := g_two_axes g; g_bool := g_bool g |} in
  match v, out with
  | Vec xs, Vec ys => forall i, (i < length xs)%nat -> iapply rnd f o (Some (only i)) (Some (Vec [nth i xs 0])) = Ok (Some (Vec [nth i ys 0]))
  | Mat xs, Mat ys => forall i, (i < length xs)%nat -> iapply rnd f o (Some (only i)) (Some (Mat [nth i xs []])) = Ok (Some (Mat [nth i ys []]))
  | _, _ => False
  end.
Proof.
  intros RO M H L LP FR SC only. destruct (i_patches o) as [|p0 ps0] eqn:EP.
  { unfold iapply in *. rewrite EP in *. injection H as <-. destruct v; intros i Hi; reflexivity. }
  assert (P : i_patches o <> []) by (rewrite EP; discriminate). destruct (reached_fields rnd f o RO P) as (n & pt & e & En & Np & Ept & Ee).
  unfold iapply in *. rewrite En, Ept, Ee in *. rewrite EP in *. rewrite <- EP in *. cbn [init_values init_groups] in *.
  destruct (check_vals f v None) as [u|err] eqn:CV; [|discriminate]. cbn [bind] in H. destruct (check_groups g None) as [u'|err] eqn:CG; [|discriminate]. cbn [bind] in H.
  assert (CG' : forall i, check_groups (only i) None = Ok tt). { intros i. destruct (groups_cases g None) as [(_ & A & _)|(X & _)]; [|congruence]. destruct (groups_cases (only i) None) as [(X & _)|(_ & X)]; [exact X|]. exfalso. apply X. split; [exact A|discriminate]. }
  assert (VF : values_fine f v). { destruct (vals_cases f v None SC) as [(_ & A & _)|(X & _)]; [exact A|congruence]. }
  assert (ZS : forall {V} (m : method V) (xs : list V) d i, length (g_rows g) = length xs -> (i < length xs)%nat ->
     replay m (object_config n pt e) (map (clamp_key (g_width g)) (i_patches o)) [nth i (g_rows g) []] [nth i xs d] =
     [nth i (replay m (object_config n pt e) (map (clamp_key (g_width g)) (i_patches o)) (g_rows g) xs) d]).
  { intros V m xs d i Lx Hi. assert (X := nth_error_zip_sent m (object_config n pt e) (map (clamp_key (g_width g)) (i_patches o)) (g_rows g) xs i (nth i xs d) Lx (nth_error_nth' xs d Hi)).
    rewrite (nth_error_nth _ _ d X). rewrite replay_points by reflexivity. reflexivity. }
  assert (CV' : forall y, values_fine f y -> check_vals f y None = Ok tt). { intros y Y. destruct (vals_cases f y None) as [(E & _)|(_ & X)]; [intros ->; apply Y|exact E|]. exfalso. apply X. split; [exact Y|discriminate]. }
  destruct f as [[| |m]|], v as [xs|xs]; cbn [points] in *; try (destruct VF as [VF _]; discriminate VF); unfold meet_rows in H; rewrite L, Nat.eqb_refl in H; cbn [bind] in H; injection H as <-; intros i Hi;
    (rewrite CV'; [|destruct VF as [_ VF]; split; [reflexivity|]; cbn [all_entries] in *; constructor; [rewrite Forall_forall in VF; apply VF; now apply nth_In|constructor]]); cbn [bind]; rewrite CG'; cbn [bind only g_rows g_width]; unfold meet_rows; cbn [length Nat.eqb bind]; do 2 f_equal; f_equal; now apply ZS.
Qed.
End Error.
