From Coq Require Import List Arith ZArith QArith Qabs Qminmax Qround Bool Lia Lqa Sorted Permutation.
From Verif Require Import Lib LoaderProofs QuantModel QuantSpec QuantProofs ConfRegModel ConfRegProofs ConfClassModel ConfClassProofs ConfClassProofs2 ConfClassSpec ConfClassProofs3 MultiModel MultiSpec MultiSpec2 MultiSpec3 MultiProofs MultiProofs2 MultiProofs3 MultiProofs4 MultiProofs5 MultiProofs7 MultiProofs8 OneShotModel OneShotSpec OneShotProofs OneShotProofs2 IterModel IterSpec IterProofs IterProofs2 IterProofs3 IterProofs4 IterProofs5 IterProofs6 IterProofs7.
Import ListNotations.
Open Scope Q_scope.

(** ---- which set is chosen ---- *)
Lemma choose_frequent {V} (m : method V) cfg groups scores values k : choose m cfg groups scores values = Some k ->
  frequent m cfg groups values k = true \/ forall k', In k' (keys cfg) -> frequent m cfg groups values k' = true -> key_error m cfg groups scores values k' <= 0.
Proof.
  unfold choose. destruct (existsb (frequent m cfg groups values) (keys cfg)) eqn:Ex; [|discriminate]. intros H. destruct (frequent m cfg groups values k) eqn:Fk; [now left|]. right. intros k' Hk' F.
  set (h := fun k => key_error m cfg groups scores values k * of_bool (frequent m cfg groups values k)) in *.
  assert (NE : map h (keys cfg) <> []) by (intros E; apply map_eq_nil in E; rewrite E in Ex; discriminate).
  destruct (argmax_spec _ NE) as (_ & B & _). destruct (In_nth _ _ k Hk') as (j & Hj & Ej). specialize (B j ltac:(rewrite map_length; exact Hj)).
  assert (Nf : forall i x, nth_error (keys cfg) i = Some x -> nth i (map h (keys cfg)) 0 = h x). { intros i x Hi. apply nth_error_nth. now apply map_nth_error. }
  rewrite (Nf _ _ H) in B. rewrite (Nf j k') in B by (rewrite <- Ej; now apply nth_error_nth'). unfold h in B. rewrite F, Fk in B. cbn [of_bool] in B. lra.
Qed.
Lemma mvp_nonneg c cfg groups scores vs k : 0 <= key_error (batch_mvp c) cfg groups scores vs k.
Proof.
  unfold key_error. cbn [m_error batch_mvp]. unfold mvp_error, mvp_prob_error. set (b := members _ _ _ _ _). set (q := mvp_prob _ _ _). apply Qmult_le_0_compat.
  - unfold prob_of, qmean. apply Qmult_le_0_compat; [|apply Qinv_le_0_compat; unfold qlen; unfold Qle; cbn; lia]. apply qsum_nonneg. apply Forall_forall. intros x Hx. apply in_map_iff in Hx. destruct Hx as ([|] & <- & _); cbn; lra.
  - destruct (Qlt_le_dec (c - q) 0) as [C|C]; [setoid_replace ((c - q) * (c - q)) with ((- (c - q)) * (- (c - q))) by ring|]; apply Qmult_le_0_compat; lra.
Qed.
(** ---- patches ---- *)
Lemma covered_same_x bs : forall ss xs ys, Forall2 Qeq xs ys -> n_covered bs ss xs == n_covered bs ss ys.
Proof.
  induction bs as [|b bs IH]; intros ss xs ys F; [reflexivity|]. destruct ss as [|s ss]; [reflexivity|]. destruct F as [|x y xs ys E F]; [reflexivity|]. cbn [n_covered]. rewrite (IH ss xs ys F). apply Qplus_comp; [|reflexivity].
  destruct b; [|reflexivity]. destruct (Qlt_le_dec x s), (Qlt_le_dec y s); try reflexivity; lra.
Qed.
Lemma shifted_same d d' xs : d == d' -> Forall2 Qeq (map (fun x => x + d) xs) (map (fun x => x + d') xs).
Proof. intros E. induction xs as [|x xs IH]; constructor; [now rewrite E|exact IH]. Qed.
Lemma prob_pos bs : 0 < n_where bs -> bs <> [] /\ 0 < prob_of bs.
Proof.
  intros H. assert (NE : bs <> []) by (intros ->; vm_compute in H; discriminate). split; [exact NE|]. assert (P := nQ_pos bs NE). rewrite <- (prob_of_spec bs NE) in H.
  destruct (Qlt_le_dec 0 (prob_of bs)) as [D|D]; [exact D|]. assert (prob_of bs * inject_Z (Z.of_nat (length bs)) <= 0 * inject_Z (Z.of_nat (length bs))) by (apply Qmult_le_compat_r; lra). lra.
Qed.
Lemma prob_error_miss c ss xs bs : 0 < n_where bs -> length bs = length ss -> length bs = length xs ->
  mvp_prob_error c ss xs bs * (n_where bs * n_where bs) == (c * n_where bs - n_covered bs ss xs) * (c * n_where bs - n_covered bs ss xs).
Proof.
  intros P Ls Lx. destruct (prob_pos bs P) as [NE E]. assert (S0 := prob_of_spec bs NE). assert (N := nQ_pos bs NE).
  assert (A : mvp_prob ss xs bs * n_where bs == n_covered bs ss xs).
  { unfold mvp_prob. rewrite (proj2 (Qltb_true _ _) E). rewrite <- (covered_sum bs ss xs), <- S0. unfold qmean, qlen. rewrite zip_length by (rewrite combine_length; lia). rewrite combine_length, <- Ls, <- Lx, Nat.min_id. field. split; lra. }
  rewrite <- A. unfold mvp_prob_error. ring.
Qed.
Lemma shift_of n j d : (2 <= n)%nat -> (Z.abs j < Z.of_nat n)%Z -> d * inject_Z (Z.of_nat (n - 1)) == inject_Z j -> exists d', In d' (mvp_shifts n) /\ d == d'.
Proof.
  intros N B E. set (i := Z.to_nat (j + Z.of_nat (n - 1))). assert (Hi : (i < 2 * n - 1)%nat) by (unfold i; lia). destruct (shift_grid n i N Hi) as [L G].
  exists (nth i (mvp_shifts n) 0). split; [apply nth_In; lia|]. assert (P : 0 < inject_Z (Z.of_nat (n - 1))) by (unfold Qlt; cbn; lia).
  assert (EJ : (Z.of_nat i - Z.of_nat (n - 1) = j)%Z) by (unfold i; lia). rewrite EJ in G.
  apply (Qmult_inj_r _ _ (inject_Z (Z.of_nat (n - 1)))); [lra|]. now rewrite E, G.
Qed.
Lemma patch_mvp (a : args) ss ss' xs mask p : a_ptype a = Some Additive -> Forall2 Qeq ss ss' -> length mask = length ss -> length mask = length xs ->
  mvp_patch (a_n a) (a_coverage a) Additive ss xs mask = Ok (Some p) -> patch_is Mvp a ss' xs mask p.
Proof.
  intros AD SS Ls Lx H N P miss. destruct (mvp_patch_best (a_n a) (a_coverage a) ss xs mask N) as (d & E & I & M & _). rewrite E in H. injection H as ->.
  apply (In_nth _ _ 0) in I. destruct I as (i & Hi & Ei). destruct (shift_grid (a_n a) 0 N) as [L _]; [lia|]. rewrite L in Hi. destruct (shift_grid (a_n a) i N Hi) as [_ G]. rewrite Ei in G.
  exists (Z.of_nat i - Z.of_nat (a_n a - 1))%Z. split; [lia|]. split; [exact G|]. intros j' d Bj Ed. destruct (shift_of _ _ _ N Bj Ed) as (d' & I' & Ed').
  assert (X : forall q, miss q * miss q == mvp_prob_error (a_coverage a) ss (map (fun x => x + q) xs) mask * (n_where mask * n_where mask)).
  { intros q. rewrite prob_error_miss by (rewrite ?map_length; assumption). unfold miss. rewrite (n_covered_same mask _ _ _ SS). reflexivity. }
  assert (Y : miss d * miss d == miss d' * miss d'). { unfold miss. rewrite (covered_same_x mask ss' _ _ (shifted_same d d' xs Ed')). reflexivity. }
  rewrite Y, !X. apply Qmult_le_compat_r; [now apply M|]. apply Qmult_le_0_compat; lra.
Qed.
Lemma patch_mc f (a : args) pt ss ss' xs mask p : f <> Mvp -> a_ptype a = Some pt -> Forall2 Qeq ss ss' -> length mask = length ss -> length mask = length xs -> mask <> [] ->
  mc_patch pt ss xs mask = Ok (Some p) -> patch_is f a ss' xs mask p.
Proof.
  intros NM Ep SS Ls Lx NE H. assert (S0 := prob_of_spec mask NE). assert (NP := nQ_pos mask NE). assert (N0 := n_where_nonneg mask). assert (ES := sum_where_same mask _ _ SS).
  assert (G : match pt with Additive => p * n_where mask == sum_where mask ss' - sum_where mask xs /\ (n_where mask == 0 -> p == 0)
                       | Multiplicative => ~ sum_where mask xs == 0 /\ p * sum_where mask xs == sum_where mask ss' end).
  { destruct pt; cbn [mc_patch] in H.
    - injection H as <-. unfold mc_bias. destruct (Qlt_bool 0 (prob_of mask)) eqn:E.
      + apply Qltb_true in E. assert (A := mean_on_spec mask ss Ls E). assert (B := mean_on_spec mask xs Lx E). split; [rewrite <- ES, <- A, <- B; ring|].
        intros Z. rewrite <- S0 in Z. exfalso. apply Qmult_integral in Z. destruct Z; lra.
      + apply Qltb_false in E. assert (Z : prob_of mask == 0). { destruct (Qle_lt_or_eq _ _ N0) as [C|C]; [destruct (prob_pos mask C) as [_ D]; lra|]. apply prob_zero; [assumption|lra]. }
        split; [|reflexivity]. assert (W : n_where mask == 0) by (now apply prob_zero in Z).
        assert (SZ : forall l, sum_where mask l == 0).
        { clear - W. revert W. unfold n_where. induction mask as [|b m IH]; intros W l; [reflexivity|]. destruct l as [|x l]; [reflexivity|]. destruct b; cbn [filter length sum_where] in *; [exfalso; unfold Qeq in W; cbn in W; lia|]. rewrite (IH W l). ring. }
        rewrite !SZ. ring.
    - destruct (Qeq_bool (prob_of mask) 0 || Qeq_bool (mean_on xs mask) 0) eqn:E; [discriminate|]. injection H as <-. apply orb_false_iff in E. destruct E as [E1 E2].
      assert (P : 0 < prob_of mask). { destruct (Qlt_le_dec 0 (prob_of mask)) as [D|D]; [exact D|]. exfalso. assert (Z : prob_of mask == 0). { destruct (Qle_lt_or_eq _ _ N0) as [C|C]; [destruct (prob_pos mask C) as [_ X]; lra|]. apply prob_zero; [assumption|lra]. } apply Qeq_bool_neq in E1. contradiction. }
      apply Qeq_bool_neq in E2. assert (A := mean_on_spec mask ss Ls P). assert (B := mean_on_spec mask xs Lx P). assert (W : ~ n_where mask == 0). { rewrite <- S0. intros Z. apply Qmult_integral in Z. destruct Z; lra. }
      split; [rewrite <- B; intros Z; apply Qmult_integral in Z; destruct Z; contradiction|]. rewrite <- ES, <- A, <- B. field. exact E2. }
  unfold patch_is. rewrite Ep. destruct f as [k|]; [|congruence]. now destruct pt.
Qed.
(** ---- points of the given numbers ---- *)
Lemma gather_points {A} (d : A) idx l : (forall i, In i idx -> (i < length l)%nat) -> gather d idx l = points_at d idx l.
Proof. intros H. unfold gather, points_at. apply map_ext_in. intros i Hi. specialize (H i Hi). unfold clamped. rewrite Nat.min_l by lia. reflexivity. Qed.
Lemma picks_scalar n k rows xs mask : (0 < n)%nat -> length rows = length xs -> picks n k rows (Vec xs) mask -> zip_with (b1 n k) rows xs = mask.
Proof.
  intros N L [Lm H]. apply zip_mask; [exact L|exact Lm|]. intros i row x Er Ex. rewrite (H i row Er), (MultiProofs.membership n _ row x N). split; [intros (a & Ea & B); congruence|intros B; now exists x].
Qed.
Lemma picks_top n k rows xs mask : (0 < n)%nat -> length rows = length xs -> Forall (fun r => (0 < length r)%nat) xs -> picks n k rows (Mat xs) mask -> zip_with (b_top n k) rows xs = mask.
Proof.
  intros N L FR [Lm H]. apply zip_mask; [exact L|exact Lm|]. intros i row x Er Ex. rewrite Forall_forall in FR. rewrite (H i row Er), (membership_top n _ row x N (FR x (nth_error_In _ _ Ex))).
  split; [intros (a & Ea & B); assert (a = x) by congruence; now subst|intros B; now exists x].
Qed.
Lemma key_same n k v rows x mask : v == k_v k -> picks n k rows x mask -> picks n {| k_tau := k_tau k; k_g := k_g k; k_v := v; k_c := k_c k |} rows x mask.
Proof.
  intros E [L H]. assert (SE : forall row a, selected n {| k_tau := k_tau k; k_g := k_g k; k_v := v; k_c := k_c k |} row a <-> selected n k row a).
  { intros row a. unfold selected. cbn [k_g k_tau k_v]. destruct (k_tau k) as [|[|t]]; rewrite E; reflexivity. }
  split; [exact L|]. intros i row Hr. rewrite (H i row Hr). cbn [k_c]. destruct x; (split; intros (a & Ea & B); exists a; (split; [exact Ea|])); try (now apply SE); (split; [now apply SE|apply B]).
Qed.
Lemma examined_key f a k ts dims : known_types a -> check_bucket_types (a_types a) = Ok ts -> dims = width (kind_of f) -> forall pt, examined f a k ->
  exists v, v == k_v k /\ In {| k_tau := k_tau k; k_g := k_g k; k_v := v; k_c := k_c k |} (keys (config_of a ts (columns a) dims pt)).
Proof.
  intros K B D pt (A1 & A2 & (j & Hj & Ej) & A4). exists (nth j (get_buckets (a_n a)) 0). split; [rewrite Ej; now apply bucket_centre|]. apply in_keys. cbn [k_tau k_g k_v k_c MultiModel.taus n_groups n_buckets n_dims config_of].
  destruct (bucket_types (a_types a) K) as (ts' & B' & TI & _). rewrite B in B'. injection B' as <-. split; [now apply TI|]. split; [exact A2|]. split; [|now rewrite D]. apply nth_In. unfold get_buckets. now rewrite linspace_length.
Qed.
Lemma key_examined f a k ts dims : known_types a -> check_bucket_types (a_types a) = Ok ts -> dims = width (kind_of f) -> forall pt, In k (keys (config_of a ts (columns a) dims pt)) -> examined f a k.
Proof.
  intros K B D pt I. apply in_keys in I. cbn [k_tau k_g k_v k_c MultiModel.taus n_groups n_buckets n_dims config_of] in I. destruct I as (A1 & A2 & A3 & A4). destruct (bucket_types (a_types a) K) as (ts' & B' & TI & _). rewrite B in B'. injection B' as <-.
  split; [now apply TI|]. split; [exact A2|]. split; [|now rewrite <- D]. apply (In_nth _ _ 0) in A3. destruct A3 as (j & Hj & <-). unfold get_buckets in Hj. rewrite linspace_length in Hj. exists j. split; [exact Hj|]. now apply bucket_centre.
Qed.
Lemma least_min f a taus g dims pt : dims = width (kind_of f) -> min_prob (config_of a taus g dims pt) = least f a.
Proof. intros ->. unfold config_of, min_prob, init_min_prob, least. now destruct (a_min_prob a). Qed.
Lemma frequent_share {V} (m : method V) cfg rows (vs : list V) k mask : mask <> [] -> members m cfg k rows vs = mask ->
  (frequent m cfg rows vs k = true <-> min_prob cfg * inject_Z (Z.of_nat (length mask)) <= n_where mask).
Proof.
  intros NE E. unfold frequent. rewrite E, Qleb_true, <- (prob_of_spec mask NE). assert (P := nQ_pos mask NE). split; intros H; [apply Qmult_le_compat_r; lra|]. now apply Qmult_le_r in H.
Qed.

Lemma fit_run rnd {V} (m : method V) cfg (d : V) a groups scores values n st ps : length scores = n -> fit rnd m cfg d a groups scores values = (Ok st, ps) -> exists s vg vs vv,
  let h := firstn (calib_size (a_split a) n) (r_perm rnd n) in
  run m cfg (Z.to_nat (a_rounds a)) (gather [] h groups) vg (gather [] h scores) vs (gather d h values) vv = Break s /\ l_patches s = ps.
Proof. intros <- H. apply fit_ok in H. destruct H as (s & R & _ & ->). do 4 eexists. split; [exact R|reflexivity]. Qed.

Section Chosen.
Variable rnd : random.
Hypothesis T : tame rnd.
Theorem chosen f o a l st y i k p : in_scope f a -> fine f a -> known_types a -> right_width f a -> aligned f a -> (0 < a_n a)%nat -> t_array (a_targets a) = Vec l ->
  Permutation (r_perm rnd (length l)) (seq 0 (length l)) -> fst (icalibrate rnd f o a) = Ok (st, y) ->
  let o' := snd (icalibrate rnd f o a) in nth_error (i_patches o') i = Some (k, p) ->
  let idx := fitted_on rnd a (length l) in
  let g := groups_at idx (groups_for (a_groups a) (length l)) in
  let share mask := n_where mask / inject_Z (Z.of_nat (length idx)) in
  exists x, iapply rnd f (with_patches (firstn i (i_patches o')) o') (Some g) (Some (array_at idx (init_values rnd f (a_values a) (length l)))) = Ok (Some x) /\
    examined f a k /\
    forall ss mask, Forall2 (score_is (kind_of f) (k_c k)) (points_at 0 idx l) ss -> picks (a_n a) k (g_rows g) x mask ->
      patch_is f a ss (dimension (k_c k) x) mask p /\
      (forall k' ss' mask', examined f a k' -> Forall2 (score_is (kind_of f) (k_c k')) (points_at 0 idx l) ss' -> picks (a_n a) k' (g_rows g) x mask' -> least f a <= share mask' ->
         part_error f (a_coverage a) ss' (dimension (k_c k') x) mask' <= part_error f (a_coverage a) ss (dimension (k_c k) x) mask) /\
      (least f a <= share mask \/
       forall k' ss' mask', examined f a k' -> Forall2 (score_is (kind_of f) (k_c k')) (points_at 0 idx l) ss' -> picks (a_n a) k' (g_rows g) x mask' -> least f a <= share mask' ->
         part_error f (a_coverage a) ss' (dimension (k_c k') x) mask' == 0).
Proof.
  intros S F K R AL NB E Pm H o' HI idx g share. subst o'. destruct (calibrate_fine rnd T f o a S F K R) as (l' & pt & taus & q & ps & E' & Ep & B & Ef & Er). rewrite E in E'. injection E' as <-.
  rewrite Er in *. cbn [fst snd] in *. destruct q as [st'|e]; [|discriminate]. clear H. change (i_patches (finished f o a ps)) with ps in HI |- *.
  assert (Z0 := start_shape rnd T f a l S F E). assert (GL : length (g_rows (start_groups a (length l))) = length l).
  { unfold start_groups. destruct AL as [A _]. rewrite E in A. destruct (a_groups a) as [w|]; [now apply A|]. cbn. now rewrite repeat_length. }
  set (vs := init_values rnd f (a_values a) (length l)) in *.
  assert (EV : start_values rnd f a (length l) = vs) by (unfold start_values, vs; now rewrite GL). rewrite EV in *.
  assert (PV : points vs = length l /\ of_width (kind_of f) vs).
  { unfold vs. destruct AL as [_ A]. rewrite E in A. destruct (a_values a) as [v|] eqn:Ev; [exact (A v eq_refl)|]. cbn [init_values].
    destruct f as [[| |m]|]; cbn; try (split; [now rewrite ?repeat_length, ?map_length, ?seq_length|exact I]). split; [now rewrite map_length, seq_length|].
    apply Forall_forall. intros x Hx. apply in_map_iff in Hx. destruct Hx as (z & <- & _). apply init_row_unit; [exact T|]. destruct F as (_ & _ & (l' & _ & X) & _). apply X. }
  destruct PV as [PV WV]. assert (N : (0 < length l)%nat). { destruct S as (S1 & _). now rewrite E in S1. }
  destruct (fit_object_sets rnd _ _ _ _ _ _ _ _ _ Ef) as (_ & _ & KS). rewrite start_groups_width in KS.
  assert (CK : map (clamp_key (columns a)) (firstn i ps) = firstn i ps). { apply clamp_keys. intros k0 p0 I. apply (KS k0 p0). rewrite <- (firstn_skipn i ps). apply in_or_app. now left. }
  (* the numbers of the fitted points *)
  assert (SP : (1 <= calib_size (a_split a) (length l) <= length l)%nat). { destruct F as (_ & (_ & _ & SP & _) & _). destruct (split_sizes (a_split a) (length l) SP N) as [A _]. exact A. }
  assert (EI : idx = firstn (calib_size (a_split a) (length l)) (r_perm rnd (length l))) by reflexivity.
  assert (LP : length (r_perm rnd (length l)) = length l) by (rewrite (Permutation_length Pm); apply seq_length).
  assert (LI : (0 < length idx)%nat) by (rewrite EI, firstn_length; lia).
  assert (BI : forall j, In j idx -> (j < length l)%nat). { intros j Hj. assert (In j (r_perm rnd (length l))) as Hj'. { rewrite <- (firstn_skipn (calib_size (a_split a) (length l)) (r_perm rnd (length l))). apply in_or_app. left. now rewrite <- EI. } apply (Permutation_in j Pm) in Hj'. apply in_seq in Hj'. lia. }
  assert (GG : gather [] idx (g_rows (start_groups a (length l))) = g_rows g) by (exact (gather_points [] idx (g_rows (start_groups a (length l))) (fun j Hj => eq_ind_r (fun z => (j < z)%nat) (BI j Hj) GL))).
  assert (LG : length (g_rows g) = length idx) by (rewrite <- GG; unfold gather; apply map_length).
  assert (GW : g_width g = columns a) by (unfold g, columns; cbn; now destruct (a_groups a)).
  assert (GP : check_groups g None = Ok tt).
  { destruct (groups_cases g None) as [(E6 & _)|(_ & X)]; [exact E6|]. exfalso. apply X. split; [|discriminate]. destruct F as (_ & _ & _ & G & _). unfold g, groups_for. destruct (a_groups a) as [w|]; [exact (G w (or_introl eq_refl))|split; reflexivity]. }
  assert (SG : gather [] idx (scores_of (kind_of f) l) = map (fun j => nth j (scores_of (kind_of f) l) []) idx) by (apply gather_points; intros j Hj; rewrite scores_of_length; now apply BI).
  assert (SCc : forall c ss, (c < width (kind_of f))%nat -> Forall2 (score_is (kind_of f) c) (points_at 0 idx l) ss -> Forall2 Qeq (column_of c (gather [] idx (scores_of (kind_of f) l))) ss).
  { intros c ss W FS. rewrite SG. assert (X : map (fun j => nth j (scores_of (kind_of f) l) []) idx = scores_of (kind_of f) (points_at 0 idx l)).
    { unfold points_at. clear - BI. induction idx as [|j idx IH]; [destruct (kind_of f); reflexivity|].
      assert (IH' := IH (fun j' h => BI j' (or_intror h))). assert (Hj := BI j (or_introl eq_refl)). cbn [map]. destruct (kind_of f) as [| |m]; cbn [scores_of map] in *; (f_equal; [|exact IH']).
      - rewrite (nth_indep _ [] [0]) by (now rewrite map_length). now rewrite (map_nth (fun y => [y])).
      - rewrite (nth_indep _ [] [0]) by (now rewrite map_length). now rewrite (map_nth (fun y => [y])).
      - match goal with |- nth j (map ?h l) [] = _ => rewrite (nth_indep _ [] (h 0)) by (now rewrite map_length); now rewrite (map_nth h) end. }
    rewrite X. now apply column_scores. }
  (* the arrays after the earlier patches *)
  assert (VI : values_fine f (array_at idx vs)).
  { destruct Z0 as [Z1 Z2]. destruct vs as [xs|xs]; (split; [exact Z1|]); cbn [array_at all_entries points] in *; rewrite Forall_forall in Z2; apply Forall_forall; intros z Hz; apply in_map_iff in Hz; destruct Hz as (j & <- & Hj); apply Z2; apply nth_In; rewrite PV; now apply BI. }
  assert (IA : forall {V} (m : method V) (wrap : list V -> array) d xs, vs = wrap xs -> array_at idx (wrap xs) = wrap (points_at d idx xs) ->
     (i_patches (with_patches (firstn i ps) (finished f o a ps)) <> [] -> iapply rnd f (with_patches (firstn i ps) (finished f o a ps)) (Some g) (Some (wrap (points_at d idx xs))) = bind (meet_rows (g_rows g) (points_at d idx xs)) (fun gs => Ok (Some (wrap (replay m (object_config (a_n a) pt (a_eta a)) (map (clamp_key (g_width g)) (firstn i ps)) gs (points_at d idx xs)))))) ->
     iapply rnd f (with_patches (firstn i ps) (finished f o a ps)) (Some g) (Some (array_at idx vs)) = Ok (Some (wrap (replay m (object_config (a_n a) pt (a_eta a)) (firstn i ps) (g_rows g) (points_at d idx xs))))).
  { intros V m wrap d xs Ev Ea X. rewrite Ev, Ea. destruct (firstn i ps) as [|p0 ps0] eqn:EPS; [reflexivity|]. rewrite X by discriminate. unfold meet_rows. rewrite LG. unfold points_at at 1. rewrite map_length, Nat.eqb_refl. cbn [bind]. rewrite GW, CK. reflexivity. }
  assert (UN : i_patches (with_patches (firstn i ps) (finished f o a ps)) <> [] -> forall v, check_vals f v None = Ok tt -> iapply rnd f (with_patches (firstn i ps) (finished f o a ps)) (Some g) (Some v) =
     match f, v with
      | Mc (TopLabel _), Mat rows => bind (meet_rows (g_rows g) rows) (fun gs => Ok (Some (Mat (replay top_label (object_config (a_n a) pt (a_eta a)) (map (clamp_key (g_width g)) (firstn i ps)) gs rows))))
      | Mc (TopLabel _), Vec _ => Err TypeError
      | Mc _, Vec xs => bind (meet_rows (g_rows g) xs) (fun gs => Ok (Some (Vec (replay multicalibrator (object_config (a_n a) pt (a_eta a)) (map (clamp_key (g_width g)) (firstn i ps)) gs xs))))
      | Mvp, Vec xs => bind (meet_rows (g_rows g) xs) (fun gs => Ok (Some (Vec (replay (batch_mvp 0) (object_config (a_n a) pt (a_eta a)) (map (clamp_key (g_width g)) (firstn i ps)) gs xs))))
      | _, _ => Err TypeError
      end).
  { intros NP v CV. unfold iapply. cbn [i_patches with_patches i_n i_ptype i_eta finished with_args with_n] in *. rewrite Ep. destruct (firstn i ps) as [|p0 ps0]; [congruence|]. cbn [init_values init_groups]. rewrite CV. cbn [bind]. rewrite GP. cbn [bind]. reflexivity. }
  assert (CVI : check_vals f (array_at idx vs) None = Ok tt). { destruct (vals_cases f (array_at idx vs) None) as [(E4 & _)|(E4 & X)]; [intros ->; apply VI|exact E4|exfalso; apply X; split; [exact VI|discriminate]]. }
  set (cv := fun {V} (d : V) xs => points_at d idx xs).
  assert (GV : forall {V} (d : V) xs, length xs = length l -> gather d idx xs = points_at d idx xs). { intros V d xs L. apply gather_points. intros j Hj. rewrite L. now apply BI. }
  (* the choice, for each method *)
  assert (GEN : forall {V} (m : method V) dims (d : V) (xs : list V) vg vsc vv n s, dims = width (kind_of f) ->
     (forall cg cs vs k, 0 <= key_error m (config_of a taus (columns a) dims pt) cg cs vs k) ->
     run m (config_of a taus (columns a) dims pt) n (g_rows g) vg (gather [] idx (scores_of (kind_of f) l)) vsc (points_at d idx xs) vv = Break s -> l_patches s = ps ->
     let cfg := config_of a taus (columns a) dims pt in let xs' := replay m cfg (firstn i ps) (g_rows g) (points_at d idx xs) in let sc := gather [] idx (scores_of (kind_of f) l) in
     examined f a k /\ patch_for m cfg (g_rows g) sc xs' k = Ok (Some p) /\
     (forall k', In k' (keys cfg) -> frequent m cfg (g_rows g) xs' k' = true -> key_error m cfg (g_rows g) sc xs' k' <= key_error m cfg (g_rows g) sc xs' k) /\
     (frequent m cfg (g_rows g) xs' k = true \/ forall k', In k' (keys cfg) -> frequent m cfg (g_rows g) xs' k' = true -> key_error m cfg (g_rows g) sc xs' k' <= 0)).
  { intros V m dims d xs vg vsc vv n s D NN RN EP cfg xs' sc. destruct (replay_reproduces _ _ _ _ _ _ _ _ _ _ _ RN) as (extra & _ & _ & _ & _ & X). rewrite EP in X.
    destruct (X i k p) as [C1 C2]; [rewrite nth_error_app1; [exact HI|apply nth_error_Some; congruence]|]. fold cfg in C1, C2. change (MultiModel.apply_patches m cfg (firstn i ps) (g_rows g) (points_at d idx xs)) with xs' in C1, C2. fold sc in C1, C2.
    destruct (choose_spec m cfg (g_rows g) sc (NN _ _) xs' k C1) as [I1 I2]. split; [exact (key_examined f a k taus dims K B D pt I1)|]. split; [exact C2|]. split; [|exact (choose_frequent _ _ _ _ _ _ C1)].
    intros k' Hk' Fr. apply I2; [exact Hk'|]. unfold frequent in Fr. now apply Qleb_true in Fr. }
  (* from the choice to the statement *)
  assert (FIN : forall {V} (m : method V) dims (xs' : list V) x, dims = width (kind_of f) -> points x = length idx -> length xs' = length idx ->
     (forall k' mask', picks (a_n a) k' (g_rows g) x mask' -> zip_with (m_b m (a_n a) k') (g_rows g) xs' = mask') ->
     (forall c, map (m_val m c) xs' = dimension c x) ->
     (forall sc mask', mask' <> [] -> forall c, length mask' = length sc -> length mask' = length (dimension c x) -> m_error m sc (dimension c x) mask' * inject_Z (Z.of_nat (length mask')) == part_error f (a_coverage a) sc (dimension c x) mask') ->
     (forall sc sc' mask' c, mask' <> [] -> Forall2 Qeq sc sc' -> length mask' = length sc -> length mask' = length (dimension c x) -> m_patch m (a_n a) pt sc (dimension c x) mask' = Ok (Some p) -> patch_is f a sc' (dimension c x) mask' p) ->
     let cfg := config_of a taus (columns a) dims pt in let sc := gather [] idx (scores_of (kind_of f) l) in
     examined f a k /\ patch_for m cfg (g_rows g) sc xs' k = Ok (Some p) /\
     (forall k', In k' (keys cfg) -> frequent m cfg (g_rows g) xs' k' = true -> key_error m cfg (g_rows g) sc xs' k' <= key_error m cfg (g_rows g) sc xs' k) /\
     (frequent m cfg (g_rows g) xs' k = true \/ forall k', In k' (keys cfg) -> frequent m cfg (g_rows g) xs' k' = true -> key_error m cfg (g_rows g) sc xs' k' <= 0) ->
     examined f a k /\
     forall ss mask, Forall2 (score_is (kind_of f) (k_c k)) (points_at 0 idx l) ss -> picks (a_n a) k (g_rows g) x mask ->
      patch_is f a ss (dimension (k_c k) x) mask p /\
      (forall k' ss' mask', examined f a k' -> Forall2 (score_is (kind_of f) (k_c k')) (points_at 0 idx l) ss' -> picks (a_n a) k' (g_rows g) x mask' -> least f a <= share mask' ->
         part_error f (a_coverage a) ss' (dimension (k_c k') x) mask' <= part_error f (a_coverage a) ss (dimension (k_c k) x) mask) /\
      (least f a <= share mask \/
       forall k' ss' mask', examined f a k' -> Forall2 (score_is (kind_of f) (k_c k')) (points_at 0 idx l) ss' -> picks (a_n a) k' (g_rows g) x mask' -> least f a <= share mask' ->
         part_error f (a_coverage a) ss' (dimension (k_c k') x) mask' == 0)).
  { intros V m dims xs' x D PX LX MK VL ME MP cfg sc (X1 & X2 & X3 & X4). split; [exact X1|]. intros ss mask FS PK.
    assert (CW : (k_c k < width (kind_of f))%nat) by apply X1.
    assert (LSC : forall c, length (column_of c sc) = length idx). { intros c. unfold column_of, sc, gather. now rewrite !map_length. }
    assert (NI : 0 < inject_Z (Z.of_nat (length idx))) by (unfold Qlt; cbn; lia).
    assert (GENK : forall k' mask', picks (a_n a) k' (g_rows g) x mask' -> length mask' = length idx /\ mask' <> [] /\ members m cfg k' (g_rows g) xs' = mask' /\ (frequent m cfg (g_rows g) xs' k' = true <-> least f a <= share mask') /\
        forall ss', (k_c k' < width (kind_of f))%nat -> Forall2 (score_is (kind_of f) (k_c k')) (points_at 0 idx l) ss' -> key_error m cfg (g_rows g) sc xs' k' * inject_Z (Z.of_nat (length idx)) == part_error f (a_coverage a) ss' (dimension (k_c k') x) mask').
    { intros k' mask' PK'. assert (LM : length mask' = length idx) by (rewrite <- PX; apply PK'). assert (NM : mask' <> []) by (intros Z; rewrite Z in LM; cbn in LM; lia).
      assert (MB : members m cfg k' (g_rows g) xs' = mask') by (unfold members; cbn [n_buckets config_of cfg]; now apply MK). split; [exact LM|]. split; [exact NM|]. split; [exact MB|]. split.
      - rewrite (frequent_share m cfg (g_rows g) xs' k' mask' NM MB). unfold cfg. rewrite (least_min f a taus (columns a) dims pt D). rewrite LM. unfold share. split; intros Z; [now apply Qle_shift_div_l|].
        assert (Y : least f a * inject_Z (Z.of_nat (length idx)) <= n_where mask' / inject_Z (Z.of_nat (length idx)) * inject_Z (Z.of_nat (length idx))) by (apply Qmult_le_compat_r; lra).
        setoid_replace (n_where mask' / inject_Z (Z.of_nat (length idx)) * inject_Z (Z.of_nat (length idx))) with (n_where mask') in Y by (field; lra). exact Y.
      - intros ss' CW' FS'. unfold key_error. rewrite VL, MB. assert (DL : length (dimension (k_c k') x) = length idx) by (rewrite <- VL, map_length; exact LX). rewrite <- LM. rewrite ME by (rewrite ?LSC, ?DL; assumption). apply part_error_same. now apply SCc. }
    destruct (GENK k mask PK) as (LM & NM & MB & FR & KE). specialize (KE ss CW FS).
    assert (UP : forall k' ss' mask', examined f a k' -> Forall2 (score_is (kind_of f) (k_c k')) (points_at 0 idx l) ss' -> picks (a_n a) k' (g_rows g) x mask' -> least f a <= share mask' ->
       exists k'', In k'' (keys cfg) /\ frequent m cfg (g_rows g) xs' k'' = true /\ key_error m cfg (g_rows g) sc xs' k'' * inject_Z (Z.of_nat (length idx)) == part_error f (a_coverage a) ss' (dimension (k_c k') x) mask').
    { intros k' ss' mask' EX' FS' PK' SH. destruct (examined_key f a k' taus dims K B D pt EX') as (v & Ev & IK). assert (PK2 := key_same _ _ _ _ _ _ Ev PK'). destruct (GENK _ _ PK2) as (_ & _ & _ & FR' & KE').
      eexists. split; [exact IK|]. split; [now apply FR'|]. apply KE'; [apply EX'|exact FS']. }
    split; [|split].
    - apply (MP (column_of (k_c k) sc)); [exact NM|now apply SCc|now rewrite LSC|rewrite <- VL, map_length, LX; exact LM|]. unfold patch_for in X2. cbn [n_buckets ptype_of config_of cfg] in X2. rewrite VL, MB in X2. exact X2.
    - intros k' ss' mask' EX' FS' PK' SH. destruct (UP k' ss' mask' EX' FS' PK' SH) as (k'' & I'' & F'' & E''). rewrite <- E'', <- KE. apply Qmult_le_compat_r; [now apply X3|lra].
    - destruct X4 as [X4|X4]; [left; now apply FR|]. right. intros k' ss' mask' EX' FS' PK' SH. destruct (UP k' ss' mask' EX' FS' PK' SH) as (k'' & I'' & F'' & E''). assert (U := X4 k'' I'' F'').
      assert (W := part_error_nonneg f (a_coverage a) ss' (dimension (k_c k') x) mask'). rewrite <- E'' in W |- *.
      assert (key_error m cfg (g_rows g) sc xs' k'' * inject_Z (Z.of_nat (length idx)) <= 0 * inject_Z (Z.of_nat (length idx))) by (apply Qmult_le_compat_r; lra). lra. }
  assert (PTL : forall {V} (d : V) xs, length (points_at d idx xs) = length idx) by (intros; apply map_length).
  assert (WSET : Mc Plain = Mc Plain) by reflexivity. clear WSET.
  destruct f as [[| |m]|], vs as [xs|xs] eqn:EVS; try (destruct Z0 as [Z0 _]; discriminate Z0); unfold fit_object in Ef; cbn [points] in PV.
  - apply some_inj in Ef. apply (fit_run _ _ _ _ _ _ _ _ _ _ _ (scores_of_length _ _)) in Ef. destruct Ef as (s & vg & vsc & vv & RN & EPS). rewrite <- EI in RN. rewrite GG, start_groups_width, (GV _ 0 xs PV) in RN.
    assert (G1 := GEN _ multicalibrator 1%nat 0 xs _ _ _ _ s eq_refl ltac:(intros; apply key_error_nonneg; reflexivity) RN EPS).
    eexists. split; [apply (IA Q multicalibrator Vec 0 xs eq_refl eq_refl); intros NP; exact (UN NP _ CVI)|].
    refine (FIN Q multicalibrator 1%nat _ _ eq_refl _ _ _ _ _ _ G1); cbn [points]; try (rewrite replay_length; rewrite ?PTL; auto).
    + intros k' mask' PK. cbn [m_b multicalibrator]. apply picks_scalar; [exact NB|now rewrite replay_length, PTL by (now rewrite PTL)|exact PK].
    + intros c. cbn [m_val multicalibrator dimension]. now rewrite map_id.
    + intros sc mask' NM c L1 L2. cbn [m_error multicalibrator]. rewrite (mc_error_mask mask' sc _ NM L1 L2). reflexivity.
    + intros sc sc' mask' c NM FQ L1 L2 X. cbn [m_patch multicalibrator] in X. exact (patch_mc (Mc Plain) a pt sc sc' _ mask' p ltac:(discriminate) Ep FQ L1 L2 NM X).
  - apply some_inj in Ef. apply (fit_run _ _ _ _ _ _ _ _ _ _ _ (scores_of_length _ _)) in Ef. destruct Ef as (s & vg & vsc & vv & RN & EPS). rewrite <- EI in RN. rewrite GG, start_groups_width, (GV _ 0 xs PV) in RN.
    assert (G1 := GEN _ multicalibrator 1%nat 0 xs _ _ _ _ s eq_refl ltac:(intros; apply key_error_nonneg; reflexivity) RN EPS).
    eexists. split; [apply (IA Q multicalibrator Vec 0 xs eq_refl eq_refl); intros NP; exact (UN NP _ CVI)|].
    refine (FIN Q multicalibrator 1%nat _ _ eq_refl _ _ _ _ _ _ G1); cbn [points]; try (rewrite replay_length; rewrite ?PTL; auto).
    + intros k' mask' PK. cbn [m_b multicalibrator]. apply picks_scalar; [exact NB|now rewrite replay_length, PTL by (now rewrite PTL)|exact PK].
    + intros c. cbn [m_val multicalibrator dimension]. now rewrite map_id.
    + intros sc mask' NM c L1 L2. cbn [m_error multicalibrator]. rewrite (mc_error_mask mask' sc _ NM L1 L2). reflexivity.
    + intros sc sc' mask' c NM FQ L1 L2 X. cbn [m_patch multicalibrator] in X. exact (patch_mc (Mc Binary) a pt sc sc' _ mask' p ltac:(discriminate) Ep FQ L1 L2 NM X).
  - destruct (length (hd [] xs) =? m)%nat; [|discriminate]. apply some_inj in Ef. apply (fit_run _ _ _ _ _ _ _ _ _ _ _ (scores_of_length _ _)) in Ef. destruct Ef as (s & vg & vsc & vv & RN & EPS). rewrite <- EI in RN. rewrite GG, start_groups_width, (GV _ [] xs PV) in RN.
    assert (G1 := GEN _ top_label m [] xs _ _ _ _ s eq_refl ltac:(intros; apply key_error_nonneg; reflexivity) RN EPS).
    eexists. split; [apply (IA (list Q) top_label Mat [] xs eq_refl eq_refl); intros NP; exact (UN NP _ CVI)|].
    refine (FIN (list Q) top_label m _ _ eq_refl _ _ _ _ _ _ G1); cbn [points]; try (rewrite replay_length; rewrite ?PTL; auto).
    + intros k' mask' PK. cbn [m_b top_label]. apply picks_top; [exact NB|now rewrite replay_length, PTL by (now rewrite PTL)| |exact PK].
      assert (M : (0 < m)%nat) by (destruct F as (_ & _ & (l' & _ & X) & _); apply X).
      assert (FP : Forall (fun r => length r = m) (points_at [] idx xs)). { apply Forall_forall. intros r Hr. apply in_map_iff in Hr. destruct Hr as (j & <- & Hj). cbn in WV. unfold rectangular in WV. rewrite Forall_forall in WV. apply WV. apply nth_In. rewrite PV. now apply BI. }
      rewrite replay_points by (now rewrite PTL). apply Forall_forall. intros r Hr. unfold zip_with in Hr. apply in_map_iff in Hr. destruct Hr as ([g0 x0] & <- & Hr). apply in_combine_r in Hr. rewrite Forall_forall in FP. specialize (FP x0 Hr). cbn [fst snd].
      enough (Y : length (sent top_label (config_of a taus (columns a) m pt) (firstn i ps) g0 x0) = length x0) by lia. generalize (firstn i ps), (config_of a taus (columns a) m pt). intros l0 cf. clear. revert x0. induction l0 as [|[k1 p1] l0 IH]; intros x0; [reflexivity|]. cbn [sent fold_left]. unfold sent in IH. rewrite IH. now apply top_keeps.
    + intros c. reflexivity.
    + intros sc mask' NM c L1 L2. cbn [m_error top_label]. rewrite (mc_error_mask mask' sc _ NM L1 L2). reflexivity.
    + intros sc sc' mask' c NM FQ L1 L2 X. cbn [m_patch top_label] in X. exact (patch_mc (Mc (TopLabel m)) a pt sc sc' _ mask' p ltac:(discriminate) Ep FQ L1 L2 NM X).
  - apply some_inj in Ef. apply (fit_run _ _ _ _ _ _ _ _ _ _ _ (scores_of_length _ _)) in Ef. destruct Ef as (s & vg & vsc & vv & RN & EPS). rewrite <- EI in RN. rewrite GG, start_groups_width, (GV _ 0 xs PV) in RN.
    assert (G1 := GEN _ (batch_mvp (a_coverage a)) 1%nat 0 xs _ _ _ _ s eq_refl ltac:(intros; apply mvp_nonneg) RN EPS).
    eexists. split; [apply (IA Q (batch_mvp 0) Vec 0 xs eq_refl eq_refl); intros NP; exact (UN NP _ CVI)|].
    refine (FIN Q (batch_mvp (a_coverage a)) 1%nat _ _ eq_refl _ _ _ _ _ _ G1); cbn [points]; try (rewrite replay_length; rewrite ?PTL; auto).
    + intros k' mask' PK. cbn [m_b batch_mvp]. apply picks_scalar; [exact NB|now rewrite replay_length, PTL by (now rewrite PTL)|exact PK].
    + intros c. cbn [m_val batch_mvp dimension]. now rewrite map_id.
    + intros sc mask' NM c L1 L2. cbn [m_error batch_mvp]. now apply mvp_error_part.
    + intros sc sc' mask' c NM FQ L1 L2 X. cbn [m_patch batch_mvp] in X. destruct pt; [|discriminate X]. exact (patch_mvp a sc sc' _ mask' p Ep FQ L1 L2 X).
Qed.
End Chosen.
Theorem kept_types rnd : tame rnd -> forall f o a, in_scope f a -> fine f a -> known_types a -> right_width f a -> i_types (snd (icalibrate rnd f o a)) = Some (a_types a).
Proof. intros T f o a S F K R. destruct (calibrate_fine rnd T f o a S F K R) as (l & pt & taus & q & ps & _ & _ & _ & _ & Er). rewrite Er. reflexivity. Qed.
