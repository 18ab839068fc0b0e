(** Continued fits of ADVI start where the last one ended. *)
From Coq Require Import List Arith Lia Bool String Permutation Sorting.Sorted.
From Verif Require Import Lib NestedModel NestedSpec NestedProofs NestedProofs2 FreezeModel FreezeSpec FreezeProofs LapModel LapSpec LapProofs3 FlatModel FlatSpec FlatProofs FlatProofs2 FlatProofs3 FlatProofs4 EnsSpec ResumeModel ResumeSpec ResumeProofs.
Import ListNotations.
Open Scope list_scope.
Local Notation length := List.length.
Local Notation concat := List.concat.

Section Resume.
Context {V : Type}.
Notation ptree := (tree (list V)).
Implicit Types (t m init : ptree) (pos : list (path * list V)).

(** ---- without freeze function ---- *)
Theorem plain_continue (init : list (string * ptree)) mean log_std st random train : unique_keys (Dict init) ->
  length mean = length (ravel (wrap init)) -> length log_std = length (ravel (wrap init)) -> advi_state init mean log_std = Ok st ->
  fit None (FromPlain st) random train = bind (train mean log_std) (fun w => rmap FromPlain (advi_state init (fst w) (snd w))).
Proof.
  intros U H1 H2 E. destruct (advi_plain V (fun a _ _ => a) init mean log_std mean U H1 H2 H1) as (st' & _ & _ & E' & _ & R1 & _ & R2 & _). assert (st' = st) by congruence. subst st'.
  unfold fit, resume_trees, start_vectors. cbn [bind fst snd option_map init_log_std]. rewrite R1, R2. destruct (train mean log_std) as [w|]; [|reflexivity]. cbn [bind].
  assert (W : forall l, unravel (wrap (first_components st)) l = unravel (wrap init) l).
  { intros l. unfold advi_state in E. rewrite ravel_wrap in H1, H2. rewrite !unravel_wrap in E by assumption. cbn [bind] in E. rewrite !unwrap_wrap in E. cbn [bind] in E.
    assert (ND : NoDup (map fst (sort_keys init))). { apply unique_dict in U. apply (Permutation_NoDup (Permutation_map fst (sort_keys_perm init)) (proj1 U)). }
    destruct (pair_same (parts init mean) (parts init log_std)) as (d & Ed & Ed1 & _); [now rewrite !parts_keys|now rewrite parts_keys|].
    assert (d = st) by congruence. subst d. rewrite Ed1, <- (cut_wrap init mean). apply unravel_cut; [now apply unique_wrap|now rewrite ravel_wrap]. }
  unfold plain_state, advi_state. rewrite !W. destruct (bind (unravel (wrap init) (fst w)) unwrap) as [ms|]; [|reflexivity]. cbn [bind]. destruct (bind (unravel (wrap init) (snd w)) unwrap) as [ss|]; [|reflexivity]. cbn [bind].
  destruct (pair_components ms ss); reflexivity.
Qed.
Theorem plain_start (init : list (string * ptree)) random train :
  fit None (FromMap (wrap init)) random train = bind (train (ravel (wrap init)) (random (length (ravel (wrap init))))) (fun w => rmap FromPlain (advi_state init (fst w) (snd w))).
Proof.
  unfold fit, resume_trees, start_vectors. cbn [bind fst snd option_map init_log_std]. destruct (train _ _) as [w|]; [|reflexivity]. cbn [bind]. unfold plain_state, advi_state.
  destruct (bind (unravel (wrap init) (fst w)) unwrap) as [ms|]; [|reflexivity]. cbn [bind]. destruct (bind (unravel (wrap init) (snd w)) unwrap) as [ss|]; [|reflexivity]. cbn [bind]. destruct (pair_components ms ss); reflexivity.
Qed.
Theorem plain_two (init : list (string * ptree)) random random' (t u : list V -> list V -> result (list V * list V)) : unique_keys (Dict init) -> (forall n, length (random n) = n) -> keeps_lengths t ->
  bind (fit None (FromMap (wrap init)) random t) (fun s => fit None s random' u) = fit None (FromMap (wrap init)) random (followed_by t u).
Proof.
  intros U R K. rewrite !plain_start. unfold followed_by. destruct (t _ _) as [[m l]|] eqn:E; [|reflexivity]. destruct (K _ _ _ _ E) as [K1 K2]. rewrite R in K2. cbn [bind fst snd].
  destruct (advi_plain V (fun a _ _ => a) init m l m U K1 K2 K1) as (st & _ & _ & Es & _). rewrite Es. cbn [rmap bind]. apply plain_continue; assumption.
Qed.

(** ---- with freeze function ---- *)
Lemma unravel_list_cut pos mean l : length mean = total pos -> unravel_list (map ltree (cut pos mean)) l = unravel_list (map ltree pos) l.
Proof.
  intros H. destruct (Nat.eq_dec (length l) (total pos)) as [Y|N].
  - rewrite !unravel_list_leaves; [|assumption|rewrite cut_total; assumption]. f_equal. f_equal. apply in_cut_sizes; [|apply cut_paths]. apply cut_sizes. lia.
  - unfold unravel_list. rewrite !map_map. cbn [ltree ravel]. change (map (fun x : path * list V => snd x) pos) with (map snd pos). change (map (fun x : path * list V => snd x) (cut pos mean)) with (map snd (cut pos mean)).
    rewrite (cut_concat pos mean H). unfold total in H, N. rewrite H. apply Nat.eqb_neq in N. rewrite N. reflexivity.
Qed.
Lemma state_again init m pos mean a b : reads init pos -> unique_keys init -> length mean = total pos -> unravel_paths init (map fst pos) mean = Ok m ->
  advi_state_paths m (map fst pos) a b = advi_state_paths init (map fst pos) a b.
Proof.
  intros R U H E. destruct (unravel_again init m pos mean a R U H E) as (A & _ & G). unfold advi_state_paths. rewrite A, G, (reads_get init pos R). destruct (unravel_paths init (map fst pos) a); [|reflexivity]. cbn [bind].
  rewrite unravel_list_cut by assumption. reflexivity.
Qed.
Lemma reads_in t pos p : reads t pos -> In p (map fst pos) -> p <> [] /\ exists v, leaf_at t p v.
Proof. intros [_ F] H. apply in_map_iff in H. destruct H as ([q v] & <- & H). rewrite Forall_forall in F. destruct (F _ H). eauto. Qed.
Lemma trainable_vector t pos : reads t pos -> StronglySorted path_lt (map fst pos) -> ravel_trainable t (map fst pos) = Ok (concat (map snd pos)).
Proof. intros R S. rewrite ravel_trainable_sorted; [apply reads_ravel; exact R| |exact S]. intros p Hp. exact (reads_in t pos p R Hp). Qed.
Lemma train_start_sorted f t pos a b : by_path f -> unique_keys t -> reads t pos -> get_trainable_paths t (Some f) = Ok (map fst pos) -> StronglySorted path_lt (map fst pos) ->
  length a = total pos -> length b = total pos -> train_start f t (map fst pos) a b = Ok (a, b).
Proof.
  intros BP U R G S Ha Hb. unfold train_start. destruct (unravel_paths_ok t pos a R Ha) as (ta & Ea & Ra & _). destruct (unravel_paths_ok t pos b R Hb) as (tb & Eb & Rb & _). rewrite Ea. cbn [bind].
  rewrite (labels_skel f ta t BP (reads_skel t ta pos a R Ha Ea)), G. cbn [bind]. rewrite Eb. cbn [bind].
  pose proof (trainable_vector ta (cut pos a) Ra) as X. rewrite cut_paths in X. rewrite (X S). pose proof (trainable_vector tb (cut pos b) Rb) as Y. rewrite cut_paths in Y. rewrite (Y S). cbn [bind].
  rewrite !cut_concat by assumption. reflexivity.
Qed.
(** the stored tree and what is read back from it *)
Lemma stored_state init pos decoded mean log_std : reads init pos -> length mean = total pos -> length log_std = total pos -> Permutation (map fst pos) decoded ->
  exists m tl state d2, unravel_paths init (map fst pos) mean = Ok m /\ unravel_paths init (map fst pos) log_std = Ok tl /\ reads m (cut pos mean) /\ reads tl (cut pos log_std) /\
    advi_state_paths init (map fst pos) mean log_std = Ok state /\ nested_unpair state decoded ["mean"; "log_std"]%string = Ok (m, d2) /\ extract tl decoded = Ok d2.
Proof.
  intros R H1 H2 P. destruct (unravel_paths_ok init pos mean R H1) as (m & Em & Rm & _ & _). destruct (unravel_paths_ok init pos log_std R H2) as (tl & El & Rl & _ & _).
  set (C := cut pos log_std) in *. assert (PC : Permutation decoded (map fst C)) by (unfold C; rewrite cut_paths; now symmetry).
  destruct (Permutation_map_inv fst C PC) as (C' & EC & PC').
  assert (Lm : leaf_paths m (map fst C)). { unfold C. rewrite cut_paths, <- (cut_paths pos mean). now apply reads_leaf_paths. }
  pose proof (leaf_paths_independent m _ Lm) as I.
  assert (F1 : forall l, (forall x, In x l -> In x C) -> map fst (map lp l) = map fst l) by (intros l _; rewrite map_map; reflexivity).
  assert (I1 : all_independent (map fst (map lp C))) by (rewrite map_map; exact I).
  assert (N1 : Forall (fun po => fst po <> []) (map lp C)). { rewrite Forall_map. apply Forall_forall. intros x Hx. destruct Lm as [_ F]. rewrite Forall_forall in F. apply (in_map fst) in Hx. exact (proj1 (F _ Hx)). }
  assert (X1 : Forall (fun po => at_path m (fst po) <> None) (map lp C)). { rewrite Forall_map. apply Forall_forall. intros x Hx. destruct Lm as [_ F]. rewrite Forall_forall in F. apply (in_map fst) in Hx. destruct (F _ Hx) as [_ [v Hv]]. cbn [lp fst]. congruence. }
  destruct (pair_paths_total (map lp C) m "mean" "log_std" I1 N1 X1) as (D & ED).
  assert (PL : Permutation (map lp C) (map lp C')) by (apply Permutation_map; exact PC').
  assert (ED' : pair_paths m (map lp C') "mean" "log_std" = Ok D) by (rewrite <- (pair_paths_perm _ _ PL); assumption).
  destruct (unpair_pair_paths (map lp C') m (Dict []) D "mean" "log_std" ltac:(discriminate)) as (d2 & Ud & Sd).
  { eapply indep_perm; [apply Permutation_map; exact PL|exact I1]. }
  { rewrite Forall_forall in *. intros x Hx. apply N1. apply (Permutation_in _ (Permutation_sym PL) Hx). }
  { rewrite Forall_forall in *. intros x Hx. apply X1. apply (Permutation_in _ (Permutation_sym PL) Hx). }
  { apply Forall_forall. intros x Hx q r v Eq Nr. destruct q; simpl; discriminate. }
  { exact ED'. }
  exists m, tl, D, d2. split; [exact Em|]. split; [exact El|]. split; [exact Rm|]. split; [exact Rl|]. split.
  { unfold advi_state_paths. rewrite Em. cbn [bind]. rewrite (reads_get init pos R). cbn [bind]. rewrite unravel_list_leaves by assumption. cbn [bind]. fold C. unfold nested_pair.
    assert (LC : length (map fst pos) = length (map ltree C)) by (unfold C; rewrite map_length, map_length, <- (map_length fst (cut pos log_std)), cut_paths, map_length; reflexivity).
    rewrite LC, Nat.eqb_refl. cbn [negb]. replace (map fst pos) with (map fst C) by (apply cut_paths). rewrite combine_lp. exact ED. }
  split. { unfold nested_unpair. rewrite map_map in Ud. cbn [lp fst] in Ud. rewrite <- Ud. f_equal. rewrite EC. reflexivity. }
  assert (RC : reads tl C') by (apply (reads_perm tl C C' PC'); exact Rl).
  unfold extract. rewrite EC, (reads_get tl C' RC). cbn [bind]. unfold nested_set. rewrite !map_length, Nat.eqb_refl. cbn [negb]. rewrite combine_lp. exact Sd.
Qed.
Theorem frozen_continue f init paths sizes decoded mean log_std st random train : by_path f -> unique_keys init -> get_trainable_paths init (Some f) = Ok paths -> arrays_at init paths sizes -> StronglySorted path_lt paths ->
  Permutation paths decoded -> length mean = list_sum sizes -> length log_std = list_sum sizes -> advi_state_paths init paths mean log_std = Ok st ->
  fit (Some f) (FromPaths decoded st) random train = bind (train mean log_std) (fun w => rmap (FromPaths paths) (advi_state_paths init paths (fst w) (snd w))).
Proof.
  intros BP U G A S P H1 H2 E. destruct (arrays_reads init paths sizes A) as (pos & <- & <- & R). rewrite <- total_sizes in H1, H2.
  destruct (stored_state init pos decoded mean log_std R H1 H2 P) as (m & tl & st' & d2 & Em & El & Rm & Rl & Es & Eu & Ex). assert (st' = st) by congruence. subst st'.
  unfold fit, resume_trees. rewrite Eu. cbn [bind fst snd]. unfold start_vectors. rewrite (labels_skel f m init BP (reads_skel init m pos mean R H1 Em)), G. cbn [bind].
  pose proof (reads_ravel m (cut pos mean) Rm) as X. rewrite cut_paths in X. rewrite X. cbn [bind]. rewrite (cut_concat pos mean H1).
  assert (LP : leaf_paths tl decoded). { apply (reads_leaf_paths tl (cut pos log_std)) in Rl. rewrite cut_paths in Rl. destruct Rl as [ND F]. split; [apply (Permutation_NoDup P ND)|]. rewrite Forall_forall in *. intros p Hp. apply F. apply (Permutation_in _ (Permutation_sym P) Hp). }
  destruct (extract_spec tl decoded LP) as (X2 & Ex2 & UX & DX & LX & _). assert (X2 = d2) by congruence. subst X2.
  assert (Rd : reads d2 (cut pos log_std)). { destruct Rl as [ND F]. split; [exact ND|]. rewrite Forall_forall in *. intros [p v] Hp. destruct (F _ Hp) as [N B]. split; [exact N|]. apply LX. split; [|exact B]. apply (Permutation_in _ P). apply (in_map fst) in Hp. rewrite cut_paths in Hp. exact Hp. }
  pose proof (trainable_vector d2 (cut pos log_std) Rd) as Y. rewrite cut_paths in Y. rewrite (Y S). cbn [bind init_log_std]. rewrite (cut_concat pos log_std H2).
  pose proof (train_start_sorted f m (cut pos mean) mean log_std BP) as T. rewrite !cut_paths, cut_total in T by assumption.
  rewrite T; [|exact (set_paths_unique_l init m pos mean R H1 U Em)|exact Rm|rewrite (labels_skel f m init BP (reads_skel init m pos mean R H1 Em)); exact G|exact S|exact H1|exact H2].
  cbn [bind fst snd]. destruct (train mean log_std) as [w|]; [|reflexivity]. cbn [bind]. rewrite (state_again init m pos mean _ _ R U H1 Em). destruct (advi_state_paths init (map fst pos) (fst w) (snd w)); reflexivity.
Qed.
Theorem frozen_start f init paths sizes random train : by_path f -> unique_keys init -> get_trainable_paths init (Some f) = Ok paths -> arrays_at init paths sizes -> StronglySorted path_lt paths ->
  (forall n, length (random n) = n) ->
  exists flat, ravel_paths init paths = Ok flat /\ length flat = list_sum sizes /\
  fit (Some f) (FromMap init) random train = bind (train flat (random (length flat))) (fun w => rmap (FromPaths paths) (advi_state_paths init paths (fst w) (snd w))).
Proof.
  intros BP U G A S RL. destruct (arrays_reads init paths sizes A) as (pos & <- & <- & R). rewrite <- total_sizes. exists (concat (map snd pos)). split; [apply reads_ravel; exact R|]. split; [reflexivity|].
  unfold fit, resume_trees. cbn [bind fst snd]. unfold start_vectors. rewrite G. cbn [bind]. rewrite (reads_ravel init pos R). cbn [bind init_log_std].
  change (length (concat (map snd pos))) with (total pos). rewrite (train_start_sorted f init pos _ _ BP U R G S eq_refl (RL _)). cbn [bind fst snd]. destruct (train _ _) as [w|]; [|reflexivity]. cbn [bind]. destruct (advi_state_paths init (map fst pos) (fst w) (snd w)); reflexivity.
Qed.
Theorem frozen_two f init paths sizes random random' (t u : list V -> list V -> result (list V * list V)) : by_path f -> unique_keys init -> get_trainable_paths init (Some f) = Ok paths -> arrays_at init paths sizes -> StronglySorted path_lt paths ->
  (forall n, length (random n) = n) -> keeps_lengths t ->
  bind (fit (Some f) (FromMap init) random t) (fun s => fit (Some f) s random' u) = fit (Some f) (FromMap init) random (followed_by t u).
Proof.
  intros BP U G A S RL K. destruct (frozen_start f init paths sizes random t BP U G A S RL) as (flat & F1 & F2 & ->). destruct (frozen_start f init paths sizes random (followed_by t u) BP U G A S RL) as (flat' & F1' & _ & ->).
  assert (flat' = flat) by congruence. subst flat'. unfold followed_by. destruct (t flat _) as [[m l]|] eqn:E; [|reflexivity]. destruct (K _ _ _ _ E) as [K1 K2]. rewrite RL in K2. cbn [bind fst snd].
  destruct (arrays_reads init paths sizes A) as (pos & Ep & Es & R). assert (HT : list_sum sizes = total pos) by (rewrite <- Es; symmetry; apply total_sizes).
  destruct (stored_state init pos paths m l R) as (_ & _ & st & _ & _ & _ & _ & _ & Est & _); [congruence|congruence|rewrite Ep; apply Permutation_refl|]. rewrite Ep in Est. rewrite Est. cbn [rmap bind].
  apply (frozen_continue f init paths sizes paths m l st random' u BP U G A S (Permutation_refl _)); [congruence|congruence|exact Est].
Qed.

(** ---- another freeze function than before ---- *)
Theorem plain_then_frozen f (st : list (string * (ptree * ptree))) paths sizes random train : let means := wrap (first_components st) in let stds := wrap (second_components st) in
  by_path f -> unique_keys means -> get_trainable_paths means (Some f) = Ok paths -> arrays_at means paths sizes -> arrays_at stds paths sizes -> StronglySorted path_lt paths ->
  exists (m l : list V), ravel_paths means paths = Ok m /\ ravel_paths stds paths = Ok l /\
  fit (Some f) (FromPlain st) random train = bind (train m l) (fun w => rmap (FromPaths paths) (advi_state_paths means paths (fst w) (snd w))).
Proof.
  intros means stds BP U G A1 A2 S. destruct (arrays_reads means paths sizes A1) as (pos & Ep & Es & R). destruct (arrays_reads stds paths sizes A2) as (pos2 & Ep2 & Es2 & R2).
  exists (concat (map snd pos)), (concat (map snd pos2)). split; [rewrite <- Ep; apply reads_ravel; exact R|]. split; [rewrite <- Ep2; apply reads_ravel; exact R2|].
  unfold fit, resume_trees. cbn [bind fst snd]. fold means stds. unfold start_vectors. rewrite G. cbn [bind]. rewrite <- Ep at 1. rewrite (reads_ravel means pos R). cbn [bind].
  rewrite <- Ep2 at 1. rewrite (trainable_vector stds pos2 R2) by (rewrite Ep2; exact S). cbn [bind init_log_std]. subst paths.
  rewrite (train_start_sorted f means pos _ _ BP U R G S); [|reflexivity|].
  - cbn [bind fst snd]. destruct (train _ _) as [w|]; [|reflexivity]. cbn [bind]. destruct (advi_state_paths means (map fst pos) (fst w) (snd w)); reflexivity.
  - change (length (concat (map snd pos2))) with (total pos2). rewrite !total_sizes. congruence.
Qed.
End Resume.
