From Coq Require Import List Arith ZArith QArith Qabs Qminmax Qround Bool Lia Lqa Sorted.
From Verif Require Import Lib LoaderProofs QuantModel QuantSpec QuantProofs ConfRegModel ConfRegProofs ConfClassModel ConfClassProofs ConfClassProofs2 ConfClassSpec ConfClassProofs3 MultiModel MultiSpec MultiProofs MultiProofs2 MultiProofs3 MultiProofs4 MultiProofs5 OneShotModel OneShotSpec OneShotProofs OneShotProofs2 IterModel IterSpec IterProofs IterProofs2.
Import ListNotations.
Open Scope Q_scope.

(** ---- the loop and the patches it leaves ---- *)
Section Loop.
Context {V : Type} (m : method V) (cfg : config) (groups vgroups : list (list bool)) (scores vscores : list (list Q)).
Let step := round m cfg groups vgroups scores vscores.
Lemma round_break s s' : step s = Break s' -> l_patches s' = l_patches s.
Proof.
  unfold step, round. destruct (choose m cfg groups scores (l_values s)) as [k|]; [|intros [= <-]; reflexivity].
  destruct (patch_for m cfg groups scores (l_values s) k) as [[p|]|e]; [|discriminate|discriminate]. cbv zeta.
  destruct (oltb (l_old s) _); [intros [= <-]; reflexivity|]. destruct (oleb _ _); [intros [= <-]; reflexivity|]. destruct (oltb (hd None (l_losses s)) _); [intros [= <-]; reflexivity|].
  destruct (existsb _ _); [|discriminate]. destruct (hd None (l_losses s)) as [x|]; [|discriminate].
  destruct (m_loss m _ vscores) as [y|]; [|discriminate]. destruct (Qeq_bool x 0); [discriminate|]. destruct (Qle_bool _ _); [intros [= <-]; reflexivity|discriminate].
Qed.
Lemma so_far_break n : forall s s', rounds m cfg n groups vgroups scores vscores s = Break s' -> so_far m cfg n groups vgroups scores vscores s = l_patches s'.
Proof.
  induction n as [|n IH]; intros s s'; cbn [rounds so_far]; [intros [= <-]; reflexivity|]. destruct (round m cfg groups vgroups scores vscores s) as [s1|s1|e|s1] eqn:E; try discriminate; [apply IH|].
  intros [= <-]. symmetry. now apply round_break.
Qed.
Lemma rounds_not_continue n : forall s s', rounds m cfg n groups vgroups scores vscores s <> Continue s'.
Proof. induction n as [|n IH]; intros s s'; cbn [rounds]; [discriminate|]. destruct (round m cfg groups vgroups scores vscores s) eqn:E; try discriminate. apply IH. Qed.
Lemma rounds_fine n : (forall vs k, exists p, patch_for m cfg groups scores vs k = Ok (Some p)) -> forall s,
  (exists s', rounds m cfg n groups vgroups scores vscores s = Break s') \/ rounds m cfg n groups vgroups scores vscores s = Raise ZeroDivisionError.
Proof.
  intros P. induction n as [|n IH]; intros s; cbn [rounds]; [left; now exists s|].
  destruct (round m cfg groups vgroups scores vscores s) as [s1|s1|e|s1] eqn:E; [apply IH|left; now exists s1| |].
  - right. revert E. unfold round. destruct (choose m cfg groups scores (l_values s)) as [k|]; [|discriminate]. destruct (P (l_values s) k) as (p & ->). cbv zeta.
    destruct (oltb (l_old s) _); [discriminate|]. destruct (oleb _ _); [discriminate|]. destruct (oltb (hd None (l_losses s)) _); [discriminate|].
    destruct (existsb _ _); [|discriminate]. destruct (hd None (l_losses s)) as [x|]; [|discriminate]. destruct (m_loss m _ vscores) as [y|]; [|discriminate].
    destruct (Qeq_bool x 0); [intros [= <-]; reflexivity|]. destruct (Qle_bool _ _); discriminate.
  - exfalso. revert E. unfold round. destruct (choose m cfg groups scores (l_values s)) as [k|]; [|discriminate]. destruct (P (l_values s) k) as (p & ->). cbv zeta.
    destruct (oltb (l_old s) _); [discriminate|]. destruct (oleb _ _); [discriminate|]. destruct (oltb (hd None (l_losses s)) _); [discriminate|].
    destruct (existsb _ _); [|discriminate]. destruct (hd None (l_losses s)) as [x|]; [|discriminate]. destruct (m_loss m _ vscores) as [y|]; [|discriminate].
    destruct (Qeq_bool x 0); [discriminate|]. destruct (Qle_bool _ _); discriminate.
Qed.
Lemma choose_in values k : choose m cfg groups scores values = Some k -> In k (keys cfg).
Proof. unfold choose. destruct (existsb _ _); [|discriminate]. apply nth_error_In. Qed.
End Loop.

Lemma additive_patch_mc cfg groups scores values k : ptype_of cfg = Additive -> exists p, patch_for multicalibrator cfg groups scores values k = Ok (Some p).
Proof. intros E. unfold patch_for. rewrite E. eexists. reflexivity. Qed.
Lemma additive_patch_top cfg groups scores values k : ptype_of cfg = Additive -> exists p, patch_for top_label cfg groups scores values k = Ok (Some p).
Proof. intros E. unfold patch_for. rewrite E. eexists. reflexivity. Qed.
Lemma additive_patch_mvp c cfg groups scores values k : ptype_of cfg = Additive -> exists p, patch_for (batch_mvp c) cfg groups scores values k = Ok (Some p).
Proof. intros E. unfold patch_for. rewrite E. cbn [m_patch batch_mvp mvp_patch]. destruct (existsb _ _); eexists; reflexivity. Qed.

(** ---- one fit ---- *)
Section Fit.
Variable rnd : random.
Context {V : Type} (m : method V) (cfg : config) (d : V) (a : args) (groups : list (list bool)) (scores : list (list Q)) (values : list V).
Definition head : list nat := firstn (calib_size (a_split a) (length scores)) (r_perm rnd (length scores)).
Definition tail : list nat := skipn (calib_size (a_split a) (length scores)) (r_perm rnd (length scores)).
Lemma fit_ok st ps : fit rnd m cfg d a groups scores values = (Ok st, ps) -> exists s,
  run m cfg (Z.to_nat (a_rounds a)) (gather [] head groups) (gather [] tail groups) (gather [] head scores) (gather [] tail scores) (gather d head values) (gather d tail values) = Break s /\
  st = status_of s /\ ps = l_patches s.
Proof.
  unfold fit. fold head tail. cbv zeta. intros [= E1 E2].
  destruct (run m cfg (Z.to_nat (a_rounds a)) (gather [] head groups) (gather [] tail groups) (gather [] head scores) (gather [] tail scores) (gather d head values) (gather d tail values)) as [s|s|e|s] eqn:R;
    cbn in E1; try discriminate.
  exists s. split; [reflexivity|]. split; [congruence|]. rewrite <- E2. apply so_far_break. exact R.
Qed.
Lemma fit_additive : (forall g s vs k, exists p, patch_for m cfg g s vs k = Ok (Some p)) -> 0 <= atol cfg -> exists st ps, fit rnd m cfg d a groups scores values = (Ok st, ps).
Proof.
  intros P A. unfold fit. fold head tail. cbv zeta.
  destruct (rounds_fine m cfg (gather [] head groups) (gather [] tail groups) (gather [] head scores) (gather [] tail scores) (Z.to_nat (a_rounds a)) (P _ _)
    (start m (gather [] head groups) (gather [] tail groups) (gather [] head scores) (gather [] tail scores) (gather d head values) (gather d tail values))) as [(s & E)|E];
    fold (run m cfg (Z.to_nat (a_rounds a)) (gather [] head groups) (gather [] tail groups) (gather [] head scores) (gather [] tail scores) (gather d head values) (gather d tail values)) in E.
  - rewrite E. now exists (status_of s), (so_far m cfg (Z.to_nat (a_rounds a)) (gather [] head groups) (gather [] tail groups) (gather [] head scores) (gather [] tail scores)
      (start m (gather [] head groups) (gather [] tail groups) (gather [] head scores) (gather [] tail scores) (gather d head values) (gather d tail values))).
  - exfalso. revert E. apply no_zero_division; [exact A|]. intros vs k X. destruct (P (gather [] head groups) (gather [] head scores) vs k) as (p & Y). congruence.
Qed.
Lemma fit_sets st ps : fit rnd m cfg d a groups scores values = (Ok st, ps) ->
  st_n_rounds st = length ps /\ (length ps <= Z.to_nat (a_rounds a))%nat /\ (forall k p, In (k, p) ps -> In k (keys cfg)).
Proof.
  intros H. apply fit_ok in H. destruct H as (s & R & -> & ->). destruct (rounds_bound _ _ _ _ _ _ _ _ _ _ _ R) as [A B]. split; [exact B|]. split; [exact A|].
  intros k p I. apply In_nth_error in I. destruct I as (i & I). destruct (replay_reproduces _ _ _ _ _ _ _ _ _ _ _ R) as (extra & _ & _ & _ & _ & X).
  destruct (X i k p) as [C _]; [rewrite nth_error_app1; [exact I|apply nth_error_Some; congruence]|]. exact (choose_in _ _ _ _ _ _ C).
Qed.
End Fit.

Lemma start_groups_width a n : g_width (start_groups a n) = columns a.
Proof. unfold start_groups, columns. now destruct (a_groups a). Qed.
Lemma scope_without f a : in_scope f a -> in_scope f (without_test a).
Proof. intros (S1 & S2 & S3). split; [exact S1|]. split; [exact S2|]. intros M v [Hv|Hv]; [apply (S3 M); now left|discriminate]. Qed.
Lemma fine_without f a : fine f a -> fine f (without_test a).
Proof.
  intros (F1 & (C1 & C2 & C3 & C4 & C5 & _) & F3 & F4 & F5 & F6). split; [exact F1|]. split.
  { split; [exact C1|]. split; [exact C2|]. split; [exact C3|]. split; [exact C4|]. split; [exact C5|]. cbn. repeat split; intros; congruence. }
  split; [exact F3|]. split; [intros g [Hg|Hg]; [apply F4; now left|discriminate]|]. split; [exact F5|discriminate].
Qed.
Lemma some_inj {A} (x y : A) : Some x = Some y -> x = y. Proof. congruence. Qed.
Section Results.
Variable rnd : random.
Hypothesis T : tame rnd.
(** test data influence neither the object nor the status *)
Theorem test_data f o a : in_scope f a -> fine f a -> known_types a -> right_width f a ->
  let r := icalibrate rnd f o a in let r0 := icalibrate rnd f o (without_test a) in
  snd r = snd r0 /\
  match fst r0 with
  | Err e => fst r = Err e
  | Ok (st, y) => y = None /\
      fst r = match a_test_groups a, a_test_values a with
              | None, None => Ok (st, None)
              | g, v => match iapply rnd f (snd r) g v with Ok y => Ok (st, Some y) | Err e => Err e end
              end
  end.
Proof.
  intros S F K R r r0. destruct (calibrate_fine rnd T f o a S F K R) as (l & pt & taus & q & ps & E & Ep & B & Ef & Er).
  assert (S' := scope_without f a S). assert (F' := fine_without f a F).
  destruct (calibrate_fine rnd T f o (without_test a) S' F' K R) as (l' & pt' & taus' & q' & ps' & E' & Ep' & B' & Ef' & Er').
  cbn [a_targets a_ptype a_types without_test] in E', Ep', B'. rewrite E in E'. injection E' as <-. rewrite Ep in Ep'. injection Ep' as <-. rewrite B in B'. injection B' as <-.
  assert (Q : Some (q', ps') = Some (q, ps)) by (rewrite <- Ef, <- Ef'; reflexivity). injection Q as -> ->.
  unfold r, r0. rewrite Er, Er'. cbn [fst snd]. split; [reflexivity|]. destruct q as [st|e]; cbn [answer]; [|reflexivity]. cbn [a_test_groups a_test_values without_test given orb]. split; [reflexivity|].
  destruct (a_test_groups a) as [g|], (a_test_values a) as [v|]; reflexivity.
Qed.
Theorem succeeds f o a : in_scope f a -> fine f a -> known_types a -> right_width f a -> a_ptype a = Some Additive -> 0 <= a_atol a ->
  exists st, fst (icalibrate rnd f o (without_test a)) = Ok (st, None).
Proof.
  intros S F K R AD AT. destruct (test_data f o a S F K R) as [_ X]. destruct (calibrate_fine rnd T f o a S F K R) as (l & pt & taus & q & ps & E & Ep & B & Ef & Er).
  rewrite AD in Ep. injection Ep as <-. assert (OK : exists st, q = Ok st).
  { revert Ef. unfold fit_object.
    destruct f as [[| |m]|], (start_values rnd _ a (length l)) as [v|rows]; try discriminate.
    - destruct (fit_additive rnd multicalibrator (config_of a taus (g_width (start_groups a (length l))) 1 Additive) 0 a (g_rows (start_groups a (length l))) (scores_of (kind_of (Mc Plain)) l) v) as (st & ps' & ->);
        [intros; now apply additive_patch_mc|exact AT|]. intros [= <- _]. now exists st.
    - destruct (fit_additive rnd multicalibrator (config_of a taus (g_width (start_groups a (length l))) 1 Additive) 0 a (g_rows (start_groups a (length l))) (scores_of (kind_of (Mc Binary)) l) v) as (st & ps' & ->);
        [intros; now apply additive_patch_mc|exact AT|]. intros [= <- _]. now exists st.
    - destruct (length (hd [] rows) =? m)%nat; [|discriminate].
      destruct (fit_additive rnd top_label (config_of a taus (g_width (start_groups a (length l))) m Additive) [] a (g_rows (start_groups a (length l))) (scores_of (kind_of (Mc (TopLabel m))) l) rows) as (st & ps' & ->);
        [intros; now apply additive_patch_top|exact AT|]. intros [= <- _]. now exists st.
    - destruct (fit_additive rnd (batch_mvp (a_coverage a)) (config_of a taus (g_width (start_groups a (length l))) 1 Additive) 0 a (g_rows (start_groups a (length l))) (scores_of (kind_of Mvp) l) v) as (st & ps' & ->);
        [intros; now apply additive_patch_mvp|exact AT|]. intros [= <- _]. now exists st. }
  destruct OK as (st & ->). rewrite Er in X. cbn [fst snd answer] in X. destruct (fst (icalibrate rnd f o (without_test a))) as [[st' y]|e] eqn:Z; [destruct X as [-> X]; now exists st'|].
  exfalso. assert (S' := scope_without f a S). assert (F' := fine_without f a F).
  destruct (calibrate_fine rnd T f o (without_test a) S' F' K R) as (l' & pt' & taus' & q' & ps' & E' & Ep' & B' & Ef' & Er').
  cbn [a_targets a_ptype a_types without_test] in E', Ep', B'. rewrite E in E'. injection E' as <-. rewrite AD in Ep'. injection Ep' as <-. rewrite B in B'. injection B' as <-.
  assert (Q : Some (q', ps') = Some (Ok st, ps)) by (rewrite <- Ef, <- Ef'; reflexivity). injection Q as -> ->. rewrite Er' in Z. discriminate.
Qed.
Lemma fit_object_sets f a l taus pt st ps g vs : fit_object rnd f a taus pt (scores_of (kind_of f) l) g vs = Some (Ok st, ps) ->
  st_n_rounds st = length ps /\ (length ps <= Z.to_nat (a_rounds a))%nat /\
  (forall k p, In (k, p) ps -> In (k_tau k) taus /\ (k_g k < g_width g)%nat /\ In (k_v k) (get_buckets (a_n a)) /\ (k_c k < width (kind_of f))%nat).
Proof.
  assert (W : forall n_dims, width (kind_of f) = n_dims -> (forall k p, In (k, p) ps -> In k (keys (config_of a taus (g_width g) n_dims pt))) ->
    (forall k p, In (k, p) ps -> In (k_tau k) taus /\ (k_g k < g_width g)%nat /\ In (k_v k) (get_buckets (a_n a)) /\ (k_c k < width (kind_of f))%nat)).
  { intros nd En H k p I. specialize (H k p I). apply in_keys in H. cbn in H. rewrite En. exact H. }
  unfold fit_object. destruct f as [[| |m]|], vs as [v|rows]; try discriminate.
  - intros H. apply some_inj in H. destruct (fit_sets _ _ _ _ _ _ _ _ _ _ H) as (A & B & C). split; [exact A|]. split; [exact B|]. now apply (W 1%nat).
  - intros H. apply some_inj in H. destruct (fit_sets _ _ _ _ _ _ _ _ _ _ H) as (A & B & C). split; [exact A|]. split; [exact B|]. now apply (W 1%nat).
  - destruct (length (hd [] rows) =? m)%nat; [|discriminate]. intros H. apply some_inj in H. destruct (fit_sets _ _ _ _ _ _ _ _ _ _ H) as (A & B & C). split; [exact A|]. split; [exact B|]. now apply (W m).
  - intros H. apply some_inj in H. destruct (fit_sets _ _ _ _ _ _ _ _ _ _ H) as (A & B & C). split; [exact A|]. split; [exact B|]. now apply (W 1%nat).
Qed.
Theorem recorded f o a st y : in_scope f a -> fine f a -> known_types a -> right_width f a -> fst (icalibrate rnd f o a) = Ok (st, y) ->
  let ps := i_patches (snd (icalibrate rnd f o a)) in
  st_n_rounds st = length ps /\ (Z.of_nat (length ps) <= a_rounds a)%Z /\
  forall k p, In (k, p) ps -> In (k_tau k) (a_types a) /\ (k_g k < columns a)%nat /\ on_grid (a_n a) (k_v k) /\ (k_c k < width (kind_of f))%nat.
Proof.
  intros S F K R H. destruct (calibrate_fine rnd T f o a S F K R) as (l & pt & taus & q & ps & E & Ep & B & Ef & Er). rewrite Er in *. cbn [fst snd] in *. destruct q as [st'|e]; [|discriminate].
  assert (st' = st) as ->. { cbn [answer] in H. destruct (given (a_test_groups a) || given (a_test_values a)); [destruct (iapply _ _ _ _ _); congruence|congruence]. }
  destruct (fit_object_sets _ _ _ _ _ _ _ _ _ Ef) as (X & Y & Z). cbn [i_patches finished with_patches]. split; [exact X|]. split.
  { destruct F as (_ & (C1 & _) & _). lia. }
  intros k p I. destruct (Z k p I) as (Z1 & Z2 & Z3 & Z4). rewrite start_groups_width in Z2. destruct (bucket_types (a_types a) K) as (taus' & B' & TI & _). rewrite B in B'. injection B' as <-.
  split; [now apply TI|]. split; [exact Z2|]. split; [|exact Z4]. apply (In_nth _ _ 0) in Z3. destruct Z3 as (j & Hj & <-). unfold get_buckets in Hj. rewrite linspace_length in Hj. exists j. split; [exact Hj|]. now apply bucket_centre.
Qed.
(** BatchMVP with multiplicative patches *)
Lemma so_far_multiplicative c cfg n groups vgroups scores vscores s : ptype_of cfg = Multiplicative -> l_patches s = [] ->
  so_far (batch_mvp c) cfg n groups vgroups scores vscores s = [] /\
  match rounds (batch_mvp c) cfg n groups vgroups scores vscores s with Raise e => e = NotImplementedErr | Break s' => s' = s | _ => False end.
Proof.
  intros M P. destruct n as [|n]; cbn [so_far rounds]; [now split|]. unfold round. destruct (choose (batch_mvp c) cfg groups scores (l_values s)) as [k|]; [|now split].
  unfold patch_for. rewrite M. cbn [m_patch batch_mvp mvp_patch]. now split.
Qed.
Theorem multiplicative_mvp o a : in_scope Mvp a -> fine Mvp a -> known_types a -> a_ptype a = Some Multiplicative ->
  i_patches (snd (icalibrate rnd Mvp o a)) = [] /\
  (fst (icalibrate rnd Mvp o a) = Err NotImplementedErr \/ exists st y, fst (icalibrate rnd Mvp o a) = Ok (st, y) /\ st_n_rounds st = O /\ (forall x, y = Some x -> x = a_test_values a)).
Proof.
  intros S F K M. assert (R : right_width Mvp a) by (intros ? ? X; discriminate). destruct (calibrate_fine rnd T Mvp o a S F K R) as (l & pt & taus & q & ps & E & Ep & B & Ef & Er).
  rewrite M in Ep. injection Ep as <-. rewrite Er. cbn [fst snd finished with_patches i_patches]. revert Ef. unfold fit_object. destruct (start_values rnd Mvp a (length l)) as [v|rows]; [|discriminate].
  intros E1. apply some_inj in E1. unfold fit in E1. cbv zeta in E1. apply pair_equal_spec in E1. destruct E1 as [E1 E2].
  match type of E2 with so_far ?m ?cfg ?n ?g ?vg ?sc ?vsc ?s = _ => destruct (so_far_multiplicative (a_coverage a) cfg n g vg sc vsc s eq_refl eq_refl) as [X Y];
    change (rounds (batch_mvp (a_coverage a)) cfg n g vg sc vsc s) with (run m cfg n g vg sc vsc (l_values s) (l_val_values s)) in Y end.
  rewrite X in E2. subst ps. split; [reflexivity|]. cbn [l_values l_val_values start] in Y.
  match type of E1 with match ?z with _ => _ end = _ => destruct z as [s|s|e|s]; try contradiction end.
  - subst s q. right. cbn [answer]. destruct (a_test_groups a) as [g|], (a_test_values a) as [w|]; cbn [given orb]; eexists; eexists; (split; [reflexivity|]); (split; [reflexivity|]); now intros x [= <-].
  - subst e q. left. reflexivity.
Qed.
End Results.
