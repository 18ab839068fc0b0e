From Coq Require Import List Arith ZArith QArith Qabs Bool Lia Lqa.
From Verif Require Import Lib QuantModel QuantProofs ConfRegModel ConfRegProofs ConfClassModel ConfClassProofs MultiModel MultiSpec MultiSpec2 MultiSpec3 MultiProofs MultiProofs2 MultiProofs5 OneShotModel OneShotSpec OneShotProofs OneShotProofs2 IterModel IterSpec IterProofs IterProofs2 IterProofs3 IterProofs5 IterProofs6 IterProofs7 MvpSetModel MvpSetSpec MvpSetProofs.
Import ListNotations.
Open Scope Q_scope.

(** ---- thresholds stay on the grid ---- *)
Definition whole (n : nat) (p : Q) : Prop := exists z, p * inject_Z (Z.of_nat (n - 1)) == inject_Z z.
Lemma grid_whole n x : (2 <= n)%nat -> (on_grid n x <-> whole n x /\ in_unit x).
Proof.
  intros N. assert (P : 0 < inject_Z (Z.of_nat (n - 1))) by (unfold Qlt; cbn; lia). set (d := inject_Z (Z.of_nat (n - 1))) in *. split.
  - intros (j & Hj & E). unfold centre in E. fold d in E. assert (E2 : x * d == inject_Z (Z.of_nat j)) by (rewrite E; field; lra). split; [exists (Z.of_nat j); exact E2|]. split; rewrite E.
    + apply Qle_shift_div_l; [exact P|]. setoid_replace (0 * d) with (inject_Z 0) by ring. rewrite <- Zle_Qle. lia.
    + apply Qle_shift_div_r; [exact P|]. setoid_replace (1 * d) with d by ring. unfold d. rewrite <- Zle_Qle. lia.
  - intros [(z & E) [L U]]. fold d in E. assert (Z0 : (0 <= z)%Z). { rewrite Zle_Qle, <- E. apply Qmult_le_0_compat; [exact L|lra]. }
    assert (Z1 : (z <= Z.of_nat (n - 1))%Z). { rewrite Zle_Qle, <- E. fold d. setoid_replace d with (1 * d) at 2 by ring. apply Qmult_le_compat_r; lra. }
    exists (Z.to_nat z). split; [lia|]. unfold centre. fold d. rewrite Z2Nat.id by exact Z0. rewrite <- E. field. lra.
Qed.
Lemma shift_whole n p : (2 <= n)%nat -> In p (mvp_shifts n) -> whole n p.
Proof.
  intros N I. apply (In_nth _ _ 0) in I. destruct I as (i & Hi & E). destruct (shift_grid n 0 N) as [L _]; [lia|]. rewrite L in Hi. destruct (shift_grid n i N Hi) as [_ G]. rewrite E in G. eexists. exact G.
Qed.
Lemma moved_grid n w e row : (2 <= n)%nat -> e == 1 -> forall ps x y, (forall k p, In (k, p) ps -> whole n p) -> moved n w Additive e row ps x y -> on_grid n x -> on_grid n y.
Proof.
  intros N E ps x y W M. induction M as [x|k p ps x z y H1 H2 M IH]; intros G; [exact G|]. apply IH; [intros k' p' I; apply (W k' p'); now right|].
  assert (SD : selected n (in_columns w k) row x \/ ~ selected n (in_columns w k) row x). { assert (MB := MultiProofs.membership n (in_columns w k) row x ltac:(lia)). destruct (b1 n (in_columns w k) row x); [left; now apply MB|right; intros X; apply MB in X; discriminate]. } destruct SD as [S|S]; [|now rewrite (H2 S)]. destruct (H1 S) as [U C]. apply (grid_whole n z N). split; [|exact U].
  apply (grid_whole n x N) in G. destruct G as [(a & Ea) _]. destruct (W k p (or_introl eq_refl)) as (b & Eb). cbn [target] in C. destruct C as (C1 & C2 & C3).
  assert (T : (x + e * p) * inject_Z (Z.of_nat (n - 1)) == inject_Z (a + b)). { rewrite inject_Z_plus, <- Ea, <- Eb, E. ring. }
  destruct (Qlt_le_dec (x + e * p) 0) as [L|L]; [exists 0%Z; rewrite (C2 L); ring|]. destruct (Qlt_le_dec 1 (x + e * p)) as [L'|L']; [exists (Z.of_nat (n - 1)); rewrite (C3 L'); ring|].
  exists (a + b)%Z. rewrite (C1 (conj L L')). exact T.
Qed.
Lemma so_far_all {V} (m : method V) cfg (P : key * Q -> Prop) groups vgroups scores vscores : (forall values k p, patch_for m cfg groups scores values k = Ok (Some p) -> P (k, p)) ->
  forall n s, (forall q, In q (l_patches s) -> P q) -> forall q, In q (so_far m cfg n groups vgroups scores vscores s) -> P q.
Proof.
  intros H. induction n as [|n IH]; intros s Hs q I; [exact (Hs q I)|]. cbn [so_far] in I. destruct (round m cfg groups vgroups scores vscores s) as [s'|s'|e|s'] eqn:R; try exact (Hs q I).
  apply (IH s'); [|exact I]. clear q I. unfold round in R. destruct (choose m cfg groups scores (l_values s)) as [k|]; [|discriminate]. destruct (patch_for m cfg groups scores (l_values s) k) as [[p|]|e] eqn:Ep; try discriminate.
  assert (PP : forall q, In q (l_patches s ++ [(k, p)]) -> P q). { intros q I. apply in_app_iff in I. destruct I as [I|[<-|[]]]; [exact (Hs q I)|exact (H _ _ _ Ep)]. }
  cbv zeta in R. repeat match type of R with context [if ?b then _ else _] => destruct b | context [match ?b with Some _ => _ | None => _ end] => destruct b end; try discriminate; injection R as <-; exact PP.
Qed.
Section Grid.
Variable rnd : random.
Hypothesis T : tame rnd.
Lemma patches_whole o a k p : in_scope Mvp a -> fine Mvp a -> known_types a -> (2 <= a_n a)%nat -> In (k, p) (i_patches (snd (icalibrate rnd Mvp o a))) -> a_ptype a = Some Additive /\ whole (a_n a) p.
Proof.
  intros S F K N I. assert (R : right_width Mvp a) by (intros ? ? X; discriminate).
  destruct (calibrate_fine rnd T Mvp o a S F K R) as (l & pt & taus & q & ps & E & Ep & B & Ef & Er). destruct pt; [|destruct (multiplicative_mvp rnd T o a S F K Ep) as [X _]; rewrite X in I; destruct I].
  split; [exact Ep|]. rewrite Er in I. cbn [snd finished with_patches i_patches] in I. revert Ef. unfold fit_object. destruct (start_values rnd Mvp a (length l)) as [v|rows]; [|discriminate].
  intros E1. apply some_inj in E1. unfold fit in E1. cbv zeta in E1. apply pair_equal_spec in E1. destruct E1 as [_ E2]. rewrite <- E2 in I.
  apply (so_far_all _ _ (fun q => whole (a_n a) (snd q))) in I; [exact I| |intros q' []].
  intros values k' p' H. unfold patch_for in H. cbn [m_patch batch_mvp ptype_of config_of n_buckets] in H.
  match type of H with mvp_patch _ _ _ ?ss ?xs ?bs = _ => destruct (mvp_patch_best (a_n a) (a_coverage a) ss xs bs N) as (d & Ed & Id & _) end. rewrite Ed in H. injection H as <-. now apply shift_whole.
Qed.
Theorem stays_on_grid o a g v out : reached rnd Mvp o -> in_scope Mvp a -> fine Mvp a -> known_types a -> (2 <= a_n a)%nat -> a_eta a == 1 -> (forall w, g = Some w -> (0 < length (g_rows w))%nat) ->
  (forall x, v = Some x -> (0 < points x)%nat /\ axes x = 1%nat /\ all_entries (on_grid (a_n a)) x) ->
  iapply rnd Mvp (snd (icalibrate rnd Mvp o a)) g v = Ok (Some out) -> axes out = 1%nat /\ all_entries (on_grid (a_n a)) out.
Proof.
  intros RO S F K N ET GP VP H. set (o' := snd (icalibrate rnd Mvp o a)) in *. assert (R : right_width Mvp a) by (intros ? ? X; discriminate).
  assert (RO' : reached rnd Mvp o') by (apply again; [exact RO|lia]).
  assert (FR : forall x, v = Some x -> (0 < points x)%nat /\ full_rows x /\ (Mvp = Mvp -> axes x = 1%nat)). { intros x E. destruct (VP x E) as (A & B & _). split; [exact A|]. split; [|intros _; exact B]. destruct x; [exact I|discriminate]. }
  destruct (apply_checks rnd T Mvp o' g v RO' (fun m E => ltac:(discriminate E)) GP FR) as (X1 & X2 & X3 & X4).
  assert (NN : ~ (g = None /\ v = None)) by (intros [-> ->]; rewrite (X1 eq_refl eq_refl) in H; discriminate).
  destruct (i_patches o') as [|p0 ps0] eqn:EP; [rewrite (X2 eq_refl NN) in H; injection H as ->; split; apply (VP out eq_refl)|].
  assert (NE : p0 :: ps0 <> []) by discriminate. destruct (X3 NE) as [Y1 Y2]. assert (VF : forall x, v = Some x -> values_fine Mvp x).
  { intros x E. destruct (VP x E) as (A & B & C). split; [exact B|]. destruct x as [xs|]; [|discriminate]. cbn in *. revert C. apply Forall_impl. intros q Hq. now apply grid_whole in Hq. }
  assert (PG : forall w, g = Some w -> proper w). { intros w E. unfold proper. destruct (g_two_axes w) eqn:E1, (g_bool w) eqn:E2; try (split; reflexivity); exfalso; rewrite (Y2 w E) in H; try discriminate; unfold proper; rewrite E1, E2; intros [? ?]; discriminate. }
  specialize (X4 NE NN VF PG). cbv zeta in X4. set (x := init_values rnd Mvp v (match g with Some w => length (g_rows w) | None => 0%nat end)) in *. set (w := groups_for g (points x)) in *. destruct X4 as [X5 X6].
  assert (LL : length (g_rows w) = points x \/ length (g_rows w) = 1%nat).
  { destruct (Nat.eq_dec (length (g_rows w)) (points x)) as [L|L]; [now left|]. right. destruct (Nat.eq_dec (length (g_rows w)) 1) as [L'|L']; [exact L'|]. rewrite (X5 L L') in H. destruct (points x =? 1)%nat; discriminate. }
  destruct (X6 LL) as (out' & n & pt & e & E & En & Ept & Ee & Ax & Px & _ & M). rewrite H in E. injection E as <-.
  destruct (proj2 (proj2 (proj2 (checks rnd T Mvp o a S))) F K R) as (Q1 & Q2 & Q3 & _). fold o' in Q1, Q2, Q3. rewrite Q1 in En. injection En as <-. rewrite Q2 in Ee. injection Ee as <-. rewrite Q3 in Ept.
  assert (WH : forall k p, In (k, p) (p0 :: ps0) -> whole (a_n a) p) by (intros k p I; rewrite <- EP in I; apply (patches_whole o a k p S F K N I)).
  assert (AD : pt = Additive). { destruct p0 as [k p]. destruct (patches_whole o a k p S F K N) as [A _]; [fold o'; rewrite EP; now left|]. rewrite A in Ept. now injection Ept. }
  subst pt. assert (GX : exists xs, x = Vec xs /\ Forall (on_grid (a_n a)) xs).
  { unfold x. destruct v as [[xs|rows]|]; cbn [init_values].
    - exists xs. split; [reflexivity|]. destruct (VP _ eq_refl) as (_ & _ & C). exact C.
    - destruct (VP _ eq_refl) as (_ & C & _). discriminate C.
    - eexists. split; [reflexivity|]. apply Forall_forall. intros q I. apply repeat_spec in I. subst q. exists O. split; [lia|]. unfold centre, Qdiv. ring. }
  destruct GX as (xs & Exs & GX). rewrite Exs in M, Ax, Px. destruct out as [ys|rows]; [|contradiction]. cbn in Px. split; [reflexivity|]. cbn [all_entries]. apply Forall_forall. intros y Iy. apply In_nth_error in Iy. destruct Iy as (i & Ei).
  assert (Li : (i < length xs)%nat) by (rewrite <- Px; apply nth_error_Some; congruence). destruct (nth_error xs i) as [q|] eqn:Eq; [|apply nth_error_None in Eq; lia]. destruct (M i q Eq) as (b & Eb & MV).
  assert (y = b) by congruence. subst b. apply (moved_grid _ _ _ _ N ET _ _ _ WH MV). rewrite Forall_forall in GX. apply GX. exact (nth_error_In _ _ Eq).
Qed.

(** ---- how many labels of a group are in their sets ---- *)
Lemma grid_bucketed n who xs : Forall (on_grid n) xs -> bucketed n who xs.
Proof.
  intros G i x _ E. rewrite Forall_forall in G. destruct (G x (nth_error_In _ _ E)) as (j & Hj & Ej). exists j. split; [exact Hj|]. unfold within. rewrite Ej. setoid_replace (centre n j - centre n j) with 0 by ring. rewrite Qabs_pos by lra. lra.
Qed.
Lemma covered_count who : forall ss xs, length ss = length xs -> n_where (both who (zip_with (fun s th => Qle_bool s th) ss xs)) == n_covered who ss xs.
Proof.
  unfold both, zip_with. induction who as [|b who IH]; intros [|s ss] [|x xs] L; try discriminate; try reflexivity. cbn [combine map fst snd n_covered]. rewrite <- (IH ss xs (eq_add_S _ _ L)). unfold n_where. cbn [filter].
  destruct b; cbn [andb]; [|ring]. destruct (Qlt_le_dec x s) as [H|H].
  - assert (E : Qle_bool s x = false). { destruct (Qle_bool s x) eqn:E; [|reflexivity]. apply Qleb_true in E. lra. } rewrite E. ring.
  - rewrite (proj2 (Qleb_true _ _) H). cbn [length]. rewrite Nat2Z.inj_succ. unfold Z.succ. rewrite inject_Z_plus. ring.
Qed.
Theorem coverage_of_sets o a v t ss w xs rows ys table g e : reached rnd Mvp o -> in_scope Mvp a -> fine Mvp a -> known_types a -> (2 <= a_n a)%nat -> a_eta a == 1 ->
  (forall x, v = Some x -> (0 < points x)%nat /\ axes x = 1%nat /\ all_entries (on_grid (a_n a)) x) ->
  t_array t = Vec ss -> good_targets Plain t -> (0 < length ss)%nat -> (forall m, w = Some m -> proper m /\ length (g_rows m) = length ss) ->
  Forall2 (fun ry s => nth_error (fst ry) (snd ry) = Some s) (combine rows ys) ss -> length rows = length xs -> length ys = length xs ->
  let o' := snd (icalibrate rnd Mvp o a) in
  iapply rnd Mvp o' w v = Ok (Some (Vec xs)) -> ierror rnd Mvp o' t w (Some (Vec xs)) (a_n a) = Ok table -> (g < g_width (groups_for w (length ss)))%nat -> nth 0 (nth g table []) None = Some e ->
  exists sets inside, conformal_set (Mat rows) (Vec xs) = Ok sets /\ is_in ys sets = Ok inside /\
    let who := members_of g (groups_for w (length ss)) in
    let gap := a_coverage a * n_where who - n_where (both who inside) in gap * gap <= e * (n_where who * n_where who).
Proof.
  intros RO S F K N ET VP E G LS PW FS LR LY o' H1 H2 HG HE. assert (R : right_width Mvp a) by (intros ? ? X; discriminate).
  assert (LX : length xs = length ss). { apply Forall2_len in FS. rewrite combine_length in FS. lia. }
  destruct (stays_on_grid o a w v (Vec xs) RO S F K N ET) as [_ OG]; [|exact VP|exact H1|]. { intros m ->. destruct (PW m eq_refl) as [_ ->]. exact LS. }
  cbn [all_entries] in OG. destruct (proj2 (sets_meaning (Mat rows) (Vec xs)) rows xs eq_refl eq_refl LR) as (sets & ES & _ & _). exists sets, (zip_with (fun s th => Qle_bool s th) ss xs). split; [exact ES|]. split; [now apply (in_sets rows)|].
  intros who gap. destruct (proj2 (proj2 (proj2 (checks rnd T Mvp o a S))) F K R) as (_ & _ & _ & Q & _). specialize (Q eq_refl).
  assert (X := group_error rnd T Mvp o' t ss w xs (a_n a) (a_coverage a) table g e I G E LS ltac:(lia) PW). unfold gap. rewrite covered_count by (symmetry; exact LX).
  apply X; try assumption; [|intros _; exact Q|now apply grid_bucketed]. split; [reflexivity|]. cbn. revert OG. apply Forall_impl. intros q Hq. now apply grid_whole in Hq.
Qed.
End Grid.
