From Coq Require Import List Arith ZArith QArith Qround Qminmax Qabs Bool Lia Lqa.
From Verif Require Import Lib QuantModel QuantSpec QuantProofs ConfRegModel ConfRegProofs ConfClassModel ConfClassProofs ConfClassProofs2 ConfClassSpec ConfClassProofs3 MultiModel MultiSpec MultiProofs.
Import ListNotations.
Open Scope Q_scope.

(** ---- C36 ---- *)
Lemma qclip_clipped t : clipped t (qclip 0 1 t).
Proof.
  unfold clipped, qclip, in_unit. repeat split; intros H.
  - destruct (Q.max_spec t 0) as [[? E]|[? E]], (Q.min_spec 1 (Qmax t 0)) as [[? F]|[? F]]; rewrite F; lra.
  - destruct (Q.max_spec t 0) as [[? E]|[? E]], (Q.min_spec 1 (Qmax t 0)) as [[? F]|[? F]]; rewrite F; lra.
  - destruct (Q.max_spec t 0) as [[? E]|[? E]], (Q.min_spec 1 (Qmax t 0)) as [[? F]|[? F]]; rewrite F; lra.
Qed.
Lemma clipped_eq t t' y : t == t' -> clipped t y -> clipped t' y.
Proof.
  unfold clipped, in_unit. intros E (A & B & C). repeat split; intros H.
  - rewrite <- E. apply A. rewrite E. exact H.
  - apply B. now rewrite E.
  - apply C. now rewrite E.
Qed.
Lemma patched_clipped pt eta p x : clipped (target pt eta p x) (patched pt eta p x).
Proof.
  destruct pt; cbn [target patched]; [apply qclip_clipped|]. eapply clipped_eq; [|apply qclip_clipped]. ring.
Qed.
Lemma scalar_b m : scalar_method m -> m_b m = b1 /\ m_set m = set1 /\ m_val m = (fun _ x => x).
Proof. intros [->|[c ->]]; auto. Qed.

Theorem scalar_patch : forall m cfg k p groups values i row x,
  scalar_method m -> (0 < n_buckets cfg)%nat -> nth_error groups i = Some row -> nth_error values i = Some x ->
  exists y, nth_error (apply_patches m cfg [(k, p)] groups values) i = Some y /\
    (~ selected (n_buckets cfg) k row x -> y = x) /\
    (selected (n_buckets cfg) k row x -> in_unit y /\ clipped (target (ptype_of cfg) (eta cfg) p x) y).
Proof.
  intros m cfg k p groups values i row x M N G X. destruct (scalar_b m M) as (Eb & Es & _).
  unfold apply_patches. rewrite replay_cons. unfold replay. cbn [fold_left]. unfold apply_one. rewrite zip_nth_error, G, X. eexists. split; [reflexivity|].
  cbn [fst snd]. unfold apply_patch1. rewrite Eb, Es. rewrite <- (membership _ k row x N). destruct (b1 (n_buckets cfg) k row x).
  - split; [congruence|]. intros _. unfold set1. split; [apply patched_range|apply patched_clipped].
  - split; [reflexivity|discriminate].
Qed.
Theorem scalar_lengths : forall (m : method Q) cfg ps groups values, length groups = length values -> length (apply_patches m cfg ps groups values) = length values.
Proof. intros. now apply replay_length. Qed.
Lemma replay_nth_scalar m cfg ps : scalar_method m -> forall groups values i row x, nth_error groups i = Some row -> nth_error values i = Some x ->
  exists y, nth_error (replay m cfg ps groups values) i = Some y /\ (in_unit x -> in_unit y).
Proof.
  intros M. destruct (scalar_b m M) as (Eb & Es & _). induction ps as [|p ps IH]; intros groups values i row x G X; [exists x; auto|].
  rewrite replay_cons. destruct (IH groups (apply_one m cfg groups values p) i row (apply_patch1 m cfg (fst p) (snd p) row x)) as (y & Y & U).
  - exact G.
  - unfold apply_one. now rewrite zip_nth_error, G, X.
  - exists y. split; [exact Y|]. intros Ux. apply U. unfold apply_patch1. destruct (m_b m (n_buckets cfg) (fst p) row x); [|exact Ux].
    rewrite Es. apply patched_range.
Qed.
Theorem scalar_unit : forall m cfg ps groups values, scalar_method m -> length groups = length values ->
  Forall in_unit values -> Forall in_unit (apply_patches m cfg ps groups values).
Proof.
  intros m cfg ps groups values M L F. unfold apply_patches. rewrite Forall_forall in *. intros y Hy. apply In_nth_error in Hy. destruct Hy as [i Hi].
  assert (Li : (i < length values)%nat). { rewrite <- (replay_length m cfg ps groups values L). apply nth_error_Some. congruence. }
  destruct (nth_error values i) as [x|] eqn:Ex; [|apply nth_error_None in Ex; lia].
  destruct (nth_error groups i) as [row|] eqn:Eg; [|apply nth_error_None in Eg; lia].
  destruct (replay_nth_scalar m cfg ps M groups values i row x Eg Ex) as (z & Ez & U). replace y with z by congruence. apply U. apply F. eapply nth_error_In; eassumption.
Qed.

Theorem top_patch : forall cfg k p groups values i row xs,
  (0 < n_buckets cfg)%nat -> nth_error groups i = Some row -> nth_error values i = Some xs -> (0 < length xs)%nat ->
  exists ys, nth_error (apply_patches top_label cfg [(k, p)] groups values) i = Some ys /\
    (~ (selected (n_buckets cfg) k row (nth (k_c k) xs 0) /\ top_label_is xs (k_c k)) -> ys = xs) /\
    (selected (n_buckets cfg) k row (nth (k_c k) xs 0) /\ top_label_is xs (k_c k) ->
       length ys = length xs /\ (forall j, j <> k_c k -> nth j ys 0 = nth j xs 0) /\ in_unit (nth (k_c k) ys 0) /\
       clipped (target (ptype_of cfg) (eta cfg) p (nth (k_c k) xs 0)) (nth (k_c k) ys 0)).
Proof.
  intros cfg k p groups values i row xs N G X Lx.
  unfold apply_patches. rewrite replay_cons. unfold replay. cbn [fold_left]. unfold apply_one. rewrite zip_nth_error, G, X. eexists. split; [reflexivity|].
  cbn [fst snd]. unfold apply_patch1. cbn [m_b m_set top_label]. rewrite <- (membership_top _ k row xs N Lx). destruct (b_top (n_buckets cfg) k row xs) eqn:Eb.
  - split; [congruence|]. intros _. apply (membership_top _ k row xs N Lx) in Eb. destruct Eb as [_ [Lc _]]. unfold set_top.
    split; [apply set_nth_length|]. split; [intros j Hj; apply set_nth_other; auto|].
    rewrite set_nth_same by exact Lc. split; [apply patched_range|apply patched_clipped].
  - split; [reflexivity|discriminate].
Qed.
Lemma replay_nth_top cfg ps : forall groups values i row xs, nth_error groups i = Some row -> nth_error values i = Some xs ->
  exists ys, nth_error (replay top_label cfg ps groups values) i = Some ys /\ length ys = length xs /\ (Forall in_unit xs -> Forall in_unit ys).
Proof.
  induction ps as [|p ps IH]; intros groups values i row x G X; [exists x; auto|].
  rewrite replay_cons. destruct (IH groups (apply_one top_label cfg groups values p) i row (apply_patch1 top_label cfg (fst p) (snd p) row x)) as (y & Y & Ly & U).
  - exact G.
  - unfold apply_one. now rewrite zip_nth_error, G, X.
  - exists y. split; [exact Y|]. unfold apply_patch1 in *. cbn [m_b m_set top_label] in *. unfold set_top in *. split.
    + rewrite Ly. destruct (b_top _ _ _ _); [apply set_nth_length|reflexivity].
    + intros Ux. apply U. destruct (b_top _ _ _ _); [|exact Ux]. rewrite Forall_forall in *. intros z Hz. apply (In_nth _ _ 0) in Hz. destruct Hz as (j & Hj & <-).
      rewrite set_nth_length in Hj. destruct (Nat.eq_dec j (k_c (fst p))) as [->|Nj].
      * rewrite set_nth_same by exact Hj. apply patched_range.
      * rewrite set_nth_other by auto. apply Ux. now apply nth_In.
Qed.
Theorem top_unit : forall cfg ps groups values, length groups = length values ->
  Forall (Forall in_unit) values -> Forall (Forall in_unit) (apply_patches top_label cfg ps groups values).
Proof.
  intros cfg ps groups values L F. unfold apply_patches. rewrite Forall_forall in *. intros y Hy. apply In_nth_error in Hy. destruct Hy as [i Hi].
  assert (Li : (i < length values)%nat). { rewrite <- (replay_length top_label cfg ps groups values L). apply nth_error_Some. congruence. }
  destruct (nth_error values i) as [x|] eqn:Ex; [|apply nth_error_None in Ex; lia].
  destruct (nth_error groups i) as [row|] eqn:Eg; [|apply nth_error_None in Eg; lia].
  destruct (replay_nth_top cfg ps groups values i row x Eg Ex) as (z & Ez & _ & U). replace y with z by congruence. apply U. apply F. eapply nth_error_In; eassumption.
Qed.

(** additive patches move in their direction and not further than asked *)
Theorem additive_direction : forall m cfg k p groups values i row x y, scalar_method m -> ptype_of cfg = Additive -> 0 <= eta cfg -> in_unit x ->
  nth_error groups i = Some row -> nth_error values i = Some x -> nth_error (apply_patches m cfg [(k, p)] groups values) i = Some y ->
  (0 <= p -> x <= y <= x + eta cfg * p) /\ (p <= 0 -> x + eta cfg * p <= y <= x).
Proof.
  intros m cfg k p groups values i row x y M Pt He [U1 U2] G X Y. destruct (scalar_b m M) as (Eb & Es & _).
  unfold apply_patches in Y. rewrite replay_cons in Y. unfold replay in Y. cbn [fold_left] in Y. unfold apply_one in Y. rewrite zip_nth_error, G, X in Y. injection Y as <-.
  cbn [fst snd]. unfold apply_patch1. rewrite Eb, Es, Pt. unfold set1, patched.
  destruct (b1 (n_buckets cfg) k row x).
  - destruct (qclip_clipped (x + eta cfg * p)) as (A & B & C). unfold in_unit in A.
    split; intros Hp.
    + assert (0 <= eta cfg * p) by (apply Qmult_le_0_compat; lra).
      destruct (Qlt_le_dec 1 (x + eta cfg * p)) as [H1|H1]; [rewrite (C H1); lra|rewrite A by lra; lra].
    + assert (0 <= eta cfg * - p) by (apply Qmult_le_0_compat; lra).
      destruct (Qlt_le_dec (x + eta cfg * p) 0) as [H1|H1]; [rewrite (B H1); lra|rewrite A by lra; lra].
  - split; intros Hp.
    + assert (0 <= eta cfg * p) by (apply Qmult_le_0_compat; lra). lra.
    + assert (0 <= eta cfg * - p) by (apply Qmult_le_0_compat; lra). lra.
Qed.

(** ---- C39: algebra of a patch ---- *)
Lemma n_where_nonneg bs : 0 <= n_where bs.
Proof. unfold n_where. rewrite <- (Zle_Qle 0). lia. Qed.
Lemma n_where_cons b bs : n_where (b :: bs) == of_bool b + n_where bs.
Proof.
  unfold n_where. destruct b; cbn [filter of_bool length]; [|lra]. rewrite Nat2Z.inj_succ. unfold Z.succ. rewrite inject_Z_plus. change (inject_Z 1) with 1. lra.
Qed.
Lemma sum_of_bools bs : qsum (map of_bool bs) == n_where bs.
Proof. induction bs as [|b bs IH]; [reflexivity|]. rewrite n_where_cons. cbn [map]. rewrite qsum_cons, IH. lra. Qed.
Lemma sum_masked bs : forall xs, qsum (zip_with (fun x b => x * of_bool b) xs bs) == sum_where bs xs.
Proof.
  induction bs as [|b bs IH]; intros [|x xs]; try reflexivity. rewrite zip_cons, qsum_cons, IH. cbn [sum_where]. destruct b; cbn [of_bool]; lra.
Qed.
Lemma nQ_pos {A} (l : list A) : l <> [] -> 0 < inject_Z (Z.of_nat (length l)).
Proof. intros H. rewrite <- (Zlt_Qlt 0). destruct l; [congruence|cbn; lia]. Qed.
Lemma prob_of_spec bs : bs <> [] -> prob_of bs * inject_Z (Z.of_nat (length bs)) == n_where bs.
Proof.
  intros H. unfold prob_of, qmean, qlen. rewrite map_length, sum_of_bools. pose proof (nQ_pos bs H). field. lra.
Qed.
Lemma prob_pos bs : bs <> [] -> (0 < prob_of bs <-> 0 < n_where bs).
Proof.
  intros H. rewrite (mul_lt 0 (prob_of bs) (inject_Z (Z.of_nat (length bs))) (nQ_pos bs H)), (prob_of_spec bs H). now rewrite Qmult_0_l.
Qed.
Lemma prob_nonneg bs : 0 <= prob_of bs.
Proof.
  destruct bs as [|b bs]; [vm_compute; discriminate|]. set (l := b :: bs). destruct (Qlt_le_dec (prob_of l) 0) as [L|L]; [|exact L].
  assert (H : l <> []) by discriminate. apply (mul_lt _ _ _ (nQ_pos l H)) in L. rewrite (prob_of_spec l H) in L. pose proof (n_where_nonneg l). lra.
Qed.
Lemma prob_le_1 bs : prob_of bs <= 1.
Proof.
  destruct bs as [|b bs]; [vm_compute; discriminate|]. set (l := b :: bs). destruct (Qlt_le_dec 1 (prob_of l)) as [L|L]; [|exact L].
  assert (H : l <> []) by discriminate. apply (mul_lt _ _ _ (nQ_pos l H)) in L. rewrite (prob_of_spec l H) in L.
  assert (n_where l <= inject_Z (Z.of_nat (length l))); [|lra]. unfold n_where. rewrite <- Zle_Qle. apply inj_le. clear. induction l as [|[] l IH]; cbn; lia.
Qed.
Lemma mean_on_spec bs xs : length bs = length xs -> 0 < prob_of bs -> mean_on xs bs * n_where bs == sum_where bs xs.
Proof.
  intros L P. unfold mean_on. assert (H : bs <> []) by (intros ->; vm_compute in P; discriminate).
  rewrite <- (prob_of_spec bs H). unfold qmean, qlen. rewrite zip_length by auto. rewrite sum_masked, <- L. pose proof (nQ_pos bs H). field. split; lra.
Qed.

Lemma sum_where_affine bs : forall xs ys a b, length bs = length xs -> length xs = length ys ->
  (forall i, nth i bs false = true -> nth i ys 0 == a * nth i xs 0 + b) -> sum_where bs ys == a * sum_where bs xs + b * n_where bs.
Proof.
  induction bs as [|t bs IH]; intros [|x xs] [|y ys] a b L1 L2 H; cbn in L1, L2; try discriminate.
  - cbn [sum_where]. change (n_where []) with 0. lra.
  - rewrite n_where_cons. cbn [sum_where]. rewrite (IH xs ys a b) by (try lia; intros i Hi; exact (H (S i) Hi)).
    destruct t; cbn [of_bool]; [|ring]. specialize (H O eq_refl). cbn [nth] in H. rewrite H. ring.
Qed.

(** the bias of the selected points shrinks by the factor 1 - eta *)
Lemma members_length {V} (m : method V) cfg k groups values : length groups = length values -> length (members m cfg k groups values) = length values.
Proof. intros L. unfold members. rewrite zip_length by exact L. exact L. Qed.
Lemma column_len c scores : length (column_of c scores) = length scores.
Proof. unfold column_of. apply map_length. Qed.

Lemma mean_bias_lemma cfg k p groups scores values : (0 < n_buckets cfg)%nat -> values <> [] ->
  length groups = length values -> length scores = length values ->
  patch_for multicalibrator cfg groups scores values k = Ok (Some p) -> no_clip cfg k p groups values ->
  let bs := members multicalibrator cfg k groups values in
  sum_where bs (apply_one multicalibrator cfg groups values (k, p)) - sum_where bs (column_of (k_c k) scores) ==
  (1 - eta cfg) * (sum_where bs values - sum_where bs (column_of (k_c k) scores)).
Proof.
  intros N NE Lg Ls Ep NC bs.
  assert (Lb : length bs = length values) by (apply members_length; exact Lg).
  assert (NEb : bs <> []) by (intros E; rewrite E in Lb; destruct values; [congruence|discriminate]).
  assert (Lv : length (apply_one multicalibrator cfg groups values (k, p)) = length values) by (apply apply_one_length; exact Lg).
  assert (Val : forall i, nth i bs false = true -> nth i (apply_one multicalibrator cfg groups values (k, p)) 0 == target (ptype_of cfg) (eta cfg) p (nth i values 0)).
  { intros i Hi. destruct (Nat.lt_ge_cases i (length values)) as [Li|Li]; [|rewrite nth_overflow in Hi by lia; discriminate].
    destruct (nth_error values i) as [x|] eqn:Ex; [|apply nth_error_None in Ex; lia].
    destruct (nth_error groups i) as [row|] eqn:Eg; [|apply nth_error_None in Eg; lia].
    rewrite (nth_error_nth values i 0 Ex).
    assert (Hb : b1 (n_buckets cfg) k row x = true).
    { unfold bs, members in Hi. assert (Z := zip_nth_error (m_b multicalibrator (n_buckets cfg) k) groups values i). rewrite Eg, Ex in Z. now rewrite (nth_error_nth _ _ false Z) in Hi. }
    assert (Z : nth_error (apply_one multicalibrator cfg groups values (k, p)) i = Some (patched (ptype_of cfg) (eta cfg) p x)).
    { unfold apply_one. rewrite zip_nth_error, Eg, Ex. cbn [fst snd]. unfold apply_patch1. cbn [m_b m_set multicalibrator]. now rewrite Hb. }
    rewrite (nth_error_nth _ _ 0 Z). destruct (patched_clipped (ptype_of cfg) (eta cfg) p x) as (A & _). apply A. apply (NC i row x Eg Ex). now apply membership. }
  unfold patch_for in Ep. cbn [m_patch m_val multicalibrator] in Ep. rewrite map_id in Ep. fold bs in Ep.
  unfold mc_patch in Ep. destruct (ptype_of cfg); cbn [target] in Val.
  - injection Ep as <-.
    rewrite (sum_where_affine bs values _ 1 (eta cfg * mc_bias (column_of (k_c k) scores) values bs)) by (try lia; intros i Hi; rewrite (Val i Hi); ring).
    unfold mc_bias. destruct (Qlt_bool 0 (prob_of bs)) eqn:Pb.
    + apply Qltb_true in Pb. pose proof (mean_on_spec bs values Lb Pb) as M1.
      assert (M2 := mean_on_spec bs (column_of (k_c k) scores) ltac:(rewrite column_len; lia) Pb). rewrite <- M1, <- M2. ring.
    + apply Qltb_false in Pb. assert (Z : n_where bs == 0). { pose proof (n_where_nonneg bs). destruct (Qlt_le_dec 0 (n_where bs)) as [C|C]; [apply (prob_pos bs NEb) in C; lra|lra]. }
      assert (Zs : forall xs, sum_where bs xs == 0). { clear -Z. induction bs as [|b bs IH]; intros [|x xs]; cbn [sum_where]; try reflexivity. rewrite n_where_cons in Z. pose proof (n_where_nonneg bs).
        destruct b; cbn [of_bool] in Z; [lra|]. rewrite IH by lra. lra. }
      rewrite !Zs, Z. ring.
  - destruct (Qeq_bool (prob_of bs) 0) eqn:E1; [discriminate|]. destruct (Qeq_bool (mean_on values bs) 0) eqn:E2; [discriminate|].
    cbn [orb] in Ep. injection Ep as <-. apply Qeq_bool_neq in E1, E2.
    assert (Pb : 0 < prob_of bs) by (pose proof (prob_nonneg bs); destruct (Qlt_le_dec 0 (prob_of bs)); [assumption|exfalso; apply E1; lra]).
    set (q := mean_on (column_of (k_c k) scores) bs / mean_on values bs) in *.
    assert (SA := sum_where_affine bs values (apply_one multicalibrator cfg groups values (k, q)) (1 - eta cfg + eta cfg * q) 0 Lb (eq_sym Lv)).
    rewrite SA by (intros i Hi; rewrite (Val i Hi); ring).
    pose proof (mean_on_spec bs values Lb Pb) as M1. assert (M2 := mean_on_spec bs (column_of (k_c k) scores) ltac:(rewrite column_len; lia) Pb). rewrite <- M1, <- M2.
    unfold q. field. exact E2.
Qed.
Theorem mean_bias : forall cfg k p groups scores values, (0 < n_buckets cfg)%nat -> values <> [] ->
  length groups = length values -> length scores = length values ->
  patch_for multicalibrator cfg groups scores values k = Ok (Some p) -> no_clip cfg k p groups values ->
  let bs := members multicalibrator cfg k groups values in
  sum_where bs (apply_patches multicalibrator cfg [(k, p)] groups values) - sum_where bs (column_of (k_c k) scores) ==
  (1 - eta cfg) * (sum_where bs values - sum_where bs (column_of (k_c k) scores)).
Proof. intros. now apply mean_bias_lemma. Qed.

(** squared error *)
Lemma clip_closer y s : in_unit s -> (qclip 0 1 y - s) * (qclip 0 1 y - s) <= (y - s) * (y - s).
Proof.
  intros [S1 S2]. destruct (qclip_clipped y) as (A & B & C). unfold in_unit in A.
  destruct (Qlt_le_dec y 0) as [H|H]; [rewrite (B H); nra|]. destruct (Qlt_le_dec 1 y) as [H1|H1]; [rewrite (C H1); nra|]. rewrite A by lra. lra.
Qed.
Definition shift_where (e d : Q) (b : bool) (x : Q) : Q := if b then qclip 0 1 (x + e * d) else x.
Lemma sq_shift e d bs : forall xs ss, length bs = length xs -> length xs = length ss -> Forall in_unit ss ->
  sq_error (zip_with (shift_where e d) bs xs) ss <= sq_error xs ss + 2 * (e * d) * (sum_where bs xs - sum_where bs ss) + (e * d) * (e * d) * n_where bs.
Proof.
  induction bs as [|b bs IH]; intros [|x xs] [|s ss] L1 L2 F; cbn in L1, L2; try discriminate.
  - change (n_where []) with 0. cbn. lra.
  - rewrite zip_cons. cbn [sq_error sum_where]. rewrite n_where_cons. inversion_clear F as [|? ? Fs F']. specialize (IH xs ss ltac:(lia) ltac:(lia) F').
    unfold shift_where at 1. destruct b; cbn [of_bool]; cbv iota.
    + pose proof (clip_closer (x + e * d) s Fs) as C.
      eapply Qle_trans; [apply Qplus_le_compat; [exact C|exact IH]|]. apply Qle_lteq. right. ring.
    + eapply Qle_trans; [apply Qplus_le_compat; [apply Qle_refl|exact IH]|]. apply Qle_lteq. right. unfold shift_where. ring.
Qed.
Lemma bias_eq bs ss xs : bs <> [] -> length bs = length xs -> length xs = length ss ->
  sum_where bs xs - sum_where bs ss == - (mc_bias ss xs bs * n_where bs).
Proof.
  intros NE L1 L2. unfold mc_bias. destruct (Qlt_bool 0 (prob_of bs)) eqn:Pb.
  - apply Qltb_true in Pb. rewrite <- (mean_on_spec bs xs L1 Pb), <- (mean_on_spec bs ss ltac:(lia) Pb). ring.
  - apply Qltb_false in Pb. assert (Z : n_where bs == 0). { pose proof (n_where_nonneg bs). destruct (Qlt_le_dec 0 (n_where bs)) as [C|C]; [apply (prob_pos bs NE) in C; lra|lra]. }
      assert (Zs : forall xs, sum_where bs xs == 0). { clear -Z. induction bs as [|b bs IH]; intros [|x xs]; cbn [sum_where]; try reflexivity. rewrite n_where_cons in Z. pose proof (n_where_nonneg bs).
        destruct b; cbn [of_bool] in Z; [lra|]. rewrite IH by lra. lra. }
      rewrite !Zs, Z. ring.
Qed.
Lemma sq_patch e bs xs ss : bs <> [] -> length bs = length xs -> length xs = length ss -> Forall in_unit ss ->
  sq_error (zip_with (shift_where e (mc_bias ss xs bs)) bs xs) ss <=
  sq_error xs ss - e * (2 - e) * inject_Z (Z.of_nat (length xs)) * mc_error ss xs bs.
Proof.
  intros NE L1 L2 F. eapply Qle_trans; [apply sq_shift; assumption|]. rewrite (bias_eq bs ss xs NE L1 L2). unfold mc_error.
  assert (P : inject_Z (Z.of_nat (length xs)) * prob_of bs == n_where bs) by (rewrite <- L1, Qmult_comm; now apply prob_of_spec).
  set (d := mc_bias ss xs bs) in *.
  assert (X : e * (2 - e) * inject_Z (Z.of_nat (length xs)) * (prob_of bs * (d * d)) == e * (2 - e) * (d * d) * n_where bs) by (rewrite <- P; ring).
  rewrite X. apply Qle_lteq. right. ring.
Qed.

Lemma apply_one_shift cfg k p groups values : ptype_of cfg = Additive -> length groups = length values ->
  apply_one multicalibrator cfg groups values (k, p) = zip_with (shift_where (eta cfg) p) (members multicalibrator cfg k groups values) values.
Proof.
  intros Pt. unfold apply_one, members, apply_patch1. cbn [fst snd m_b m_set multicalibrator]. rewrite Pt. revert values.
  induction groups as [|g gs IH]; intros [|x xs] L; cbn in L; try discriminate; [reflexivity|]. rewrite !zip_cons. f_equal. apply IH. lia.
Qed.
Lemma mc_loss1_sq xs : forall ss, exists v, mc_loss1 xs ss = Some v /\ v == sq_error xs (column_of 0 ss).
Proof.
  intros ss. exists (qsum (zip_with (fun x s => (x - nth 0 s 0) * (x - nth 0 s 0)) xs ss)). split; [reflexivity|]. revert ss.
  induction xs as [|x xs IH]; intros [|s ss]; try reflexivity. rewrite zip_cons, qsum_cons. cbn [column_of map sq_error]. now rewrite IH.
Qed.
Lemma mc_error_nonneg ss xs bs : 0 <= mc_error ss xs bs.
Proof. unfold mc_error. apply Qmult_le_0_compat; [apply prob_nonneg|]. destruct (Qlt_le_dec (mc_bias ss xs bs) 0); nra. Qed.

Theorem squared_error : forall cfg k p groups scores values, ptype_of cfg = Additive -> values <> [] ->
  length groups = length values -> length scores = length values -> Forall (Forall in_unit) scores -> n_dims cfg = 1%nat -> In k (keys cfg) ->
  patch_for multicalibrator cfg groups scores values k = Ok (Some p) ->
  sq_error (apply_patches multicalibrator cfg [(k, p)] groups values) (column_of 0 scores) <=
  sq_error values (column_of 0 scores) - eta cfg * (2 - eta cfg) * inject_Z (Z.of_nat (length values)) * key_error multicalibrator cfg groups scores values k.
Proof.
  intros cfg k p groups scores values Pt NE Lg Ls F D K Ep.
  assert (Kc : k_c k = O).
  { unfold keys in K. rewrite in_flat_map in K. destruct K as (t & _ & K). rewrite in_flat_map in K. destruct K as (g & _ & K). rewrite in_flat_map in K. destruct K as (v & _ & K).
    rewrite D in K. cbn in K. destruct K as [<-|[]]. reflexivity. }
  assert (Lb : length (members multicalibrator cfg k groups values) = length values) by (apply members_length; exact Lg).
  assert (NEb : members multicalibrator cfg k groups values <> []) by (intros E; rewrite E in Lb; destruct values; [congruence|discriminate]).
  unfold apply_patches. rewrite replay_cons. unfold replay. cbn [fold_left].
  unfold key_error. cbn [m_error m_val multicalibrator]. rewrite map_id, Kc.
  unfold patch_for in Ep. cbn [m_patch m_val multicalibrator] in Ep. rewrite map_id, Kc in Ep. unfold mc_patch in Ep. rewrite Pt in Ep. injection Ep as <-.
  rewrite apply_one_shift by assumption. apply sq_patch; [exact NEb|exact Lb|rewrite column_len; lia|].
  clear -F. unfold column_of. rewrite Forall_forall in *. intros x Hx. apply in_map_iff in Hx. destruct Hx as (s & <- & Hs). specialize (F s Hs). destruct s as [|y s]; [split; vm_compute; discriminate|].
  inversion_clear F. exact H.
Qed.
