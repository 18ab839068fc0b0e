From Coq Require Import List Arith ZArith QArith Qround Qminmax Qabs Bool Lia Lqa.
From Verif Require Import Lib QuantModel QuantSpec QuantProofs ConfRegModel ConfRegProofs ConfClassModel ConfClassProofs ConfClassProofs2 ConfClassSpec ConfClassProofs3 MultiModel MultiSpec MultiProofs MultiProofs2 MultiProofs3.
Import ListNotations.
Open Scope Q_scope.

(** ---- progress of the additive multicalibrator ---- *)
Lemma key_error_nonneg {V} (m : method V) cfg groups scores vs k : m_error m = mc_error -> 0 <= key_error m cfg groups scores vs k.
Proof. intros E. unfold key_error. rewrite E. apply mc_error_nonneg. Qed.
Lemma sq_error_nonneg xs : forall ss, 0 <= sq_error xs ss.
Proof. induction xs as [|x xs IH]; intros [|s ss]; cbn [sq_error]; try lra. specialize (IH ss). destruct (Qlt_le_dec (x - s) 0); nra. Qed.
Lemma sq_error_unit xs : forall ss, Forall in_unit xs -> Forall in_unit ss -> sq_error xs ss <= inject_Z (Z.of_nat (length xs)).
Proof.
  induction xs as [|x xs IH]; intros [|s ss] Fx Fs; cbn [sq_error].
  - vm_compute. discriminate.
  - vm_compute. discriminate.
  - rewrite <- (Zle_Qle 0). lia.
  - inversion_clear Fx as [|? ? [X1 X2] Fx']. inversion_clear Fs as [|? ? [S1 S2] Fs']. specialize (IH ss Fx' Fs'). cbn [length]. rewrite nat_S_Q.
    assert ((x - s) * (x - s) <= 1) by nra. lra.
Qed.
Theorem progress : forall cfg n groups vgroups scores vscores values val_values s,
  ptype_of cfg = Additive -> 0 <= eta cfg <= 1 -> n_dims cfg = 1%nat -> values <> [] -> length groups = length values -> length scores = length values ->
  Forall (Forall in_unit) scores ->
  run multicalibrator cfg n groups vgroups scores vscores values val_values = Break s -> l_patches s <> [] ->
  exists i, (i < length (l_patches s))%nat /\
    let vs := apply_patches multicalibrator cfg (firstn i (l_patches s)) groups values in
    forall k, In k (keys cfg) -> min_prob cfg <= prob_of (members multicalibrator cfg k groups vs) ->
      inject_Z (Z.of_nat (length (l_patches s))) * (eta cfg * (2 - eta cfg) * inject_Z (Z.of_nat (length values)) * key_error multicalibrator cfg groups scores vs k)
        <= sq_error values (column_of 0 scores).
Proof.
  intros cfg n groups vgroups scores vscores values val_values s Pt [E0 E1] D NE Lg Ls F H NP. apply run_final in H. destruct H as (_ & Ch & _).
  assert (NN : 0 <= inject_Z (Z.of_nat (length values))) by (rewrite <- (Zle_Qle 0); lia).
  assert (C : 0 <= eta cfg * (2 - eta cfg) * inject_Z (Z.of_nat (length values))) by (apply Qmult_le_0_compat; [apply Qmult_le_0_compat; lra|exact NN]).
  apply (progress_gen multicalibrator cfg groups scores (fun vs k => key_error_nonneg multicalibrator cfg groups scores vs k eq_refl)
           (fun vs => sq_error vs (column_of 0 scores)) (fun vs => length vs = length values) (eta cfg * (2 - eta cfg) * inject_Z (Z.of_nat (length values))) C).
  - intros. apply sq_error_nonneg.
  - intros vs k p L. rewrite apply_one_length; lia.
  - intros vs k p L K P. rewrite <- L. apply (squared_error cfg k p groups scores vs); try assumption; try lia. intros ->. destruct values; [congruence|discriminate].
  - reflexivity.
  - exact Ch.
  - exact NP.
Qed.
Theorem progress_unit : forall cfg n groups vgroups scores vscores values val_values s,
  ptype_of cfg = Additive -> 0 <= eta cfg <= 1 -> n_dims cfg = 1%nat -> values <> [] -> length groups = length values -> length scores = length values ->
  Forall (Forall in_unit) scores -> Forall in_unit values ->
  run multicalibrator cfg n groups vgroups scores vscores values val_values = Break s -> l_patches s <> [] ->
  exists i, (i < length (l_patches s))%nat /\
    let vs := apply_patches multicalibrator cfg (firstn i (l_patches s)) groups values in
    forall k, In k (keys cfg) -> min_prob cfg <= prob_of (members multicalibrator cfg k groups vs) ->
      inject_Z (Z.of_nat (length (l_patches s))) * (eta cfg * (2 - eta cfg) * key_error multicalibrator cfg groups scores vs k) <= 1.
Proof.
  intros cfg n groups vgroups scores vscores values val_values s Pt E D NE Lg Ls F Fv H NP.
  destruct (progress _ _ _ _ _ _ _ _ _ Pt E D NE Lg Ls F H NP) as (i & Hi & B). exists i. split; [exact Hi|]. intros vs k Hk Hp. specialize (B k Hk Hp). fold vs in B.
  assert (Fc : Forall in_unit (column_of 0 scores)).
  { clear -F. unfold column_of. rewrite Forall_forall in *. intros x Hx. apply in_map_iff in Hx. destruct Hx as (s & <- & Hs). specialize (F s Hs). destruct s as [|y s]; [split; vm_compute; discriminate|].
    inversion_clear F. exact H. }
  pose proof (sq_error_unit values (column_of 0 scores) Fv Fc) as U. pose proof (nQ_pos values NE) as P.
  set (N := inject_Z (Z.of_nat (length values))) in *. apply (Qmult_le_l _ _ N P).
  eapply Qle_trans; [|rewrite Qmult_1_r; exact U]. eapply Qle_trans; [|exact B]. apply Qle_lteq. right. ring.
Qed.
(** meaning of the error of a set *)
Theorem error_meaning : forall cfg groups scores values k a b, length groups = length values -> length scores = length values ->
  let bs := members multicalibrator cfg k groups values in
  0 < n_where bs -> mean_is bs (column_of (k_c k) scores) a -> mean_is bs values b ->
  inject_Z (Z.of_nat (length values)) * key_error multicalibrator cfg groups scores values k == n_where bs * ((a - b) * (a - b)).
Proof.
  intros cfg groups scores values k a b Lg Ls bs P Ma Mb. unfold key_error. cbn [m_error m_val multicalibrator]. rewrite map_id. fold bs.
  assert (Lb : length bs = length values) by (apply members_length; exact Lg).
  assert (NE : bs <> []) by (intros E; rewrite E in P; vm_compute in P; discriminate).
  unfold mc_error, mc_bias. assert (Pb : 0 < prob_of bs) by now apply prob_pos. rewrite (proj2 (Qltb_true _ _) Pb).
  unfold mean_is in *. pose proof (mean_on_spec bs values Lb Pb) as M1. assert (M2 := mean_on_spec bs (column_of (k_c k) scores) ltac:(rewrite column_len; lia) Pb).
  assert (X1 : mean_on values bs == b) by (apply (Qmult_inj_r _ _ (n_where bs)); [lra|now rewrite M1, Mb]).
  assert (X2 : mean_on (column_of (k_c k) scores) bs == a) by (apply (Qmult_inj_r _ _ (n_where bs)); [lra|now rewrite M2, Ma]).
  rewrite X1, X2, <- Lb, <- (prob_of_spec bs NE). ring.
Qed.
Lemma keys_c0 cfg k : n_dims cfg = 1%nat -> In k (keys cfg) -> k_c k = O.
Proof. intros D K. apply in_keys in K. lia. Qed.
(** a non-converged additive run stops for want of rounds, of frequent sets, or because the validation loss grew *)
Lemma loss_step_additive cfg groups scores vs k p : ptype_of cfg = Additive -> 0 <= eta cfg <= 1 -> n_dims cfg = 1%nat -> vs <> [] -> length groups = length vs -> length scores = length vs ->
  Forall (Forall in_unit) scores -> In k (keys cfg) -> patch_for multicalibrator cfg groups scores vs k = Ok (Some p) ->
  oltb (mc_loss1 vs scores) (mc_loss1 (apply_one multicalibrator cfg groups vs (k, p)) scores) = false.
Proof.
  intros Pt [E0 E1] D NE Lg Ls F K P. pose proof (squared_error cfg k p groups scores vs Pt NE Lg Ls F D K P) as S1.
  destruct (mc_loss1_sq vs scores) as (v & -> & Ev). destruct (mc_loss1_sq (apply_one multicalibrator cfg groups vs (k, p)) scores) as (w & -> & Ew).
  cbn [oltb]. apply Qltb_false. rewrite Ev, Ew. change (apply_patches multicalibrator cfg [(k, p)] groups vs) with (apply_one multicalibrator cfg groups vs (k, p)) in S1.
  eapply Qle_trans; [exact S1|]. pose proof (key_error_nonneg multicalibrator cfg groups scores vs k eq_refl) as Kn. pose proof (nQ_pos vs NE) as N.
  assert (0 <= eta cfg * (2 - eta cfg) * inject_Z (Z.of_nat (length vs)) * key_error multicalibrator cfg groups scores vs k); [|lra].
  apply Qmult_le_0_compat; [|exact Kn]. apply Qmult_le_0_compat; [|lra]. apply Qmult_le_0_compat; lra.
Qed.
Theorem stop_reasons : forall cfg n groups vgroups scores vscores values val_values s,
  ptype_of cfg = Additive -> 0 <= eta cfg <= 1 -> n_dims cfg = 1%nat -> values <> [] -> length groups = length values -> length scores = length values ->
  Forall (Forall in_unit) scores ->
  run multicalibrator cfg n groups vgroups scores vscores values val_values = Break s -> l_converged s = false ->
  length (l_patches s) = n \/
  (forall k, In k (keys cfg) -> prob_of (members multicalibrator cfg k groups (l_values s)) < min_prob cfg) \/
  sq_error (apply_patches multicalibrator cfg (l_patches s) vgroups val_values) (column_of 0 vscores) < sq_error (l_val_values s) (column_of 0 vscores).
Proof.
  intros cfg n groups vgroups scores vscores values val_values s Pt E D NE Lg Ls F H Hc. apply run_final in H.
  destruct H as (_ & _ & _ & _ & _ & _ & extra & X & Ev & Evv & _ & _ & _ & A & B). destruct X as [->|(k & p & -> & Xc & Xp)].
  - destruct (A eq_refl) as [_ [W|W]]; [now left|]. right. left. intros k Hk. eapply choose_none; eassumption.
  - right. right. destruct (B ltac:(discriminate) Hc) as [W|W].
    + exfalso. rewrite Ev, replay_app in W. change (replay multicalibrator cfg [(k, p)] groups ?x) with (apply_one multicalibrator cfg groups x (k, p)) in W.
      cbn [m_loss multicalibrator] in W. rewrite loss_step_additive in W; try assumption; try discriminate.
      * intros Z. assert (L := replay_length multicalibrator cfg (l_patches s) groups values Lg). rewrite Z in L. destruct values; [congruence|discriminate].
      * rewrite replay_length; assumption.
      * rewrite replay_length; assumption.
      * exact (proj1 (choose_spec multicalibrator cfg groups scores (fun vs k => key_error_nonneg multicalibrator cfg groups scores vs k eq_refl) _ _ Xc)).
    + cbn [m_loss multicalibrator] in W. destruct (mc_loss1_sq (replay multicalibrator cfg (l_patches s) vgroups val_values) vscores) as (v & E1 & Ev1).
      destruct (mc_loss1_sq (l_val_values s) vscores) as (w & E2 & Ew). rewrite E1, E2 in W. cbn [oltb] in W. apply Qltb_true in W. unfold apply_patches. now rewrite <- Ev1, <- Ew.
Qed.

(** ---- the same for the top-label calibrator ---- *)
Lemma sq_set_nth c y : forall xs ss, length xs = length ss -> (c < length xs)%nat ->
  sq_error (set_nth c y xs) ss == sq_error xs ss - (nth c xs 0 - nth c ss 0) * (nth c xs 0 - nth c ss 0) + (y - nth c ss 0) * (y - nth c ss 0).
Proof.
  induction c as [|c IH]; intros [|x xs] [|s ss] L Hc; cbn in L, Hc; try discriminate; try lia.
  - change (set_nth 0 y (x :: xs)) with (y :: xs). cbn [sq_error nth]. ring.
  - change (set_nth (S c) y (x :: xs)) with (x :: set_nth c y xs). cbn [sq_error nth]. rewrite IH by lia. ring.
Qed.
Lemma set_nth_over {A} c (y : A) : forall xs, (length xs <= c)%nat -> set_nth c y xs = xs.
Proof. induction c as [|c IH]; intros [|x xs] H; cbn in H; try lia; try reflexivity. change (set_nth (S c) y (x :: xs)) with (x :: set_nth c y xs). rewrite IH by lia. reflexivity. Qed.
Lemma rows_patch cfg k p d : (k_c k < d)%nat -> ptype_of cfg = Additive -> forall groups values scores,
  length groups = length values -> length scores = length values -> rectangular d values -> rectangular d scores ->
  rows_sq_error (apply_one top_label cfg groups values (k, p)) scores ==
  rows_sq_error values scores - sq_error (column_of (k_c k) values) (column_of (k_c k) scores) +
  sq_error (zip_with (shift_where (eta cfg) p) (members top_label cfg k groups values) (column_of (k_c k) values)) (column_of (k_c k) scores).
Proof.
  intros Hc Pt. unfold apply_one, members. cbn [fst snd m_b top_label].
  induction groups as [|g gs IH]; intros [|x xs] [|s ss] L1 L2 R1 R2; cbn in L1, L2; try discriminate.
  - cbn. ring.
  - inversion_clear R1 as [|? ? Rx R1']. inversion_clear R2 as [|? ? Rs R2']. rewrite !zip_cons. cbn [column_of map]. rewrite zip_cons. cbn [rows_sq_error sq_error].
    specialize (IH xs ss ltac:(lia) ltac:(lia) R1' R2'). unfold column_of in IH. rewrite IH.
    assert (Row : sq_error (apply_patch1 top_label cfg k p g x) s == sq_error x s - (nth (k_c k) x 0 - nth (k_c k) s 0) * (nth (k_c k) x 0 - nth (k_c k) s 0) +
      (shift_where (eta cfg) p (b_top (n_buckets cfg) k g x) (nth (k_c k) x 0) - nth (k_c k) s 0) * (shift_where (eta cfg) p (b_top (n_buckets cfg) k g x) (nth (k_c k) x 0) - nth (k_c k) s 0)).
    { unfold apply_patch1. cbn [m_b m_set top_label]. destruct (b_top (n_buckets cfg) k g x); unfold shift_where; [|ring].
      unfold set_top, patched. rewrite Pt. apply sq_set_nth; lia. }
    rewrite Row. ring.
Qed.
Theorem squared_error_top : forall cfg k p groups scores values, ptype_of cfg = Additive -> values <> [] ->
  length groups = length values -> length scores = length values -> rectangular (n_dims cfg) values -> rectangular (n_dims cfg) scores ->
  Forall (Forall in_unit) scores -> In k (keys cfg) -> patch_for top_label cfg groups scores values k = Ok (Some p) ->
  rows_sq_error (apply_patches top_label cfg [(k, p)] groups values) scores <=
  rows_sq_error values scores - eta cfg * (2 - eta cfg) * inject_Z (Z.of_nat (length values)) * key_error top_label cfg groups scores values k.
Proof.
  intros cfg k p groups scores values Pt NE Lg Ls Rv Rs F K Ep. apply in_keys in K. destruct K as (_ & _ & _ & Kc).
  assert (Lb : length (members top_label cfg k groups values) = length values) by (apply members_length; exact Lg).
  assert (NEb : members top_label cfg k groups values <> []) by (intros E; rewrite E in Lb; destruct values; [congruence|discriminate]).
  change (apply_patches top_label cfg [(k, p)] groups values) with (apply_one top_label cfg groups values (k, p)).
  rewrite (rows_patch cfg k p (n_dims cfg) Kc Pt groups values scores Lg Ls Rv Rs).
  unfold patch_for in Ep. cbn [m_patch m_val top_label] in Ep. unfold mc_patch in Ep. rewrite Pt in Ep. injection Ep as <-.
  unfold key_error. cbn [m_error m_val top_label]. change (map (fun xs : list Q => nth (k_c k) xs 0) values) with (column_of (k_c k) values).
  assert (Fc : Forall in_unit (column_of (k_c k) scores)).
  { unfold column_of. rewrite Forall_forall in *. intros x Hx. apply in_map_iff in Hx. destruct Hx as (s & <- & Hs). specialize (F s Hs). rewrite Forall_forall in F. apply F. apply nth_In.
    unfold rectangular in Rs. rewrite Forall_forall in Rs. rewrite (Rs s Hs). exact Kc. }
  assert (S := sq_patch (eta cfg) (members top_label cfg k groups values) (column_of (k_c k) values) (column_of (k_c k) scores) NEb
    ltac:(rewrite column_len; exact Lb) ltac:(rewrite !column_len; lia) Fc). rewrite column_len in S. lra.
Qed.
Lemma rect_step cfg d groups vs k p : length groups = length vs -> rectangular d vs -> rectangular d (apply_one top_label cfg groups vs (k, p)).
Proof.
  unfold rectangular, apply_one. cbn [fst snd]. rewrite !Forall_forall. intros L R y Hy. apply zip_in in Hy. destruct Hy as (g & x & _ & Hx & ->).
  unfold apply_patch1. cbn [m_b m_set top_label]. destruct (b_top _ _ _ _); [|now apply R]. unfold set_top. rewrite set_nth_length. now apply R.
Qed.
Lemma rows_sq_nonneg xs : forall ss, 0 <= rows_sq_error xs ss.
Proof. induction xs as [|x xs IH]; intros [|s ss]; cbn [rows_sq_error]; try lra. specialize (IH ss). pose proof (sq_error_nonneg x s). lra. Qed.
Theorem progress_top : forall cfg n groups vgroups scores vscores values val_values s,
  ptype_of cfg = Additive -> 0 <= eta cfg <= 1 -> values <> [] -> length groups = length values -> length scores = length values ->
  rectangular (n_dims cfg) values -> rectangular (n_dims cfg) scores -> Forall (Forall in_unit) scores ->
  run top_label cfg n groups vgroups scores vscores values val_values = Break s -> l_patches s <> [] ->
  exists i, (i < length (l_patches s))%nat /\
    let vs := apply_patches top_label cfg (firstn i (l_patches s)) groups values in
    forall k, In k (keys cfg) -> min_prob cfg <= prob_of (members top_label cfg k groups vs) ->
      inject_Z (Z.of_nat (length (l_patches s))) * (eta cfg * (2 - eta cfg) * inject_Z (Z.of_nat (length values)) * key_error top_label cfg groups scores vs k)
        <= rows_sq_error values scores.
Proof.
  intros cfg n groups vgroups scores vscores values val_values s Pt [E0 E1] NE Lg Ls Rv Rs F H NP. apply run_final in H. destruct H as (_ & Ch & _).
  assert (NN : 0 <= inject_Z (Z.of_nat (length values))) by (rewrite <- (Zle_Qle 0); lia).
  assert (C : 0 <= eta cfg * (2 - eta cfg) * inject_Z (Z.of_nat (length values))) by (apply Qmult_le_0_compat; [apply Qmult_le_0_compat; lra|exact NN]).
  apply (progress_gen top_label cfg groups scores (fun vs k => key_error_nonneg top_label cfg groups scores vs k eq_refl)
           (fun vs => rows_sq_error vs scores) (fun vs => length vs = length values /\ rectangular (n_dims cfg) vs) (eta cfg * (2 - eta cfg) * inject_Z (Z.of_nat (length values))) C).
  - intros. apply rows_sq_nonneg.
  - intros vs k p [L R]. split; [rewrite apply_one_length; lia|]. apply rect_step; [lia|exact R].
  - intros vs k p [L R] K P. rewrite <- L. apply (squared_error_top cfg k p groups scores vs); try assumption; try lia. intros ->. destruct values; [congruence|discriminate].
  - split; [reflexivity|exact Rv].
  - exact Ch.
  - exact NP.
Qed.

(** ---- C40: buckets ---- *)
Lemma bucket_nth n i : (2 <= n)%nat -> (i < n)%nat -> nth i (get_buckets n) 0 * inject_Z (Z.of_nat (n - 1)) == inject_Z (Z.of_nat i).
Proof.
  intros N I. unfold get_buckets. rewrite linspace_nth by exact I. assert (P : 0 < inject_Z (Z.of_nat (n - 1))) by (rewrite <- (Zlt_Qlt 0); lia). field. lra.
Qed.
Lemma nat_pred_Q n : (1 <= n)%nat -> inject_Z (Z.of_nat n) == inject_Z (Z.of_nat (n - 1)) + 1.
Proof. intros H. replace n with (S (n - 1)) at 1 by lia. rewrite nat_S_Q. ring. Qed.
Lemma near_iff n v x : (0 < n)%nat -> (near n v x = true <-> Qabs (x - v) * (2 * inject_Z (Z.of_nat n)) < 1).
Proof.
  intros N. unfold near. rewrite Qltb_true. destruct (half_width_pos n N) as [_ E]. assert (P : 0 < inject_Z (Z.of_nat n)) by (rewrite <- (Zlt_Qlt 0); lia).
  rewrite (mul_lt _ _ (2 * inject_Z (Z.of_nat n))) by lra. now rewrite E.
Qed.
Theorem gap : forall n i, (2 <= n)%nat -> (S i < n)%nat ->
  let x := (2 * inject_Z (Z.of_nat i) + 1) / (2 * inject_Z (Z.of_nat (n - 1))) in
  in_unit x /\ forall v g row, In v (get_buckets n) -> ~ selected n {| k_tau := 0; k_g := g; k_v := v; k_c := 0 |} row x.
Proof.
  intros n i N I x. assert (P : 0 < inject_Z (Z.of_nat (n - 1))) by (rewrite <- (Zlt_Qlt 0); lia).
  assert (Ex : x * (2 * inject_Z (Z.of_nat (n - 1))) == 2 * inject_Z (Z.of_nat i) + 1) by (unfold x; field; lra).
  assert (Bi : inject_Z (Z.of_nat i) + 1 <= inject_Z (Z.of_nat (n - 1))) by (change 1 with (inject_Z 1); rewrite <- inject_Z_plus, <- Zle_Qle; lia).
  assert (B0 : 0 <= inject_Z (Z.of_nat i)) by (rewrite <- (Zle_Qle 0); lia). split.
  - split.
    + apply (mul_le 0 x (2 * inject_Z (Z.of_nat (n - 1)))); [lra|]. rewrite Ex. lra.
    + apply (mul_le x 1 (2 * inject_Z (Z.of_nat (n - 1)))); [lra|]. rewrite Ex. lra.
  - intros v g row Hv [_ S]. cbn [k_tau k_v] in S. destruct (In_nth _ _ 0 Hv) as (j & Hj & Ej). unfold get_buckets in Hj. rewrite linspace_length in Hj.
    pose proof (bucket_nth n j N Hj) as Bj. rewrite Ej in Bj. rewrite (nat_pred_Q n) in S by lia. set (M := inject_Z (Z.of_nat (n - 1))) in *.
    assert (A : 1 <= Qabs (x - v) * (2 * M)).
    { assert (Z : (x - v) * (2 * M) == 2 * inject_Z (Z.of_nat i) + 1 - 2 * inject_Z (Z.of_nat j)) by (rewrite <- Ex, <- Bj; ring).
      assert (Qabs ((x - v) * (2 * M)) == Qabs (x - v) * (2 * M)) as <- by (rewrite Qabs_Qmult, (Qabs_pos (2 * M)) by lra; reflexivity).
      rewrite Z. destruct (Nat.le_gt_cases j i) as [L|L].
      - assert (inject_Z (Z.of_nat j) <= inject_Z (Z.of_nat i)) by (rewrite <- Zle_Qle; lia). rewrite Qabs_pos by lra. lra.
      - assert (inject_Z (Z.of_nat i) + 1 <= inject_Z (Z.of_nat j)) by (change 1 with (inject_Z 1); rewrite <- inject_Z_plus, <- Zle_Qle; lia). rewrite Qabs_neg by lra. lra. }
    pose proof (Qabs_nonneg (x - v)). lra.
Qed.
Theorem at_most_one_bucket : forall n v w row x g, (2 <= n)%nat -> In v (get_buckets n) -> In w (get_buckets n) ->
  selected n {| k_tau := 0; k_g := g; k_v := v; k_c := 0 |} row x -> selected n {| k_tau := 0; k_g := g; k_v := w; k_c := 0 |} row x -> v == w.
Proof.
  intros n v w row x g N Hv Hw [_ S] [_ T]. cbn [k_tau k_v] in S, T. destruct (In_nth _ _ 0 Hv) as (i & Hi & Ei). destruct (In_nth _ _ 0 Hw) as (j & Hj & Ej).
  unfold get_buckets in Hi, Hj. rewrite linspace_length in Hi, Hj. pose proof (bucket_nth n i N Hi) as Bi. pose proof (bucket_nth n j N Hj) as Bj. rewrite Ei in Bi. rewrite Ej in Bj.
  assert (P : 0 < inject_Z (Z.of_nat (n - 1))) by (rewrite <- (Zlt_Qlt 0); lia). rewrite (nat_pred_Q n) in S, T by lia. set (M := inject_Z (Z.of_nat (n - 1))) in *.
  assert (A : Qabs (v - w) * (2 * (M + 1)) < 2).
  { assert (Qabs (v - w) <= Qabs (x - w) + Qabs (x - v)).
    { assert (Z : v - w == (x - w) - (x - v)) by ring. rewrite Z. eapply Qle_trans; [apply Qabs_triangle|]. rewrite Qabs_opp. lra. }
    apply (Qmult_le_compat_r _ _ (2 * (M + 1))) in H; [|lra]. rewrite Qmult_plus_distr_l in H. lra. }
  assert (E : Qabs (v - w) * M == Qabs (inject_Z (Z.of_nat i) - inject_Z (Z.of_nat j))) by (rewrite <- Bi, <- Bj; assert (Z : v * M - w * M == (v - w) * M) by ring; rewrite Z, Qabs_Qmult, (Qabs_pos M) by lra; reflexivity).
  assert (ij : i = j).
  { destruct (Nat.lt_trichotomy i j) as [L|[L|L]]; [exfalso|exact L|exfalso].
    - assert (inject_Z (Z.of_nat i) + 1 <= inject_Z (Z.of_nat j)) by (change 1 with (inject_Z 1); rewrite <- inject_Z_plus, <- Zle_Qle; lia). rewrite (Qabs_neg (inject_Z (Z.of_nat i) - inject_Z (Z.of_nat j))) in E by lra. pose proof (Qabs_nonneg (v - w)). lra.
    - assert (inject_Z (Z.of_nat j) + 1 <= inject_Z (Z.of_nat i)) by (change 1 with (inject_Z 1); rewrite <- inject_Z_plus, <- Zle_Qle; lia). rewrite (Qabs_pos (inject_Z (Z.of_nat i) - inject_Z (Z.of_nat j))) in E by lra. pose proof (Qabs_nonneg (v - w)). lra. }
  subst j. now rewrite <- Ei, <- Ej.
Qed.
