(** Meaning of calibration_error. *)
From Coq Require Import List Arith ZArith QArith Qround Qminmax Qabs Bool Lia Lqa.
From Verif Require Import Lib QuantModel QuantSpec QuantProofs ConfRegModel ConfRegProofs ConfClassModel ConfClassProofs ConfClassProofs2 ConfClassSpec ConfClassProofs3 MultiModel MultiSpec MultiProofs MultiProofs2 MultiSpec2.
Import ListNotations.
Open Scope Q_scope.

Lemma mask_unique n g groups values v mask : (0 < n)%nat -> length groups = length values -> bucket_mask n g groups values v mask ->
  mask = zip_with (b1 n {| k_tau := 0; k_g := g; k_v := v; k_c := 0 |}) groups values.
Proof.
  intros N L [Lm H]. assert (Lz : length (zip_with (b1 n {| k_tau := 0; k_g := g; k_v := v; k_c := 0 |}) groups values) = length values) by (rewrite zip_with_length; lia).
  apply (nth_ext _ _ false false). lia. intros i Hi. rewrite Lm in Hi.
  destruct (nth_error groups i) as [row|] eqn:Er; [|apply nth_error_None in Er; lia]. destruct (nth_error values i) as [x|] eqn:Ex; [|apply nth_error_None in Ex; lia].
  specialize (H i row x Er Ex). rewrite <- (membership n _ row x N) in H.
  assert (Z := zip_nth_error (b1 n {| k_tau := 0; k_g := g; k_v := v; k_c := 0 |}) groups values i). rewrite Er, Ex in Z. rewrite (nth_error_nth _ _ false Z).
  destruct (nth_error mask i) as [b|] eqn:Em; [|apply nth_error_None in Em; lia]. rewrite (nth_error_nth _ _ false Em).
  destruct b, (b1 n _ row x); try reflexivity; destruct H as [H1 H2]; [discriminate H1; reflexivity|]. specialize (H2 eq_refl). congruence.
Qed.
Lemma prob_zero bs : bs <> [] -> (prob_of bs == 0 <-> n_where bs == 0).
Proof.
  intros H. assert (P := nQ_pos bs H). rewrite <- (prob_of_spec bs H). split; intros X. rewrite X. ring.
  assert (E : prob_of bs == prob_of bs * inject_Z (Z.of_nat (length bs)) / inject_Z (Z.of_nat (length bs))) by (field; lra). rewrite E, X. unfold Qdiv. ring.
Qed.
Lemma mc_error_mask bs ss xs : bs <> [] -> length bs = length ss -> length bs = length xs ->
  mc_error ss xs bs * inject_Z (Z.of_nat (length bs)) == mask_error ss xs bs.
Proof.
  intros H Ls Lx. assert (P := nQ_pos bs H). unfold mc_error, mc_bias, mask_error. assert (S0 := prob_of_spec bs H). assert (N0 := n_where_nonneg bs).
  destruct (Qlt_bool 0 (prob_of bs)) eqn:E.
  - apply Qltb_true in E. assert (A := mean_on_spec bs ss Ls E). assert (B := mean_on_spec bs xs Lx E). rewrite <- A, <- B, <- S0.
    set (p := prob_of bs) in *. set (m := inject_Z (Z.of_nat (length bs))) in *. field. split; lra.
  - apply Qltb_false in E. assert (Z : prob_of bs == 0). { destruct (Qle_lt_or_eq _ _ N0) as [C|C]. assert (0 < prob_of bs); [|lra]. destruct (Qlt_le_dec 0 (prob_of bs)) as [D|D]; [assumption|]. assert (prob_of bs * inject_Z (Z.of_nat (length bs)) <= 0 * inject_Z (Z.of_nat (length bs))) by (apply Qmult_le_compat_r; lra). lra. apply prob_zero; [assumption|lra]. }
    rewrite Z. assert (W : n_where bs == 0) by (now apply prob_zero in Z). rewrite W. unfold Qdiv. change (/ 0) with 0. ring.
Qed.
Theorem calibration_error_meaning : forall n g groups scores values masks, (0 < n)%nat -> values <> [] -> length groups = length values -> length scores = length values ->
  Forall2 (bucket_mask n g groups values) (get_buckets n) masks ->
  let size := n_where (map (fun row => nth g row false) groups) in
  (size == 0 -> calibration_error multicalibrator n groups scores values g 0 = None) /\
  (~ size == 0 -> exists e, calibration_error multicalibrator n groups scores values g 0 = Some e /\ 0 <= e /\
     e * size == total_of (map (mask_error (map (fun s => nth 0 s 0) scores) values) masks)).
Proof.
  intros n g groups scores values masks N NE Lg Ls F size.
  set (col := map (fun row => nth g row false) groups) in *. assert (Hc : col <> []). { unfold col. destruct groups; [destruct values; [easy|discriminate]|easy]. }
  assert (P := nQ_pos col Hc). assert (Sz := prob_of_spec col Hc). assert (N0 := n_where_nonneg col).
  unfold calibration_error. fold col. cbv zeta. split; intros Z.
  - apply prob_zero in Z; [|assumption]. apply Qeq_bool_iff in Z. now rewrite Z.
  - assert (Z' : ~ prob_of col == 0) by (intros X; apply Z; now apply prob_zero in X). destruct (Qeq_bool (prob_of col) 0) eqn:E; [apply Qeq_bool_iff in E; contradiction|].
    eexists. split; [reflexivity|]. cbn [m_error m_val m_b multicalibrator]. rewrite map_id. change (column_of 0 scores) with (map (fun s => nth 0 s 0) scores). set (ss := map (fun s => nth 0 s 0) scores).
    assert (Lss : length ss = length values) by (unfold ss; rewrite map_length; assumption). set (m := inject_Z (Z.of_nat (length col))) in *.
    assert (Lc : length col = length values) by (unfold col; rewrite map_length; assumption).
    assert (T : qsum (map (fun v => mc_error ss values (zip_with (b1 n {| k_tau := 0; k_g := g; k_v := v; k_c := 0 |}) groups values)) (get_buckets n)) * m == total_of (map (mask_error ss values) masks)
              /\ 0 <= total_of (map (mask_error ss values) masks)).
    { induction F as [|v mask vs ms Hm F IH]. split. change (0 * m == 0). ring. apply Qle_refl.
      destruct IH as [IH1 IH2]. cbn [map]. rewrite qsum_cons. cbn [total_of fold_right]. unfold total_of in IH1, IH2. assert (Em := mask_unique _ _ _ _ _ _ N Lg Hm). rewrite <- Em.
      assert (Lm : length mask = length values) by apply Hm. assert (Hne : mask <> []) by (destruct mask; [destruct values; [easy|discriminate]|easy]).
      assert (A := mc_error_mask mask ss values Hne ltac:(lia) ltac:(lia)). rewrite Lm, <- Lc in A. fold m in A. split. rewrite Qmult_plus_distr_l, A, IH1. reflexivity.
      assert (0 <= mask_error ss values mask); [|lra]. unfold mask_error. apply Qmult_le_0_compat. destruct (Qlt_le_dec (sum_where mask ss - sum_where mask values) 0) as [C|C].
      setoid_replace ((sum_where mask ss - sum_where mask values) * (sum_where mask ss - sum_where mask values)) with ((- (sum_where mask ss - sum_where mask values)) * (- (sum_where mask ss - sum_where mask values))) by ring. apply Qmult_le_0_compat; lra. apply Qmult_le_0_compat; lra.
      apply Qinv_le_0_compat. apply n_where_nonneg. }
    destruct T as [T1 T2]. set (q := qsum _) in *. assert (Hp : 0 < prob_of col). { destruct (Qlt_le_dec 0 (prob_of col)) as [D|D]; [assumption|]. assert (prob_of col * m <= 0 * m) by (apply Qmult_le_compat_r; lra). exfalso. apply Z. fold size. unfold size. lra. }
    split.
    + assert (0 <= q). { destruct (Qlt_le_dec q 0) as [D|D]; [|assumption]. assert (q * m < 0 * m) by (apply Qmult_lt_compat_r; lra). lra. }
      apply Qle_shift_div_l; lra.
    + rewrite <- T1. unfold size. rewrite <- Sz. field. lra.
Qed.
