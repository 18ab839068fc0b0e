(** Proofs about the grouping model. *)
From Coq Require Import List Arith ZArith QArith Qround Bool Reals Lia Lqa.
From Verif Require Import Lib QuantModel QuantSpec QuantProofs ConfRegModel ConfClassModel ConfClassProofs2 ConfClassProofs3 MultiModel MultiProofs TempModel PredModel PredProofs4 HallModel HallSpec.
Import ListNotations.
Local Notation length := List.length.
Open Scope Q_scope.
Open Scope list_scope.

(** ---- choice of the clustering model ---- *)
Section Best.
Context {M F : Type} (fit : M -> F) (bic : F -> option Q).
Definition beats (b : Q) (m : M) : Prop := forall b', bic (fit m) = Some b' -> b <= b'.
Definition strictly_beats (b : Q) (m : M) : Prop := forall b', bic (fit m) = Some b' -> b < b'.
Lemma best_some models : forall b0 f0, exists b f, best_model fit bic models (Some (b0, f0)) = Some (b, f) /\
  ((b = b0 /\ f = f0 /\ Forall (beats b0) models) \/
   (b < b0 /\ exists l1 m l2, models = l1 ++ m :: l2 /\ f = fit m /\ bic f = Some b /\ Forall (strictly_beats b) l1 /\ Forall (beats b) l2)).
Proof.
  induction models as [|m r IH]; intros b0 f0.
  - exists b0, f0. split; [reflexivity|]. left. auto.
  - cbn [best_model]. destruct (bic (fit m)) as [b1|] eqn:B.
    + destruct (Qlt_bool b1 b0) eqn:L; [apply Qltb_true in L|apply Qltb_false in L].
      * destruct (IH b1 (fit m)) as (b & f & E & [(-> & -> & H)|(Lt & l1 & m' & l2 & -> & -> & Bm & H1 & H2)]); (eexists; eexists; split; [exact E|]); right.
        -- split; [assumption|]. exists [], m, r. auto.
        -- split; [lra|]. exists (m :: l1), m', l2. repeat split; auto. constructor; [|assumption]. intros b' E'. rewrite B in E'. injection E' as <-. assumption.
      * destruct (IH b0 f0) as (b & f & E & [(-> & -> & H)|(Lt & l1 & m' & l2 & -> & -> & Bm & H1 & H2)]); (eexists; eexists; split; [exact E|]).
        -- left. repeat split; auto. constructor; [|assumption]. intros b' E'. rewrite B in E'. injection E' as <-. assumption.
        -- right. split; [assumption|]. exists (m :: l1), m', l2. repeat split; auto. constructor; [|assumption]. intros b' E'. rewrite B in E'. injection E' as <-. lra.
    + destruct (IH b0 f0) as (b & f & E & [(-> & -> & H)|(Lt & l1 & m' & l2 & -> & -> & Bm & H1 & H2)]); (eexists; eexists; split; [exact E|]).
      -- left. repeat split; auto. constructor; [|assumption]. intros b' E'. rewrite B in E'. discriminate.
      -- right. split; [assumption|]. exists (m :: l1), m', l2. repeat split; auto. constructor; [|assumption]. intros b' E'. rewrite B in E'. discriminate.
Qed.
Lemma best_none models : (best_model fit bic models None = None /\ Forall (fun m => bic (fit m) = None) models) \/
  exists b f l1 m l2, best_model fit bic models None = Some (b, f) /\ models = l1 ++ m :: l2 /\ f = fit m /\ bic f = Some b /\ Forall (strictly_beats b) l1 /\ Forall (beats b) l2.
Proof.
  induction models as [|m r IH]; [left; auto|]. cbn [best_model]. destruct (bic (fit m)) as [b1|] eqn:B.
  - right. destruct (best_some r b1 (fit m)) as (b & f & E & [(-> & -> & H)|(Lt & l1 & m' & l2 & -> & -> & Bm & H1 & H2)]).
    + exists b1, (fit m), [], m, r. auto 8.
    + exists b, (fit m'), (m :: l1), m', l2. repeat split; auto. constructor; [|assumption]. intros b' E'. rewrite B in E'. injection E' as <-. assumption.
  - destruct IH as [(E & H)|(b & f & l1 & m' & l2 & E & -> & -> & Bm & H1 & H2)].
    + left. auto.
    + right. exists b, (fit m'), (m :: l1), m', l2. repeat split; auto. constructor; [|assumption]. intros b' E'. rewrite B in E'. discriminate.
Qed.
End Best.
Lemma best_fit : forall M F (fit : M -> F) bic models f, fit_best_model fit bic models = Ok f ->
  exists l1 m l2 b, models = l1 ++ m :: l2 /\ f = fit m /\ bic f = Some b /\
    (forall m' b', In m' l1 -> bic (fit m') = Some b' -> b < b') /\ (forall m' b', In m' l2 -> bic (fit m') = Some b' -> b <= b').
Proof.
  intros M F fit bic models f H. unfold fit_best_model in H.
  destruct (best_none fit bic models) as [(E & _)|(b & f' & l1 & m & l2 & E & -> & -> & Bm & H1 & H2)]; rewrite E in H; [discriminate|]. injection H as <-.
  rewrite Forall_forall in H1, H2. exists l1, m, l2, b. repeat split; auto. intros m' b' I; exact (H1 _ I b'). intros m' b' I; exact (H2 _ I b').
Qed.
Lemma no_fit : forall M F (fit : M -> F) bic models,
  fit_best_model fit bic models = Err UnboundLocalErr <-> (forall m, In m models -> bic (fit m) = None).
Proof.
  intros M F fit bic models. unfold fit_best_model.
  destruct (best_none fit bic models) as [(E & H)|(b & f' & l1 & m & l2 & E & -> & -> & Bm & H1 & H2)]; rewrite E.
  - rewrite Forall_forall in H. tauto.
  - split; [discriminate|]. intros H. rewrite (H m) in Bm. discriminate. apply in_or_app. right. now left.
Qed.

(** ---- hard predictions ---- *)
Lemma nth_bool_seq (f : nat -> bool) n j : (j < n)%nat -> nth j (map f (seq 0 n)) false = f j.
Proof. intros H. rewrite (nth_indep _ false (f 0%nat)) by now rewrite map_length, seq_length. rewrite (map_nth f), seq_nth by assumption. reflexivity. Qed.
Lemma hard_row : forall probs i row, nth_error probs i = Some row -> row <> [] ->
  exists out, nth_error (hard_predict probs) i = Some out /\ length out = length row /\
    exists j, (j < length row)%nat /\ (forall k, (k < length row)%nat -> nth k row 0 <= nth j row 0) /\ (forall k, (k < j)%nat -> nth k row 0 < nth j row 0) /\
      forall k, (nth k out false = true <-> k = j).
Proof.
  intros probs i row E N. unfold hard_predict. rewrite (map_nth_error _ _ _ E). eexists. split; [reflexivity|]. split; [now rewrite map_length, seq_length|].
  destruct (argmax_spec row N) as (A & B & C). exists (argmax row). repeat split; auto.
  - intros H. destruct (Nat.lt_ge_cases k (length row)). rewrite nth_bool_seq in H by assumption. now apply Nat.eqb_eq.
    rewrite nth_overflow in H by now rewrite map_length, seq_length. discriminate.
  - intros ->. rewrite nth_bool_seq by assumption. apply Nat.eqb_refl.
Qed.

(** ---- groups ---- *)
Lemma nth_q_seq (f : nat -> Q) n j : (j < n)%nat -> nth j (map f (seq 0 n)) 0 = f j.
Proof. intros H. rewrite (nth_indep _ 0 (f 0%nat)) by now rewrite map_length, seq_length. rewrite (map_nth f), seq_nth by assumption. reflexivity. Qed.
Lemma zip_bool (f : Q -> Q -> bool) l m j : (j < length l)%nat -> (j < length m)%nat -> nth j (zip_with f l m) false = f (nth j l 0) (nth j m 0).
Proof.
  intros H1 H2. assert (X := zip_nth_error f l m j). rewrite (nth_error_nth' l 0 H1), (nth_error_nth' m 0 H2) in X. now apply nth_error_nth.
Qed.
Lemma members_count (f : list Q -> list bool) (g : Q -> bool) j rows : (forall row, In row rows -> nth j (f row) false = g (nth j row 0)) ->
  members j (map f rows) = count g (map (fun row => nth j row 0) rows).
Proof.
  induction rows as [|r rows IH]; intros H; [reflexivity|]. cbn [map members]. rewrite IH by (intros; apply H; now right). rewrite (H r) by now left.
  unfold count. cbn [filter map]. destruct (g (nth j r 0)); reflexivity.
Qed.
Lemma quantiles_length k probs t : length (compute_quantile k probs t) = k.
Proof. unfold compute_quantile. now rewrite map_length, seq_length. Qed.
Lemma zip_len {A B C} (f : A -> B -> C) l m : length (zip_with f l m) = Nat.min (length l) (length m).
Proof. unfold zip_with. now rewrite map_length, combine_length. Qed.
Lemma group_col k probs t j : (j < k)%nat -> (forall row, In row probs -> length row = k) ->
  members j (get_groups (compute_quantile k probs t) probs) = n_ge (quantile (map (fun row => nth j row 0) probs) t) (map (fun row => nth j row 0) probs).
Proof.
  intros H L. unfold get_groups, n_ge. apply members_count. intros row I. rewrite app_nth1 by (rewrite zip_len, quantiles_length, L; auto; lia).
  rewrite zip_bool by (rewrite ?quantiles_length, ?L; auto). unfold compute_quantile. now rewrite nth_q_seq.
Qed.
Lemma soft_col k probs t j : (j < k)%nat -> (forall row, In row probs -> length row = k) ->
  members j (soft_predict k probs t) = count (fun x => Qlt_bool (quantile (map (fun row => nth j row 0) probs) t) x) (map (fun row => nth j row 0) probs).
Proof.
  intros H L. unfold soft_predict. apply members_count. intros row I.
  rewrite zip_bool by (rewrite ?quantiles_length, ?L; auto). unfold compute_quantile. now rewrite nth_q_seq.
Qed.
Lemma group_sizes : forall k probs t j c, (j < k)%nat -> (forall row, In row probs -> length row = k) ->
  (c <= length probs)%nat -> t * (inject_Z (Z.of_nat (length probs)) - 1) + inject_Z (Z.of_nat c) <= inject_Z (Z.of_nat (length probs)) ->
  (c <= members j (get_groups (compute_quantile k probs t) probs))%nat.
Proof.
  intros k probs t j c H L C Q. rewrite group_col by assumption. apply quantile_n_ge; unfold qpos, qlen; now rewrite map_length.
Qed.
Lemma group_nonempty : forall k probs t j, (j < k)%nat -> (forall row, In row probs -> length row = k) -> probs <> [] -> t <= 1 ->
  (1 <= members j (get_groups (compute_quantile k probs t) probs))%nat.
Proof.
  intros k probs t j H L N T. apply group_sizes; auto. destruct probs; [easy|]. cbn [length]. lia.
  assert (1 <= inject_Z (Z.of_nat (length probs))). { change 1 with (inject_Z 1). rewrite <- Zle_Qle. destruct probs; [easy|]. cbn [length]. lia. }
  change (inject_Z (Z.of_nat 1)) with 1. nra.
Qed.
Lemma soft_sizes : forall k probs t j c, (j < k)%nat -> (forall row, In row probs -> length row = k) ->
  (c <= length probs)%nat -> inject_Z (Z.of_nat c) <= t * (inject_Z (Z.of_nat (length probs)) - 1) + 1 ->
  (members j (soft_predict k probs t) + c <= length probs)%nat.
Proof.
  intros k probs t j c H L C Q. rewrite soft_col by assumption. set (col := map (fun row => nth j row 0) probs).
  assert (LC : length col = length probs) by apply map_length.
  assert (X := quantile_n_le col t c). unfold qpos in X. rewrite LC in X. specialize (X C Q).
  assert (S := count_split (fun x => Qle_bool x (quantile col t)) col). unfold n_le in X. rewrite LC in S.
  replace (count (fun x => Qlt_bool (quantile col t) x) col) with (count (fun x => negb (Qle_bool x (quantile col t))) col) by (apply count_ext; reflexivity). lia.
Qed.
Lemma soft_within : forall k probs t i row out grp j, (forall row, In row probs -> length row = k) -> nth_error probs i = Some row ->
  nth_error (soft_predict k probs t) i = Some out -> nth_error (get_groups (compute_quantile k probs t) probs) i = Some grp ->
  length out = k /\ length grp = S k /\ nth k grp false = true /\ (nth j out false = true -> nth j grp false = true).
Proof.
  intros k probs t i row out grp j L E S G. unfold soft_predict in S. unfold get_groups in G. rewrite (map_nth_error _ _ _ E) in S. rewrite (map_nth_error _ _ _ E) in G. injection S as <-. injection G as <-.
  assert (LR : length row = k) by (apply L; eapply nth_error_In; exact E).
  assert (Z : forall f : Q -> Q -> bool, length (zip_with f row (compute_quantile k probs t)) = k) by (intros; rewrite zip_len, quantiles_length, LR; lia).
  repeat split.
  - apply Z.
  - rewrite app_length, Z. cbn [length]. lia.
  - rewrite app_nth2; rewrite Z; [|lia]. now rewrite Nat.sub_diag.
  - intros H. destruct (Nat.lt_ge_cases j k). rewrite app_nth1 by (rewrite Z; lia). rewrite zip_bool in * by (rewrite ?quantiles_length, ?LR; lia).
    apply Qltb_true in H. apply Qle_bool_iff. lra. rewrite nth_overflow in H by (rewrite Z; lia). discriminate.
Qed.
Lemma soft_empty_refuted : exists k probs t j, (forall row, In row probs -> length row = k) /\ (j < k)%nat /\ probs <> [] /\ 0 <= t /\ t <= 1 /\ members j (soft_predict k probs t) = 0%nat.
Proof.
  exists 2%nat, [[1 # 2; 1 # 2]; [1 # 2; 1 # 2]; [1 # 4; 3 # 4]], (4 # 5), 0%nat. repeat split; try lia; try discriminate.
  intros row [<-|[<-|[<-|[]]]]; reflexivity.
Qed.
Lemma groups_pointwise : forall q scores i row, nth_error scores i = Some row -> nth_error (get_groups q scores) i = nth_error (get_groups q [row]) 0.
Proof. intros q scores i row E. unfold get_groups. now rewrite (map_nth_error _ _ _ E). Qed.

(** ---- normalisation ---- *)
Open Scope R_scope.
Lemma total_rsum l : total l = rsum l. Proof. reflexivity. Qed.
Lemma sq_nonneg (x : R) : 0 <= x * x. Proof. change (0 <= Rsqr x). apply Rle_0_sqr. Qed.
Lemma var_nonneg xs : 0 <= rmean (map (fun x => (x - rmean xs) * (x - rmean xs)) xs).
Proof.
  unfold rmean at 1. destruct xs as [|x xs]. unfold rsum. cbn [map fold_right]. unfold Rdiv. rewrite Rmult_0_l. apply Rle_refl.
  apply Rmult_le_pos; [|left; apply Rinv_0_lt_compat; rewrite map_length; apply lt_0_INR; cbn [length]; lia].
  apply (rs_nonneg (fun z => (z - rmean (x :: xs)) * (z - rmean (x :: xs)))). intros z _. apply sq_nonneg.
Qed.
Lemma INR_len_pos {A} (l : list A) : l <> [] -> 0 < INR (length l).
Proof. destruct l; [easy|]. intros _. apply lt_0_INR. cbn [length]. lia. Qed.
Lemma centered xs : xs <> [] -> rs (fun x => x - rmean xs) xs = 0.
Proof.
  intros N. assert (P := INR_len_pos xs N). rewrite (rs_sub (fun x => x) (fun _ => rmean xs)), rs_const. unfold rmean, rs. rewrite map_id. field. apply Rgt_not_eq, P.
Qed.
Lemma std_zero xs : xs <> [] -> (column_std xs = 0 <-> forall x y, In x xs -> In y xs -> x = y).
Proof.
  intros N. assert (P := INR_len_pos xs N). unfold column_std. set (m := rmean xs). split.
  - intros H. apply sqrt_eq_0 in H; [|apply var_nonneg]. unfold rmean in H. rewrite map_length in H.
    assert (Z : rs (fun x => (x - m) * (x - m)) xs = 0). { unfold rs. apply (Rmult_eq_reg_r (/ INR (length xs))). rewrite Rmult_0_l. exact H. apply Rinv_neq_0_compat, Rgt_not_eq, P. }
    assert (A : forall x, In x xs -> x = m). { intros x Hx. assert (Y := rs_zero _ xs (fun z _ => sq_nonneg (z - m)) Z x Hx). cbv beta in Y. apply Rmult_integral in Y. destruct Y as [Y|Y]; apply Rminus_diag_uniq; exact Y. }
    intros x y Hx Hy. now rewrite (A x Hx), (A y Hy).
  - intros H. destruct xs as [|x0 xs]; [easy|]. set (l := x0 :: xs) in *.
    assert (E : m = x0). { unfold m, rmean. assert (X : rsum l = INR (length l) * x0). { rewrite <- (rs_const x0 l). unfold rs. rewrite <- (map_id l) at 1. f_equal. apply map_ext_in. intros z Hz. apply H; [assumption|now left]. } rewrite X. field. apply Rgt_not_eq, P. }
    replace (map (fun x => (x - m) * (x - m)) l) with (map (fun _ : R => 0) l). unfold rmean. assert (X := rs_const 0 l). unfold rs in X. rewrite X, Rmult_0_r. unfold Rdiv. rewrite Rmult_0_l. apply sqrt_0.
    apply map_ext_in. intros z Hz. rewrite E, (H z x0 Hz (or_introl eq_refl)). ring.
Qed.
Lemma normalize_undefined : forall train xs, train <> [] -> (normalize train xs = None <-> forall x y, In x train -> In y train -> x = y).
Proof.
  intros train xs N. unfold normalize. rewrite <- std_zero by assumption. destruct (Req_EM_T _ _); [tauto|]. split; [discriminate|tauto].
Qed.
Lemma normalized : forall train zs, train <> [] -> normalize train train = Some zs ->
  length zs = length train /\ average zs = 0 /\ average (map (fun z => z * z) zs) = 1.
Proof.
  intros train zs N H. assert (P := INR_len_pos train N). unfold normalize in H. destruct (Req_EM_T _ _) as [|D]; [discriminate|]. injection H as <-.
  set (s := column_std train) in *. set (m := rmean train) in *.
  assert (SP : s * s = rmean (map (fun x => (x - m) * (x - m)) train)) by (apply sqrt_sqrt, var_nonneg).
  split; [apply map_length|]. unfold average. rewrite !map_length. change total with rsum. split.
  - change (map (fun x => (x - m) / s) train) with (map (fun x => (x - m) * / s) train). assert (X := rs_scale (fun x => x - m) (/ s) train). unfold rs at 1 in X. assert (C := centered train N). fold m in C. rewrite X, C. unfold Rdiv. ring.
  - rewrite map_map. replace (map (fun x => (x - m) / s * ((x - m) / s)) train) with (map (fun x => ((x - m) * (x - m)) * / (s * s)) train) by (apply map_ext; intros; field; exact D).
    assert (X := rs_scale (fun x => (x - m) * (x - m)) (/ (s * s)) train). unfold rs in X. rewrite X, SP. unfold rmean. rewrite map_length. field.
    split; [apply Rgt_not_eq, P|].
    intros Z. apply D. unfold rmean in SP. rewrite map_length, Z in SP. unfold Rdiv in SP. rewrite Rmult_0_l in SP. apply Rmult_integral in SP. tauto.
Qed.
Lemma normalize_others : forall train xs zs, normalize train xs = Some zs -> exists a b, a <> 0 /\ normalize train train = Some (map (fun x => a * x + b) train) /\ zs = map (fun x => a * x + b) xs.
Proof.
  intros train xs zs H. unfold normalize in *. destruct (Req_EM_T _ _) as [|D]; [discriminate|]. injection H as <-.
  exists (/ column_std train), (- rmean train / column_std train). split; [now apply Rinv_neq_0_compat|]. split; [f_equal|]; apply map_ext; intros; field; exact D.
Qed.
