(** Proofs about softmax temperature scaling and the output calibrators. *)
From Coq Require Import List Arith ZArith Bool Reals Lia Lra.
From Verif Require Import Lib TempModel TempSpec.
Import ListNotations.
Open Scope R_scope.

Lemma rsum_exp_pos (xs : list R) : xs <> [] -> 0 < rsum (map exp xs).
Proof.
  destruct xs as [|x xs]; [easy|]. intros _. revert x. induction xs as [|y xs IH]; intros x; cbn [map rsum fold_right]. assert (A := exp_pos x). lra.
  assert (A := exp_pos x). specialize (IH y). unfold rsum in IH. cbn [map fold_right] in IH. lra.
Qed.
Lemma rsum_div (l : list R) z : rsum (map (fun x => x / z) l) = rsum l / z.
Proof. induction l as [|x l IH]; cbn [map rsum fold_right]. unfold Rdiv. ring. unfold rsum in IH. rewrite IH. unfold Rdiv. ring. Qed.
Lemma softmax_map xs : softmax xs = map (fun e => e / rsum (map exp xs)) (map exp xs).
Proof. unfold softmax. now rewrite map_map. Qed.
Lemma softmax_total xs : xs <> [] -> rtotal (softmax xs) = 1.
Proof. intros H. assert (P := rsum_exp_pos xs H). rewrite softmax_map. change rtotal with rsum. rewrite rsum_div. field. lra. Qed.
Lemma softmax_length xs : length (softmax xs) = length xs. Proof. apply map_length. Qed.
Lemma softmax_nth xs i : (i < length xs)%nat -> nth i (softmax xs) 0 = exp (nth i xs 0) / rsum (map exp xs).
Proof.
  intros H. unfold softmax. rewrite (nth_indep _ 0 (exp 0 / rsum (map exp xs))) by now rewrite map_length.
  now rewrite (map_nth (fun x => exp x / rsum (map exp xs))).
Qed.
Lemma len_ne {A} (l : list A) i : (i < length l)%nat -> l <> []. Proof. destruct l; cbn; [lia|easy]. Qed.
Theorem softmax_spec : forall xs, xs <> [] -> is_softmax xs (softmax xs) /\ rdistribution (softmax xs).
Proof.
  intros xs H. assert (P := rsum_exp_pos xs H). split.
  - split; [apply softmax_length|]. split; [now apply softmax_total|]. exists (rsum (map exp xs)). split; [assumption|]. intros. now apply softmax_nth.
  - split; [|now apply softmax_total]. unfold softmax. rewrite Forall_forall. intros y Hy. apply in_map_iff in Hy. destruct Hy as [x [<- _]]. apply Rdiv_lt_0_compat; [apply exp_pos|assumption].
Qed.
Lemma scaled_map t ps i : (i < length ps)%nat -> nth i (map (fun p => ln p / t) ps) 0 = ln (nth i ps 0) / t.
Proof. intros H. rewrite (nth_indep _ 0 (ln 0 / t)) by now rewrite map_length. now rewrite (map_nth (fun p => ln p / t)). Qed.
Definition z_of (t : R) (ps : list R) : R := rsum (map exp (map (fun p => ln p / t) ps)).
Lemma z_pos t ps : ps <> [] -> 0 < z_of t ps.
Proof. intros H. apply rsum_exp_pos. destruct ps; easy. Qed.
Lemma mc_nth t ps i : (i < length ps)%nat -> nth i (mc_scaled t ps) 0 = exp (ln (nth i ps 0) / t) / z_of t ps.
Proof. intros H. unfold mc_scaled. rewrite softmax_nth by now rewrite map_length. now rewrite scaled_map. Qed.
Lemma mc_length t ps : length (mc_scaled t ps) = length ps.
Proof. unfold mc_scaled. now rewrite softmax_length, map_length. Qed.

Theorem mc_distribution : forall t ps, ps <> [] -> length (mc_scaled t ps) = length ps /\ rdistribution (mc_scaled t ps).
Proof. intros t ps H. split; [apply mc_length|]. apply softmax_spec. destruct ps; easy. Qed.

Lemma ln_div_le t p q : 0 < t -> 0 < p -> 0 < q -> (ln p / t <= ln q / t <-> p <= q).
Proof.
  intros Ht Hp Hq. assert (It := Rinv_0_lt_compat t Ht). split; intros H.
  - apply Rmult_le_reg_r in H; [|assumption]. destruct (Rle_lt_dec p q) as [A|A]; [assumption|]. apply ln_increasing in A; lra.
  - apply Rmult_le_compat_r; [lra|]. destruct (Rle_lt_or_eq_dec p q H) as [A|A]. apply ln_increasing in A; lra. subst. lra.
Qed.
Lemma exp_le x y : exp x <= exp y <-> x <= y.
Proof.
  split; intros H. destruct (Rle_lt_dec x y) as [A|A]; [assumption|]. apply exp_increasing in A. lra.
  destruct (Rle_lt_or_eq_dec x y H) as [A|A]. apply exp_increasing in A. lra. subst. lra.
Qed.
Lemma div_le_iff x y z : 0 < z -> (x / z <= y / z <-> x <= y).
Proof.
  intros Hz. assert (Iz := Rinv_0_lt_compat z Hz). split; intros H. now apply Rmult_le_reg_r in H. apply Rmult_le_compat_r; lra.
Qed.
Lemma pos_nth ps i : Forall (fun p => 0 < p) ps -> (i < length ps)%nat -> 0 < nth i ps 0.
Proof. intros F H. rewrite Forall_forall in F. apply F. now apply nth_In. Qed.
Theorem mc_order : forall t ps i j, 0 < t -> Forall (fun p => 0 < p) ps -> (i < length ps)%nat -> (j < length ps)%nat ->
  (nth i (mc_scaled t ps) 0 <= nth j (mc_scaled t ps) 0 <-> nth i ps 0 <= nth j ps 0).
Proof.
  intros t ps i j Ht F Hi Hj. rewrite !mc_nth by assumption. rewrite div_le_iff by (apply z_pos; now apply len_ne in Hi). rewrite exp_le. apply ln_div_le; auto using pos_nth.
Qed.
Theorem mc_negative : forall t ps i j, t < 0 -> Forall (fun p => 0 < p) ps -> (i < length ps)%nat -> (j < length ps)%nat ->
  (nth i (mc_scaled t ps) 0 <= nth j (mc_scaled t ps) 0 <-> nth j ps 0 <= nth i ps 0).
Proof.
  intros t ps i j Ht F Hi Hj. rewrite !mc_nth by assumption. rewrite div_le_iff by (apply z_pos; now apply len_ne in Hi). rewrite exp_le.
  rewrite <- (ln_div_le (- t) (nth j ps 0) (nth i ps 0)) by (lra || now apply pos_nth). assert (forall x, x / t = - (x / - t)) as E by (intros; field; lra). rewrite (E (ln (nth i ps 0))), (E (ln (nth j ps 0))). split; intros; lra.
Qed.
Lemma Rleb_true x y : Rleb x y = true <-> x <= y. Proof. unfold Rleb. destruct (Rle_dec x y); split; intros; try assumption; try reflexivity; try discriminate; contradiction. Qed.
Lemma Rleb_false x y : Rleb x y = false <-> y < x. Proof. unfold Rleb. destruct (Rle_dec x y); split; intros; try reflexivity; try discriminate; lra. Qed.
Lemma rargmax_from_spec : forall l best besti pre, nth besti pre 0 = best -> (besti < length pre)%nat ->
  (forall j, (j < length pre)%nat -> nth j pre 0 <= best) -> (forall j, (j < besti)%nat -> nth j pre 0 < best) ->
  first_max (pre ++ l) (rargmax_from best besti (length pre) l).
Proof.
  induction l as [|x l IH]; intros best bi pre E L M F.
  - rewrite app_nil_r. cbn [rargmax_from]. split; [assumption|]. rewrite E. now split.
  - cbn [rargmax_from]. replace (pre ++ x :: l) with ((pre ++ [x]) ++ l) by (now rewrite <- app_assoc). replace (S (length pre)) with (length (pre ++ [x])) by (rewrite app_length; cbn; lia).
    assert (N1 : forall j, (j < length pre)%nat -> nth j (pre ++ [x]) 0 = nth j pre 0) by (intros; now apply app_nth1).
    assert (N2 : nth (length pre) (pre ++ [x]) 0 = x) by (rewrite app_nth2, Nat.sub_diag by lia; reflexivity).
    destruct (Rleb x best) eqn:X.
    + apply Rleb_true in X. apply IH.
      * now rewrite N1. * rewrite app_length; cbn; lia.
      * intros j Hj. rewrite app_length in Hj; cbn in Hj. destruct (Nat.eq_dec j (length pre)) as [->|]. now rewrite N2. rewrite N1 by lia. apply M. lia.
      * intros j Hj. rewrite N1 by lia. now apply F.
    + apply Rleb_false in X. apply IH.
      * assumption. * rewrite app_length; cbn; lia.
      * intros j Hj. rewrite app_length in Hj; cbn in Hj. destruct (Nat.eq_dec j (length pre)) as [->|]. rewrite N2. lra. rewrite N1 by lia. specialize (M j ltac:(lia)). lra.
      * intros j Hj. rewrite N1 by lia. specialize (M j ltac:(lia)). lra.
Qed.
Lemma rargmax_spec l : l <> [] -> first_max l (rargmax l).
Proof.
  destruct l as [|x l]; [easy|]. intros _. apply (rargmax_from_spec l x 0 [x]); auto. intros j Hj. cbn in Hj. replace j with O by lia. cbn. lra. intros; lia.
Qed.
Lemma first_max_unique l i j : first_max l i -> first_max l j -> i = j.
Proof.
  intros [A [B C]] [A' [B' C']]. destruct (lt_eq_lt_dec i j) as [[H|H]|H]; [|assumption|].
  specialize (C' i H). specialize (B j A'). lra. specialize (C j H). specialize (B' i A). lra.
Qed.
Theorem mc_prediction : forall t ps, 0 < t -> ps <> [] -> Forall (fun p => 0 < p) ps ->
  first_max (mc_scaled t ps) (mc_predict ps) /\ rargmax (mc_scaled t ps) = mc_predict ps.
Proof.
  intros t ps Ht H F. assert (M := rargmax_spec ps H). assert (G : first_max (mc_scaled t ps) (mc_predict ps)).
  { destruct M as [A [B C]]. unfold mc_predict. split; [now rewrite mc_length|]. rewrite mc_length. split; intros j Hj. apply mc_order; auto.
    assert (Hj' : (j < length ps)%nat) by lia. destruct (Rlt_le_dec (nth j (mc_scaled t ps) 0) (nth (rargmax ps) (mc_scaled t ps) 0)) as [X|X]; [assumption|]. apply mc_order in X; auto. specialize (C j Hj). lra. }
  split; [assumption|]. eapply first_max_unique; [|exact G]. apply rargmax_spec. intros E. assert (L := mc_length t ps). rewrite E in L. destruct ps; [easy|discriminate].
Qed.
Lemma nth_ext0 (l m : list R) : length l = length m -> (forall i, (i < length l)%nat -> nth i l 0 = nth i m 0) -> l = m.
Proof. intros L H. apply (nth_ext _ _ 0 0 L H). Qed.
Theorem mc_identity : forall ps, ps <> [] -> rdistribution ps -> mc_scaled 1 ps = ps.
Proof.
  intros ps H [F T]. apply nth_ext0; [apply mc_length|]. intros i Hi. rewrite mc_length in Hi. rewrite mc_nth by assumption.
  assert (Z : z_of 1 ps = 1). { rewrite <- T at 2. unfold z_of. rewrite map_map. unfold rtotal, rsum. f_equal. rewrite <- (map_id ps) at 2. apply map_ext_in. intros p Hp. rewrite Forall_forall in F. unfold Rdiv. rewrite Rinv_1, Rmult_1_r. apply exp_ln. now apply F. }
  rewrite Z. unfold Rdiv. rewrite Rinv_1, !Rmult_1_r. apply exp_ln. now apply pos_nth.
Qed.
(** softmax only sees differences of its entries *)
Lemma softmax_shift xs c : softmax (map (fun x => x - c) xs) = softmax xs.
Proof.
  destruct xs as [|x0 xs0]; [reflexivity|]. set (xs := x0 :: xs0). assert (P := rsum_exp_pos xs ltac:(easy)).
  assert (S0 : rsum (map exp (map (fun x => x - c) xs)) = rsum (map exp xs) * exp (- c)).
  { rewrite map_map. clear P. induction xs as [|y ys IH]; cbn [map rsum fold_right]. ring. unfold rsum in IH. rewrite IH. unfold Rminus. rewrite exp_plus. ring. }
  unfold softmax. rewrite map_map, S0. apply map_ext. intros x. unfold Rminus. rewrite exp_plus. assert (Q := exp_pos (- c)). field. lra.
Qed.
Theorem mc_compose : forall s t ps, s <> 0 -> t <> 0 -> ps <> [] -> Forall (fun p => 0 < p) ps -> mc_scaled t (mc_scaled s ps) = mc_scaled (s * t) ps.
Proof.
  intros s t ps Hs Ht H F. assert (P := z_pos s ps H). change (softmax (map (fun p => ln p / t) (mc_scaled s ps)) = softmax (map (fun p => ln p / (s * t)) ps)). rewrite <- (softmax_shift (map (fun p => ln p / (s * t)) ps) (ln (z_of s ps) / t)).
  f_equal. unfold mc_scaled, softmax. rewrite !map_map. apply map_ext. intros p.
  replace (rsum (map (fun x => exp (ln x / s)) ps)) with (z_of s ps) by (unfold z_of; now rewrite map_map).
  unfold Rdiv at 2. rewrite ln_mult, ln_Rinv, ln_exp; auto using exp_pos, Rinv_0_lt_compat. field. split; assumption.
Qed.
Lemma rsum_le {A} (f g : A -> R) l : (forall x, In x l -> f x <= g x) -> rsum (map f l) <= rsum (map g l).
Proof. induction l as [|x l IH]; intros H; cbn [map rsum fold_right]. lra. apply Rplus_le_compat. apply H. now left. apply IH. intros. apply H. now right. Qed.
Lemma z_shift u a ps : rsum (map (fun p => exp ((ln p - a) / u)) ps) = z_of u ps / exp (a / u).
Proof.
  unfold z_of. rewrite !map_map. induction ps as [|p ps IH]; cbn [map rsum fold_right]. unfold Rdiv. ring. unfold rsum in IH. rewrite IH. replace ((ln p - a) / u) with (ln p / u + - (a / u)) by (unfold Rdiv; ring). rewrite exp_plus, exp_Ropp. unfold Rdiv. ring.
Qed.
(** a larger temperature never raises the largest probability *)
Theorem mc_flatten : forall s t ps, 0 < s <= t -> ps <> [] -> Forall (fun p => 0 < p) ps ->
  nth (mc_predict ps) (mc_scaled t ps) 0 <= nth (mc_predict ps) (mc_scaled s ps) 0.
Proof.
  intros s t ps [Hs Hst] H F. destruct (rargmax_spec ps H) as [A [B _]]. fold (mc_predict ps) in *. set (k := mc_predict ps) in *. clearbody k. rewrite !mc_nth by assumption.
  assert (Ps := z_pos s ps H). assert (Pt := z_pos t ps H). set (a := ln (nth k ps 0)) in *.
  assert (E : forall u, 0 < u -> exp (a / u) / z_of u ps = / rsum (map (fun p => exp ((ln p - a) / u)) ps)).
  { intros u Hu. assert (X : rsum (map (fun p => exp ((ln p - a) / u)) ps) = z_of u ps / exp (a / u)) by apply z_shift.
    rewrite X. assert (G := z_pos u ps H). assert (G' := exp_pos (a / u)). field. split; lra. }
  rewrite !E by lra. apply Rinv_le_contravar.
  - rewrite <- map_map with (f := fun p => (ln p - a) / s) (g := exp). apply rsum_exp_pos. destruct ps; easy.
  - apply rsum_le. intros p Hp. apply exp_le. apply (In_nth _ _ 0) in Hp. destruct Hp as [i [Hi <-]].
    assert (ln (nth i ps 0) <= a). { assert (X := B i Hi). assert (Y := pos_nth ps i F Hi). destruct (Rle_lt_or_eq_dec _ _ X) as [Z|Z]. unfold a. apply ln_increasing in Z; lra. unfold a. rewrite Z. lra. }
    assert (Is : / t <= / s) by (apply Rinv_le_contravar; lra). unfold Rdiv. 
    assert (0 <= (a - ln (nth i ps 0)) * (/ s - / t)) by (apply Rmult_le_pos; lra). lra.
Qed.
(** ---- loss and grid ---- *)
Lemma log_softmax_nth xs i : (i < length xs)%nat -> nth i (log_softmax xs) 0 = ln (nth i (softmax xs) 0).
Proof.
  intros H. assert (P := rsum_exp_pos xs ltac:(now apply len_ne in H)). rewrite softmax_nth by assumption. unfold Rdiv. rewrite ln_mult, ln_Rinv, ln_exp; auto using exp_pos, Rinv_0_lt_compat.
  unfold log_softmax. rewrite (nth_indep _ 0 (0 - ln (rsum (map exp xs)))) by now rewrite map_length. rewrite (map_nth (fun x => x - ln (rsum (map exp xs)))). ring.
Qed.
Theorem mc_loss_nll : forall rows ys t, Forall2 (fun r y => (y < length r)%nat) rows ys -> mc_loss rows ys t = nll (map (mc_scaled t) rows) ys.
Proof.
  intros rows ys t F. unfold mc_loss, nll. f_equal. change rtotal with rsum. f_equal. induction F as [|r y rows ys Hy F IH]; [reflexivity|]. cbn [combine map fst snd]. rewrite IH. f_equal.
  rewrite log_softmax_nth by now rewrite map_length. reflexivity.
Qed.
Lemma rsum_ge (l : list R) x : Forall (fun p => 0 < p) l -> In x l -> x <= rsum l.
Proof.
  induction l as [|y l IH]; intros F Hx; [destruct Hx|]. inversion F; subst. cbn [rsum fold_right]. destruct Hx as [->|Hx].
  assert (0 <= fold_right Rplus 0 l). { clear - H2. induction H2; cbn [fold_right]; lra. } lra.
  specialize (IH H2 Hx). unfold rsum in IH. lra.
Qed.
Theorem mc_loss_nonneg : forall rows ys t, Forall2 (fun r y => (y < length r)%nat) rows ys -> 0 <= mc_loss rows ys t.
Proof.
  intros rows ys t F. rewrite mc_loss_nll by assumption. unfold nll. assert (rtotal (map (fun ry => ln (nth (snd ry) (fst ry) 0)) (combine (map (mc_scaled t) rows) ys)) <= 0); [|lra].
  induction F as [|r y rows ys Hy F IH]; cbn [combine map rtotal fold_right fst snd]. lra. unfold rtotal in IH.
  assert (D := mc_distribution t r ltac:(now apply len_ne in Hy)). destruct D as [L [D T]].
  assert (X : nth y (mc_scaled t r) 0 <= 1). { rewrite <- T. apply rsum_ge; [assumption|]. apply nth_In. now rewrite L. }
  assert (Y : 0 < nth y (mc_scaled t r) 0) by (apply pos_nth; [assumption|now rewrite L]).
  assert (ln (nth y (mc_scaled t r) 0) <= 0). { destruct (Rle_lt_or_eq_dec _ _ X) as [Z|Z]. apply ln_increasing in Z; [rewrite ln_1 in Z; lra|assumption]. rewrite Z, ln_1. lra. } lra.
Qed.
Lemma rbest (loss : R -> R) : forall l b x, In x (b :: l) -> loss (best_from R Rleb R loss b l) <= loss x.
Proof.
  induction l as [|y l IH]; intros b x Hx; cbn [best_from]. destruct Hx as [->|[]]. lra.
  destruct (Rleb (loss b) (loss y)) eqn:E; [apply Rleb_true in E|apply Rleb_false in E].
  - destruct Hx as [->|[->|Hx]]. apply IH. now left. assert (A := IH b b ltac:(now left)). lra. apply IH. now right.
  - destruct Hx as [->|[->|Hx]]. assert (A := IH y y ltac:(now left)). lra. apply IH. now left. apply IH. now right.
Qed.
Lemma rlinspace_in lo hi n i : (i < n)%nat -> In (rgrid_point lo hi n i) (rlinspace lo hi n).
Proof. intros H. unfold rlinspace, rgrid_point. apply in_map_iff. exists i. split; [reflexivity|]. apply in_seq. lia. Qed.
Lemma rlinspace_cons lo hi : rlinspace lo hi 1000 = hd 0 (rlinspace lo hi 1000) :: tl (rlinspace lo hi 1000).
Proof. unfold rlinspace. change (seq 0 1000) with (0%nat :: seq 1 999). reflexivity. Qed.
Theorem mc_optimal : forall finish rows ys i, improves Rle finish -> (i < 1000)%nat ->
  mc_loss rows ys (fit_mc finish rows ys) <= mc_loss rows ys (rgrid_point (/ 10 ^ 6) 10 1000 i).
Proof.
  intros finish rows ys i I Hi. unfold fit_mc. cbv zeta. unfold brute. eapply Rle_trans; [apply I|]. apply rbest. rewrite <- rlinspace_cons. now apply rlinspace_in.
Qed.
Theorem ce_optimal : forall finish ps ys i, improves Rle finish -> (i < 1000)%nat ->
  ce_loss ps ys (fit_ce finish ps ys) <= ce_loss ps ys (rgrid_point (rmin_list ps) 10 1000 i).
Proof.
  intros finish ps ys i I Hi. unfold fit_ce. cbv zeta. unfold brute. eapply Rle_trans; [apply I|]. apply rbest. rewrite <- rlinspace_cons. now apply rlinspace_in.
Qed.
(** cross-entropy: the logarithms are of numbers strictly between 0 and 1 *)
Lemma ce_clip_range x : 0 < ce_clip x < 1.
Proof.
  assert (P : 0 < / 10 ^ 9 < / 2). { split. apply Rinv_0_lt_compat. lra. apply Rinv_lt_contravar; lra. }
  set (e := / 10 ^ 9) in *. unfold ce_clip. fold e. unfold Rmin, Rmax. destruct (Rle_dec x e); destruct (Rle_dec _ _); lra.
Qed.
Lemma ln_neg x : 0 < x < 1 -> ln x < 0. Proof. intros [A B]. rewrite <- ln_1. now apply ln_increasing. Qed.
Theorem ce_nonneg : forall ps ys t, Forall (fun y => y = 0%Z \/ y = 1%Z) ys -> 0 <= ce_loss ps ys t.
Proof.
  intros ps ys t B. unfold ce_loss. assert (X : rsum (map (fun py : R * Z => IZR (snd py) * ln (ce_clip (fst py / t)) + (1 - IZR (snd py)) * ln (1 - ce_clip (fst py / t))) (combine ps ys)) <= 0).
  { revert ps. induction B as [|y ys Hy B IH]; intros [|p ps]; cbn [combine map rsum fold_right]; try lra. specialize (IH ps). unfold rsum in IH. cbn [fst snd].
    assert (C := ce_clip_range (p / t)). assert (L1 := ln_neg _ C). assert (L2 := ln_neg (1 - ce_clip (p / t)) ltac:(lra)). destruct Hy as [->| ->]; lra. }
  destruct ps as [|p ps]. { cbn [combine map rsum fold_right]. unfold Rdiv. lra. }
  assert (0 < INR (length (p :: ps))) by (apply lt_0_INR; cbn; lia). assert (I := Rinv_0_lt_compat _ H). unfold Rdiv.
  set (S0 := rsum _) in *. assert (0 <= (- S0) * / INR (length (p :: ps))) by (apply Rmult_le_pos; lra). lra.
Qed.
(** ---- output calibrators ---- *)
Lemma softmax_ln_scale xs c : xs <> [] -> softmax (map (fun x => x * c) xs) = softmax (map (fun p => ln p * c) (softmax xs)).
Proof.
  intros H. assert (P := rsum_exp_pos xs H). rewrite <- (softmax_shift (map (fun x => x * c) xs) (ln (rsum (map exp xs)) * c)). f_equal.
  unfold softmax. rewrite !map_map. apply map_ext. intros x. unfold Rdiv. rewrite ln_mult, ln_Rinv, ln_exp; auto using exp_pos, Rinv_0_lt_compat. ring.
Qed.
Theorem logit_scaler_probs : forall lt xs, xs <> [] -> softmax (logit_scaler lt xs) = mc_scaled (exp lt) (softmax xs).
Proof.
  intros lt xs H. unfold logit_scaler, mc_scaled. rewrite softmax_ln_scale by assumption. f_equal. apply map_ext. intros p. now rewrite exp_Ropp.
Qed.
Theorem logit_scaler_init : forall xs, logit_scaler 0 xs = xs.
Proof. intros xs. unfold logit_scaler. rewrite Ropp_0, exp_0. rewrite <- map_id. apply map_ext. intros. ring. Qed.
Theorem logit_scaler_prediction : forall lt xs, xs <> [] -> rargmax (logit_scaler lt xs) = rargmax xs.
Proof.
  intros lt xs H. assert (P := exp_pos (- lt)). assert (N : forall i, nth i (logit_scaler lt xs) 0 = nth i xs 0 * exp (- lt)).
  { intros i. unfold logit_scaler. rewrite <- (map_nth (fun x => x * exp (- lt)) xs 0 i). f_equal. ring. }
  eapply first_max_unique. apply rargmax_spec. unfold logit_scaler. destruct xs; easy. destruct (rargmax_spec xs H) as [A [B C]].
  split; [unfold logit_scaler; now rewrite map_length|]. split; intros j Hj; rewrite !N.
  - apply Rmult_le_compat_r; [lra|]. apply B. unfold logit_scaler in Hj. now rewrite map_length in Hj.
  - apply Rmult_lt_compat_r; [assumption|]. now apply C.
Qed.
Theorem regression_scaler_spec : forall lt xs,
  (Nat.Odd (length xs) -> regression_scaler lt xs = Err ValueError) /\
  (forall ms vs, length ms = length vs -> xs = ms ++ vs -> exists ws, regression_scaler lt xs = Ok (ms ++ ws) /\ length ws = length vs /\
     forall i, (i < length vs)%nat -> exp (nth i ws 0) = exp lt * exp (nth i vs 0)).
Proof.
  intros lt xs. split.
  - intros O. unfold regression_scaler. destruct (Nat.even (length xs)) eqn:E; [|reflexivity]. apply Nat.even_spec in E. exfalso. destruct O as [a Ha], E as [b Hb]. lia.
  - intros ms vs L ->. exists (map (fun v => v + lt) vs). unfold regression_scaler. rewrite app_length, L.
    assert (E : Nat.even (length vs + length vs) = true) by (apply Nat.even_spec; exists (length vs); lia). rewrite E. cbn [negb].
    assert (D : ((length vs + length vs) / 2 = length vs)%nat). { replace (length vs + length vs)%nat with (length vs * 2)%nat by lia. apply Nat.div_mul. lia. }
    rewrite D, <- L, firstn_app, skipn_app, Nat.sub_diag, firstn_all, skipn_all. cbn [firstn skipn app]. rewrite app_nil_r. split; [reflexivity|]. split; [now rewrite map_length|].
    intros i Hi. rewrite (nth_indep _ 0 (0 + lt)) by (rewrite map_length; lia). rewrite (map_nth (fun v => v + lt)). rewrite exp_plus. ring.
Qed.
Lemma toy_scaled : mc_scaled (/ 2) [/ 4; 3 / 4] = [/ 10; 9 / 10].
Proof.
  unfold mc_scaled, softmax. cbn [map rsum fold_right]. assert (E : forall p, 0 < p -> exp (ln p / / 2) = p * p).
  { intros p Hp. unfold Rdiv. rewrite Rinv_inv. replace (ln p * 2) with (ln p + ln p) by ring. now rewrite exp_plus, exp_ln. }
  rewrite !E by lra. apply (f_equal2 cons); [field|apply (f_equal2 cons); [field|reflexivity]].
Qed.
