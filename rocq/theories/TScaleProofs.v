From Coq Require Import List Arith ZArith QArith Qminmax Bool Lia Lqa.
From Verif Require Import Lib QuantModel QuantProofs ConfRegModel ConfRegProofs ConfClassModel MetricSpec MetricProofs MetricProofs2 MultiSpec OneShotModel OneShotSpec TempModel TempSpec TempProofs TempProofs2 TScaleModel TScaleSpec.
Import ListNotations.
Open Scope Q_scope.

Lemma ndiv_quotient a b : quotient a b (ndiv (Fin a) (Fin b)).
Proof.
  unfold ndiv. repeat split.
  - intros N. rewrite nz_eqb by exact N. eexists. split; [reflexivity|]. field. exact N.
  - intros Z P. rewrite (proj2 (qeq_bool_iff _ _) Z), nz_eqb by lra. now rewrite (proj2 (Qltb_true _ _) P).
  - intros Z P. rewrite (proj2 (qeq_bool_iff _ _) Z), nz_eqb by lra. destruct (Qlt_bool 0 a) eqn:E; [|reflexivity]. apply Qltb_true in E. lra.
  - intros Z P. now rewrite (proj2 (qeq_bool_iff _ _) Z), (proj2 (qeq_bool_iff _ _) P).
Qed.
Lemma quotient_scale a b a' b' k t : 0 < k -> a' == a * k -> b' == b * k -> quotient a b t -> quotient a' b' t.
Proof.
  intros K A B (H1 & H2 & H3 & H4). assert (ZB : b' == 0 <-> b == 0). { rewrite B. split; [intros X; apply Qmult_integral in X; destruct X; lra|intros ->; ring]. }
  repeat split.
  - intros N. destruct H1 as (q & -> & E); [now rewrite <- ZB|]. exists q. split; [reflexivity|]. rewrite A, B, <- E. ring.
  - intros Z P. apply H2; [now apply ZB|]. apply Qnot_le_lt. intros L. assert (a * k <= 0 * k) by (apply Qmult_le_compat_r; lra). lra.
  - intros Z P. apply H3; [now apply ZB|]. apply Qnot_le_lt. intros L. assert (0 * k <= a * k) by (apply Qmult_le_compat_r; lra). lra.
  - intros Z P. apply H4; [now apply ZB|]. rewrite A in P. apply Qmult_integral in P. destruct P; lra.
Qed.
Lemma nmean_fin l : l <> [] -> nmean l = Fin (total l / nQ (length l)).
Proof. destruct l; [easy|reflexivity]. Qed.
Lemma len_pos {A} (l : list A) : l <> [] -> 0 < nQ (length l).
Proof. destruct l as [|x l]; [easy|]. intros _. unfold nQ, Qlt. cbn. lia. Qed.
Lemma not_mapped {A B} (f : A -> B) l : l <> [] -> map f l <> [].
Proof. destruct l; [easy|discriminate]. Qed.
Lemma mean_quotient l m : l <> [] -> m <> [] -> quotient (total l * nQ (length m)) (total m * nQ (length l)) (ndiv (nmean l) (nmean m)).
Proof.
  intros Hl Hm. rewrite !nmean_fin by assumption. assert (P := len_pos l Hl). assert (P' := len_pos m Hm).
  apply (quotient_scale (total l / nQ (length l)) (total m / nQ (length m)) _ _ (nQ (length l) * nQ (length m))); [now apply Qmult_lt_0_compat|field; lra|field; lra|apply ndiv_quotient].
Qed.
Section Binary.
Variable ce : list Q -> list Z -> Q.
Variable finish : (Q -> option Q) -> Q -> Q.
Notation bfit := (bfit ce finish).
Lemma fit_good m o l t th : y_axes t = 1%nat -> y_dtype t = Int64 -> let o1 := match m with F1 => with_threshold th o | _ => o end in
  bfit m o (Vec l) t th = match temperature_of ce finish m l (y_values t) th with Err e => (Err e, o1) | Ok x => (Ok tt, with_temp x o1) end.
Proof. intros A B. unfold TScaleModel.bfit, check_targets. rewrite A, B. reflexivity. Qed.
Theorem fit_checks m o ps t th : ~ good_call ps t -> bfit m o ps t th = (Err ValueError, o).
Proof.
  intros N. unfold TScaleModel.bfit. destruct ps as [l|rows]; [|reflexivity]. cbn [check_probs bind]. unfold check_targets. destruct (Nat.eqb_spec (y_axes t) 1) as [A|A]; [|reflexivity]. cbn [negb].
  destruct (y_dtype t) eqn:D; try reflexivity. exfalso. apply N. repeat split; assumption.
Qed.
Lemma stretch_errors {A B} (xs : list A) (ys : list B) : (compatible xs ys -> exists l, stretch xs ys = Ok l) /\ (~ compatible xs ys -> stretch xs ys = Err ValueError).
Proof.
  unfold compatible, stretch. destruct (Nat.eqb_spec (length xs) (length ys)) as [E|E].
  - split; [intros _; eexists; reflexivity|]. intros N. exfalso. apply N. now left.
  - destruct xs as [|x [|x' xs]], ys as [|y [|y' ys]]; cbn in *; split; intros H; try (eexists; reflexivity); try reflexivity; try (exfalso; apply H; lia); exfalso; lia.
Qed.
Theorem fit_outcome m o l t th : y_axes t = 1%nat -> y_dtype t = Int64 -> let ys := y_values t in let r := fst (bfit m o (Vec l) t th) in
  (m = Bias -> r = Ok tt) /\ (m = Brier -> (compatible l ys -> r = Ok tt) /\ (~ compatible l ys -> r = Err ValueError)) /\
  (m = CrossEntropy -> searchable l ys -> (l <> [] /\ length l = length ys -> r = Ok tt) /\ (l = [] \/ length l <> length ys -> r = Err ValueError)) /\
  (m = F1 -> searchable l ys -> (l = [] -> r = Err ValueError) /\ (l <> [] -> th == 0 -> r = Err ZeroDivisionError) /\
     (l <> [] -> ~ th == 0 -> (length l = length ys -> r = Ok tt) /\ (length l <> length ys -> r = Err ValueError))).
Proof.
  intros A B ys r. unfold r. rewrite (fit_good m o l t th A B). fold ys. split; [|split; [|split]]; intros ->; cbn [temperature_of].
  - reflexivity.
  - destruct (stretch_errors l ys) as [S1 S2]. split; intros C; [destruct (S1 C) as (z & ->)|rewrite (S2 C)]; reflexivity.
  - intros _. destruct l as [|x l']; [split; [intros [H _]; now contradiction H|reflexivity]|]. destruct (Nat.eqb_spec (length (x :: l')) (length ys)) as [E|E]; split; intros H; try reflexivity; [destruct H; [discriminate|contradiction]|destruct H; contradiction].
  - intros _. destruct l as [|x l']; [split; [reflexivity|split; intros H; now contradiction H]|]. split; [discriminate|]. split.
    + intros _ Z. now rewrite (proj2 (qeq_bool_iff _ _) Z).
    + intros _ N. rewrite nz_eqb by exact N. destruct (Nat.eqb_spec (length (x :: l')) (length ys)) as [E|E]; split; intros H; try reflexivity; contradiction.
Qed.
Theorem temperatures o l t th : y_axes t = 1%nat -> y_dtype t = Int64 -> let ys := y_values t in
  (exists x, s_temp (snd (bfit Bias o (Vec l) t th)) = Some x /\ (l = [] \/ ys = [] -> x = NaN) /\ (l <> [] -> ys <> [] -> quotient (sum_of l * nQ (length ys)) (sum_labels ys * nQ (length l)) x)) /\
  (l <> [] -> length l = length ys -> exists x, s_temp (snd (bfit Brier o (Vec l) t th)) = Some x /\ quotient (total (map (fun p => p * p) l)) (sum2 (fun p y => p * inject_Z y) l ys) x) /\
  (forall y, (2 <= length l)%nat -> ys = [y] -> exists x, s_temp (snd (bfit Brier o (Vec l) t th)) = Some x /\ quotient (total (map (fun p => p * p) l)) (inject_Z y * sum_of l) x).
Proof.
  intros A B ys. assert (FB := fit_good Brier o l t th A B). cbv zeta in FB. rewrite (fit_good Bias o l t th A B). rewrite FB. clear FB. fold ys. cbn [temperature_of snd with_temp s_temp]. split; [|split].
  - eexists. split; [reflexivity|]. split.
    + intros [->| ->]; [reflexivity|]. destruct l; reflexivity.
    + intros Hl Hy. unfold sum_of, sum_labels. assert (Q := mean_quotient l (map inject_Z ys) Hl (not_mapped _ _ Hy)). rewrite map_length in Q. exact Q.
  - intros Hl L. unfold stretch. rewrite (proj2 (Nat.eqb_eq _ _) L). cbn [bind snd with_temp s_temp]. eexists. split; [reflexivity|]. assert (NC : combine l ys <> []) by (destruct l, ys; try easy; discriminate).
    assert (Q := mean_quotient (map (fun p => p * p) l) (map (fun py => fst py * inject_Z (snd py)) (combine l ys)) (not_mapped _ _ Hl) (not_mapped _ _ NC)). rewrite !map_length, combine_length, <- L, Nat.min_id in Q.
    assert (P := len_pos l Hl). apply (quotient_scale _ _ _ _ (/ nQ (length l)) _) with (4 := Q); [apply Qinv_lt_0_compat; exact P|field; lra|]. rewrite (sum2_tot (fun p y => p * inject_Z y) l ys). unfold tot.
    change (qsum (map (fun p => fst p * inject_Z (snd p)) (combine l ys))) with (total (map (fun py => fst py * inject_Z (snd py)) (combine l ys))). field. lra.
  - intros y L E. rewrite E. assert (Hl : l <> []) by (destruct l; [cbn in L; lia|discriminate]). assert (S : stretch l [y] = Ok (map (fun x => (x, y)) l)).
    { unfold stretch. destruct (Nat.eqb_spec (length l) (length [y])) as [X|X]; [cbn in X; lia|]. destruct l as [|a [|b l]]; reflexivity. }
    rewrite S. cbn [bind snd with_temp s_temp]. eexists. split; [reflexivity|]. rewrite map_map. cbn [fst snd].
    assert (Q := mean_quotient (map (fun p => p * p) l) (map (fun x => x * inject_Z y) l) (not_mapped _ _ Hl) (not_mapped _ _ Hl)). rewrite !map_length in Q. assert (P := len_pos l Hl).
    apply (quotient_scale _ _ _ _ (/ nQ (length l)) _) with (4 := Q); [apply Qinv_lt_0_compat; exact P|field; lra|].
    assert (E2 : total (map (fun x => x * inject_Z y) l) == inject_Z y * sum_of l). { clear. unfold sum_of. induction l as [|x l IH]; [unfold total; cbn; ring|]. cbn [map]. unfold total in *. cbn [fold_right]. rewrite IH. ring. }
    rewrite E2. field. lra.
Qed.
(** ---- histories ---- *)
Theorem refit m o ps t th : let r := bfit m o ps t th in
  match fst r with
  | Ok _ => forall o2, fst (bfit m o2 ps t th) = Ok tt /\ same_answers m (snd (bfit m o2 ps t th)) (snd r)
  | Err e => s_temp (snd r) = s_temp o /\ (forall p, bproba (snd r) p = bproba o p) /\ (m <> F1 -> snd r = o)
  end.
Proof.
  intros r. unfold r, TScaleModel.bfit. destruct (bind (check_probs ps) _) as [[l ys]|e]; [|cbn [fst snd]; repeat split; reflexivity].
  destruct (temperature_of ce finish m l ys th) as [x|e]; cbn [fst snd].
  - intros o2. split; [reflexivity|]. intros p c. split; [destruct m; reflexivity|]. destruct m; reflexivity.
  - destruct m; cbn; repeat split; try reflexivity; intros H; now contradiction H.
Qed.
Lemma used_threshold m o : used ce finish m o -> m = F1 -> s_temp o <> None -> s_threshold o <> None.
Proof.
  intros U ->. induction U as [|o ps t th U IH]; [now intros H|]. unfold TScaleModel.bfit. destruct (bind (check_probs ps) _) as [[l ys]|e]; [|exact IH].
  destruct (temperature_of ce finish F1 l ys th); cbn [snd with_temp with_threshold s_threshold s_temp]; intros _; discriminate.
Qed.
Lemma answer_of t p : answer_is t p (nscaled t p).
Proof.
  destruct t as [q|b|]; cbn [nscaled answer_is]; [|eexists; split; [reflexivity|reflexivity]|reflexivity].
  split; [intros N; exact (scaled_nz q p N)|]. unfold scaled. split; [|split]; intros Z P; rewrite (proj2 (qeq_bool_iff _ _) Z).
  - now rewrite (proj2 (qeq_bool_iff _ _) P).
  - rewrite nz_eqb by lra. rewrite (proj2 (Qltb_true _ _) P). eexists. split; reflexivity.
  - rewrite nz_eqb by lra. destruct (Qlt_bool 0 p) eqn:E; [apply Qltb_true in E; lra|]. eexists. split; reflexivity.
Qed.
Theorem probabilities o ps : (axes ps <> 1%nat -> bproba o ps = Err ValueError) /\ (axes ps = 1%nat -> s_temp o = None -> bproba o ps = Err TypeError) /\
  forall l t, ps = Vec l -> s_temp o = Some t -> exists cs, bproba o ps = Ok cs /\ Forall2 (answer_is t) l cs.
Proof.
  split; [|split].
  - destruct ps; [intros H; now contradiction H|reflexivity].
  - destruct ps; [|discriminate]. intros _ E. unfold bproba. cbn. now rewrite E.
  - intros l t -> E. unfold bproba. cbn. rewrite E. eexists. split; [reflexivity|]. clear. induction l; cbn; constructor; [apply answer_of|assumption].
Qed.
Theorem predictions m o ps th : used ce finish m o -> (forall e, bproba o ps = Err e -> bpredict m o ps th = Err e) /\
  forall cs, bproba o ps = Ok cs -> exists limit bs, bpredict m o ps th = Ok bs /\
    (m = F1 -> s_threshold o = Some limit) /\ (m <> F1 -> limit = match th with Some x => x | None => 1 # 2 end) /\
    Forall2 (fun c b => b = true <-> exists x, c = Some x /\ limit <= x) cs bs.
Proof.
  intros U. split; [intros e E; unfold bpredict; now rewrite E|]. intros cs E.
  assert (D : forall limit cs, Forall2 (fun c b => b = true <-> exists x, c = Some x /\ limit <= x) cs (map (decide limit) cs)).
  { clear. intros limit cs. induction cs as [|c cs IH]; cbn [map]; constructor; [|exact IH]. destruct c as [x|]; cbn [decide].
    - rewrite Qleb_true. split; [intros H; now exists x|]. intros (y & [= <-] & H). exact H.
    - split; [discriminate|]. intros (y & X & _). discriminate X. }
  assert (NT : s_temp o <> None). { intros X. unfold bproba in E. rewrite X in E. destruct (check_probs ps); discriminate. }
  unfold bpredict. rewrite E. cbn [bind]. destruct m.
  1-3: exists (match th with Some x => x | None => 1 # 2 end); eexists; split; [reflexivity|]; split; [discriminate|]; split; [reflexivity|]; apply D.
  assert (H := used_threshold F1 o U eq_refl NT). destruct (s_threshold o) as [q|]; [|now contradiction H]. exists q. eexists. split; [reflexivity|]. split; [reflexivity|]. split; [intros X; now contradiction X|]. apply D.
Qed.

(** ---- on the calibration data ---- *)
Lemma labels_zero ys : Forall (fun y => y = 0%Z) ys -> sum_labels ys == 0.
Proof. unfold sum_labels, total. induction 1 as [|y ys -> H IH]; [reflexivity|]. cbn [map fold_right]. rewrite IH. reflexivity. Qed.
Lemma products_zero l : forall ys, Forall (fun y => y = 0%Z) ys -> sum2 (fun p y => p * inject_Z y) l ys == 0.
Proof. induction l as [|p l IH]; intros [|y ys] H; try reflexivity. inversion H; subst. cbn [sum2]. rewrite (IH ys) by assumption. change (inject_Z 0) with 0. ring. Qed.
Lemma total_pos l p : Forall (fun x => 0 <= x) l -> In p l -> 0 < p -> 0 < total l.
Proof. intros F I P. assert (X := tot_pos (fun x => x) l p). unfold tot in X. rewrite map_id in X. apply X; auto. intros y Hy. rewrite Forall_forall in F. now apply F. Qed.
Lemma squares l : Forall (fun x => 0 <= x) (map (fun p => p * p) l).
Proof. apply Forall_forall. intros x I. apply in_map_iff in I. destruct I as (p & <- & _). apply sq_nonneg. Qed.
Theorem no_positive m o l t th p : m = Bias \/ m = Brier -> y_axes t = 1%nat -> y_dtype t = Int64 -> length l = length (y_values t) -> Forall (fun y => y = 0%Z) (y_values t) -> Forall (fun x => 0 <= x) l -> In p l -> 0 < p ->
  let o' := snd (bfit m o (Vec l) t th) in s_temp o' = Some (Inf true) /\
  forall qs, exists cs, bproba o' (Vec qs) = Ok cs /\ Forall2 (fun _ c => exists x, c = Some x /\ x == 0) qs cs.
Proof.
  intros M A B L Z F I P o'. assert (Hl : l <> []) by (destruct l; [destruct I|discriminate]). assert (Hy : y_values t <> []) by (destruct (y_values t); [destruct l; [easy|discriminate]|discriminate]).
  assert (T : s_temp o' = Some (Inf true)).
  { destruct (temperatures o l t th A B) as (T1 & T2 & _). destruct M as [->| ->]; unfold o'.
    - destruct T1 as (x & -> & _ & Q). destruct (Q Hl Hy) as (_ & Q2 & _). f_equal. apply Q2; [rewrite labels_zero by assumption; ring|]. apply Qmult_lt_0_compat; [now apply (total_pos l p)|now apply len_pos].
    - destruct (T2 Hl L) as (x & -> & _ & Q2 & _). f_equal. apply Q2; [now apply products_zero|]. apply (total_pos _ (p * p)); [apply squares|apply in_map_iff; now exists p|now apply Qmult_lt_0_compat]. }
  split; [exact T|]. intros qs. destruct (proj2 (proj2 (probabilities o' (Vec qs))) qs (Inf true) eq_refl T) as (cs & E & G). exists cs. split; [exact E|exact G].
Qed.
Lemma squared_clipped tau : ~ tau == 0 -> forall l ys, binary ys -> length l = length ys -> squared (map value (map (nscaled (Fin tau)) l)) ys <= sum2 (fun p y => (p / tau - inject_Z y) * (p / tau - inject_Z y)) l ys.
Proof.
  intros N. induction l as [|p l IH]; intros [|y ys] B L; try discriminate. inversion B; subst. unfold squared in *. cbn [map sum2 nscaled]. apply Qplus_le_compat; [|apply IH; [assumption|now injection L]].
  destruct (scaled_nz tau p N) as (c & -> & _ & C). cbn [value]. apply clip_closer; [exact C|]. destruct H1 as [->| ->]; split; discriminate.
Qed.
Theorem brier_improves o l t th p : y_axes t = 1%nat -> y_dtype t = Int64 -> length l = length (y_values t) -> Forall (fun x => 0 <= x) l -> binary (y_values t) -> In (p, 1%Z) (combine l (y_values t)) -> 0 < p ->
  exists o' cs, bfit Brier o (Vec l) t th = (Ok tt, o') /\ bproba o' (Vec l) = Ok cs /\ Forall (fun c => c <> None) cs /\ squared (map value cs) (y_values t) <= squared l (y_values t).
Proof.
  intros A B L F Bi I P. set (ys := y_values t) in *. assert (Hl : l <> []) by (destruct l; [destruct I|discriminate]). destruct (positive_temperature l ys p L F Bi I P) as [_ (tau & ET & PT)].
  rewrite (fit_good Brier o l t th A B). cbn [temperature_of]. fold ys. unfold stretch. rewrite (proj2 (Nat.eqb_eq _ _) L). cbn [bind].
  assert (E : ndiv (nmean (map (fun p => p * p) l)) (nmean (map (fun py => fst py * inject_Z (snd py)) (combine l ys))) = Fin tau).
  { assert (NC : combine l ys <> []) by (intros X; rewrite X in I; destruct I). rewrite (nmean_fin (map (fun p => p * p) l) (not_mapped _ _ Hl)), (nmean_fin _ (not_mapped _ _ NC)). unfold fit_brier, np_div in ET. change (qmean (map (fun p => p * p) l)) with (total (map (fun p => p * p) l) / nQ (length (map (fun p => p * p) l))) in ET.
    change (qmean (zip_with (fun p y => p * inject_Z y) l ys)) with (total (map (fun py => fst py * inject_Z (snd py)) (combine l ys)) / nQ (length (map (fun py => fst py * inject_Z (snd py)) (combine l ys)))) in ET.
    unfold ndiv. destruct (Qeq_bool (_ / nQ (length (map (fun py => fst py * inject_Z (snd py)) (combine l ys)))) 0); [discriminate|]. injection ET as <-. reflexivity. }
  rewrite E. do 2 eexists. split; [reflexivity|]. split; [reflexivity|]. assert (NZ : ~ tau == 0) by lra. split.
  - apply Forall_forall. intros c Ic. apply in_map_iff in Ic. destruct Ic as (q & <- & _). cbn [nscaled]. destruct (scaled_nz tau q NZ) as (x & -> & _). discriminate.
  - eapply Qle_trans; [apply squared_clipped; assumption|]. assert (O := brier_optimal l ys tau Hl L ET NZ 1 ltac:(lra)). unfold error_scaled in O. assert (PN := len_pos l Hl).
    rewrite (sum2_ext (fun p y => (p / 1 - inject_Z y) * (p / 1 - inject_Z y)) (fun p y => (p - inject_Z y) * (p - inject_Z y))) in O.
    2: { intros x y. assert (x / 1 == x) as -> by field. reflexivity. }
    unfold squared. set (a := sum2 _ l ys) in *. set (b := sum2 (fun p y => (p - inject_Z y) * (p - inject_Z y)) l ys) in *.
    assert (a == a / nQ (length l) * nQ (length l)) as -> by (field; lra). assert (b == b / nQ (length l) * nQ (length l)) as -> by (field; lra). apply Qmult_le_compat_r; lra.
Qed.
Theorem f1_best o l t th i : y_axes t = 1%nat -> y_dtype t = Int64 -> l <> [] -> length l = length (y_values t) -> binary (y_values t) -> (0 < positives (y_values t))%nat -> 0 < th <= 1 -> improves loss_le finish -> (i < 1000)%nat ->
  exists o' tau, bfit F1 o (Vec l) t th = (Ok tt, o') /\ s_temp o' = Some (Fin tau) /\ s_threshold o' = Some th /\
    (0 < tau -> exists bs, bpredict F1 o' (Vec l) None = Ok bs /\
       f1_score (map (Qle_bool (th * grid_point (qmin_list l) (1 / th) 1000 i)) l) (y_values t) <= f1_score bs (y_values t)).
Proof.
  intros A B Hl L Bi Pos [H0 H1] Imp Hi. rewrite (fit_good F1 o l t th A B). cbn [temperature_of]. destruct l as [|x l']; [easy|]. rewrite nz_eqb by lra. rewrite (proj2 (Nat.eqb_eq _ _) L). do 2 eexists. split; [reflexivity|]. split; [reflexivity|]. split; [reflexivity|].
  intros PT. eexists. split; [reflexivity|]. cbn [with_temp with_threshold s_threshold s_temp nscaled]. set (tau := fit_f1 finish (x :: l') (y_values t) th) in *.
  assert (E : map (decide th) (map (scaled tau) (x :: l')) = predict tau th (x :: l')) by reflexivity.
  assert (G := f1_optimal finish (x :: l') (y_values t) th i Imp Bi Pos Hi). cbv zeta in G. fold tau in G. change (f1_score (map (Qle_bool (th * grid_point (qmin_list (x :: l')) (1 / th) 1000 i)) (x :: l')) (y_values t) <= f1_score (map (decide th) (map (scaled tau) (x :: l'))) (y_values t)).
  rewrite E, predict_threshold by (try split; assumption). exact G.
Qed.
End Binary.
