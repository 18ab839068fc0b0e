(** Credible intervals, and the predictive methods of calibration models. *)
From Coq Require Lqa.
From Coq Require Import List Arith ZArith QArith Qround Qreals Bool Reals Lia Lra String Permutation Sorting.Sorted.
From Verif Require Import Lib ConfRegModel QuantModel QuantProofs LoaderModel LoaderProofs LoaderProofs2 TempModel TempSpec TempProofs3 MetricSpec PredModel PredSpec PredProofs4
  PredProofs5 DrawModel DrawSpec DrawProofs DrawProofs2 LhpModel LhpSpec LhpProofs LhpProofs2 LhpProofs3.
Import ListNotations.
Local Notation length := List.length.
Local Notation concat := List.concat.
Local Open Scope R_scope.
Local Open Scope nat_scope.

Lemma hd_width {X} (ms lvs : X -> list R) rows z m q a w : row_quantiles ms lvs rows z m q a -> rows <> [] -> (forall x, In x rows -> length (ms x) = w) -> length (hd [] a) = w.
Proof.
  intros (L & H) NE W. destruct rows as [|x r]; [congruence|]. destruct (H 0 x eq_refl) as (r0 & E & LR & _).
  destruct a as [|b a]; [discriminate|]. cbn in E. injection E as ->. cbn. rewrite LR. apply W. now left.
Qed.

Lemma one_row {X} (ms lvs : X -> list R) rows z m q a j x : row_quantiles ms lvs rows z m q a -> nth_error rows j = Some x -> length (ms x) = 1 ->
  exists v, nth_error a j = Some [nth 0 (ms x) 0 + sqrt (exp (nth 0 (lvs x) 0)) * v]%R /\ quantile_of (map (fun t => z 1 t j 0) (seq 0 m)) q v.
Proof.
  intros (L & H) E W. destruct (H j x E) as (r & A & LR & C). rewrite W in *. destruct (C 0 ltac:(lia)) as (v & Q & V). exists v.
  split; [|exact Q]. rewrite A. destruct r as [|y [|? ?]]; try discriminate. cbn [nth] in V. now rewrite V.
Qed.

Lemma quantile_state {X P M} label normal (apply : P -> M -> list X -> list (list R)) p mu q m rng g distribute d loader :
  pred_quantile label normal apply (Some (p, mu)) q m rng g distribute d loader = quantile label normal (apply p mu) None q true (Some loader) m None rng g distribute d.
Proof. reflexivity. Qed.

Lemma map_affine (z : nat -> R) (a b : R) m : map (fun y => b + a * y)%R (map z (seq 0 m)) = map (fun t => b + a * z t)%R (seq 0 m).
Proof. now rewrite map_map. Qed.

Theorem two_tailed : forall label X P M normal (apply : P -> M -> list X -> list (list R)) p mu h ms lvs e m rng g distribute d loader,
  (forall xs, apply p mu xs = map h xs) -> divisible distribute d loader -> parts_by h ms lvs (concat loader) ->
  (forall x, In x (concat loader) -> length (ms x) = 1) -> concat loader <> [] -> 1 <= m -> (0 <= e <= 1)%Q ->
  exists a, pred_credible_interval label normal apply (Some (p, mu)) e "two-tailed" m rng g distribute d loader = (Ok a, generator_after label rng g) /\
    length a = length (concat loader) /\
    forall j x, nth_error (concat loader) j = Some x ->
      let mean := nth 0 (ms x) 0%R in let lv := nth 0 (lvs x) 0%R in
      let z := fun t => normal (key_of label rng g) m (length (concat loader)) 1 t j 0 in
      exists v v', let lo := (mean + sqrt (exp lv) * v)%R in let hi := (mean + sqrt (exp lv) * v')%R in
        nth_error a j = Some [lo; hi] /\ quantile_of (map z (seq 0 m)) ((1 # 2) * e) v /\ quantile_of (map z (seq 0 m)) (1 - (1 # 2) * e) v' /\ (lo <= hi)%R /\
        (INR (within lo hi (scalar_draws mean lv z m)) > (1 - Q2R e) * (INR m - 1) - 1)%R.
Proof.
  intros label X P M normal apply p mu h ms lvs e m rng g distribute d loader A D PB W NE M1 E.
  unfold pred_credible_interval. cbn [levels_of existsb String.eqb Ascii.eqb Bool.eqb orb negb].
  change (levels_of e "two-tailed") with (Ok (LevelArray [(1 # 2) * e; 1 - (1 # 2) * e]%Q)). cbv iota beta. rewrite quantile_state.
  set (qs := [(1 # 2) * e; 1 - (1 # 2) * e]%Q).
  destruct (quantile_array label X normal (apply p mu) None h ms lvs qs m rng g distribute d loader (state_outputs apply p mu h A) D PB M1) as (arrays & -> & F).
  { repeat constructor; Lqa.lra. }
  inversion F as [|? lq ? l1 F1 F2]; subst. inversion F2 as [|? uq ? l2 F3 F4]; subst. inversion F4; subst. cbn [bind].
  set (zz := fun w => normal (key_of label rng g) m (length (concat loader)) w) in *.
  cbn [to_intervals]. rewrite (hd_width ms lvs _ zz m _ lq 1 F1 NE W). cbn [Nat.eqb].
  eexists. split; [reflexivity|]. pose proof (proj1 F1) as L1. pose proof (proj1 F3) as L3. split; [rewrite map_length, combine_length; lia|].
  intros j x J. set (mean := nth 0 (ms x) 0%R). set (lv := nth 0 (lvs x) 0%R). set (z := fun t => zz 1 t j 0). assert (W1 : length (ms x) = 1) by (apply W; eapply nth_error_In; eauto).
  destruct (one_row ms lvs _ zz m _ lq j x F1 J W1) as (v & B1 & Q1). destruct (one_row ms lvs _ zz m _ uq j x F3 J W1) as (v' & B3 & Q3).
  exists v, v'. cbv beta zeta. fold mean in B1, B3. fold lv in B1, B3.
  assert (V : (v <= v')%R) by (eapply quantile_mono; [exact Q1|exact Q3|]; Lqa.lra).
  pose proof (sqrt_pos (exp lv)) as SP.
  split; [|split; [exact Q1|split; [exact Q3|split; [nra|]]]].
  - rewrite nth_error_map. assert (C : nth_error (combine lq uq) j = Some ([mean + sqrt (exp lv) * v]%R, [mean + sqrt (exp lv) * v']%R)).
    { clear - B1 B3. revert uq j B1 B3. induction lq as [|a l IH]; intros [|b u] [|j] B1 B3; cbn in *; try discriminate; [congruence|now apply IH]. }
    rewrite C. reflexivity.
  - pose proof (quantile_affine _ _ _ (sqrt (exp lv)) mean SP Q1) as T1. pose proof (quantile_affine _ _ _ (sqrt (exp lv)) mean SP Q3) as T3.
    rewrite map_affine in T1, T3. change (fun t => mean + sqrt (exp lv) * zz 1%nat t j 0%nat)%R with (fun t => mean + sqrt (exp lv) * z t)%R in *.
    fold (scalar_draws mean lv z m) in T1, T3. destruct (quantile_counts _ _ _ T1) as (_ & G1). destruct (quantile_counts _ _ _ T3) as (G3 & _).
    set (l := scalar_draws mean lv z m) in *. assert (LL : length l = m) by (unfold l, scalar_draws; now rewrite map_length, seq_length). rewrite LL in *.
    pose proof (num_both (fun x => if Rle_dec (mean + sqrt (exp lv) * v) x then true else false) (fun x => if Rle_dec x (mean + sqrt (exp lv) * v') then true else false) l) as N.
    fold (at_least (mean + sqrt (exp lv) * v) l) in N. fold (at_most (mean + sqrt (exp lv) * v') l) in N.
    rewrite LL in N. apply le_INR in N. rewrite !plus_INR in N.
    rewrite Q2R_minus, Q2R_mult in G3. rewrite Q2R_mult in G1. replace (Q2R (1 # 2)) with (1 / 2)%R in * by (unfold Q2R; cbn; field). replace (Q2R 1) with 1%R in * by (unfold Q2R; cbn; field).
    unfold within. nra.
Qed.

Theorem one_tailed : forall label X P M normal (apply : P -> M -> list X -> list (list R)) p mu h ms lvs e kind q m rng g distribute d loader,
  (forall xs, apply p mu xs = map h xs) -> divisible distribute d loader -> parts_by h ms lvs (concat loader) ->
  (forall x, In x (concat loader) -> length (ms x) = 1) -> concat loader <> [] -> 1 <= m -> (0 <= e <= 1)%Q ->
  kind = "left-tailed"%string /\ q = e \/ kind = "right-tailed"%string /\ q = (1 - e)%Q ->
  exists a, pred_credible_interval label normal apply (Some (p, mu)) e kind m rng g distribute d loader = (Ok a, generator_after label rng g) /\
    length a = length (concat loader) /\
    forall j x, nth_error (concat loader) j = Some x ->
      let mean := nth 0 (ms x) 0%R in let lv := nth 0 (lvs x) 0%R in
      let z := fun t => normal (key_of label rng g) m (length (concat loader)) 1 t j 0 in
      exists v, let b := (mean + sqrt (exp lv) * v)%R in nth_error a j = Some [b] /\ quantile_of (map z (seq 0 m)) q v /\
        (INR (at_most b (scalar_draws mean lv z m)) > Q2R q * (INR m - 1))%R /\ (INR (at_least b (scalar_draws mean lv z m)) > (1 - Q2R q) * (INR m - 1))%R.
Proof.
  intros label X P M normal apply p mu h ms lvs e kind q m rng g distribute d loader A D PB W NE M1 E K.
  unfold pred_credible_interval. replace (levels_of e kind) with (@Ok levels (Level q)) by (destruct K as [(-> & ->)|(-> & ->)]; reflexivity).
  rewrite quantile_state.
  destruct (quantile_level label X normal (apply p mu) None h ms lvs q m rng g distribute d loader (state_outputs apply p mu h A) D PB M1) as (a & -> & F).
  { destruct K as [(_ & ->)|(_ & ->)]; Lqa.lra. }
  set (zz := fun w => normal (key_of label rng g) m (length (concat loader)) w) in *.
  cbn [bind to_intervals]. rewrite (hd_width ms lvs _ zz m _ a 1 F NE W). cbn [Nat.eqb].
  exists a. split; [reflexivity|]. split; [apply F|]. intros j x J. set (mean := nth 0 (ms x) 0%R). set (lv := nth 0 (lvs x) 0%R). set (z := fun t => zz 1 t j 0). assert (W1 : length (ms x) = 1) by (apply W; eapply nth_error_In; eauto).
  destruct (one_row ms lvs _ zz m _ a j x F J W1) as (v & B & Q). exists v. cbv zeta. split; [exact B|]. split; [exact Q|].
  pose proof (quantile_affine _ _ _ (sqrt (exp lv)) mean (sqrt_pos (exp lv)) Q) as T. rewrite map_affine in T.
  change (fun t => mean + sqrt (exp lv) * zz 1%nat t j 0%nat)%R with (fun t => mean + sqrt (exp lv) * z t)%R in *. fold (scalar_draws mean lv z m) in T.
  pose proof (quantile_counts _ _ _ T) as G. replace (length (scalar_draws mean lv z m)) with m in G by (unfold scalar_draws; now rewrite map_length, seq_length). exact G.
Qed.

Theorem interval_refused : forall label X P M normal (apply : P -> M -> list X -> list (list R)) state e kind m rng g distribute d loader,
  kind <> "two-tailed"%string -> kind <> "left-tailed"%string -> kind <> "right-tailed"%string ->
  pred_credible_interval label normal apply state e kind m rng g distribute d loader = (Err ValueError, g).
Proof.
  intros label X P M normal apply state e kind m rng g distribute d loader A B C. unfold pred_credible_interval, levels_of. cbn [existsb].
  apply String.eqb_neq in A, B, C. now rewrite A, B, C.
Qed.

Theorem interval_vectors : forall label X P M normal (apply : P -> M -> list X -> list (list R)) p mu h ms lvs w e kind m rng g distribute d loader,
  (forall xs, apply p mu xs = map h xs) -> divisible distribute d loader -> parts_by h ms lvs (concat loader) ->
  (forall x, In x (concat loader) -> length (ms x) = w) -> w <> 1 -> concat loader <> [] -> 1 <= m -> (0 <= e <= 1)%Q ->
  In kind ["two-tailed"; "left-tailed"; "right-tailed"]%string ->
  fst (pred_credible_interval label normal apply (Some (p, mu)) e kind m rng g distribute d loader) = Err ValueError.
Proof.
  intros label X P M normal apply p mu h ms lvs w e kind m rng g distribute d loader A D PB W W1 NE M1 E K. unfold pred_credible_interval.
  assert (ON : forall q, (0 <= q <= 1)%Q -> fst (let '(r, g') := pred_quantile label normal apply (Some (p, mu)) (Level q) m rng g distribute d loader in (bind r to_intervals, g')) = Err ValueError).
  { intros q Q. rewrite quantile_state.
    destruct (quantile_level label X normal (apply p mu) None h ms lvs q m rng g distribute d loader (state_outputs apply p mu h A) D PB M1 Q) as (a & -> & F).
    cbn [bind to_intervals fst]. rewrite (hd_width _ _ _ _ _ _ a w F NE W). apply Nat.eqb_neq in W1. now rewrite W1. }
  destruct K as [<-|[<-|[<-|[]]]].
  - change (levels_of e "two-tailed") with (Ok (LevelArray [(1 # 2) * e; 1 - (1 # 2) * e]%Q)). cbv iota beta. rewrite quantile_state.
    destruct (quantile_array label X normal (apply p mu) None h ms lvs [(1 # 2) * e; 1 - (1 # 2) * e]%Q m rng g distribute d loader (state_outputs apply p mu h A) D PB M1) as (arrays & -> & F).
    { repeat constructor; Lqa.lra. }
    inversion F as [|? lq ? l1 F1 F2]; subst. inversion F2 as [|? uq ? l2 F3 F4]; subst. inversion F4; subst. cbn [bind to_intervals fst].
    rewrite (hd_width _ _ _ _ _ _ lq _ F1 NE W). apply Nat.eqb_neq in W1. now rewrite W1.
  - apply (ON e E).
  - apply ON. Lqa.lra.
Qed.

(** before there is a state *)
Theorem no_state : forall label X P M T choice normal (apply : P -> M -> list X -> list (list R)) T' (lp : list R -> T' -> result R) distribute d loader data q n rng g,
  pred_log_prob apply None lp distribute d data = Err AttributeError /\
  pred_class_mean apply None distribute d loader = Err AttributeError /\ pred_class_mode apply None distribute d loader = Err AttributeError /\
  pred_class_variance apply None distribute d loader = Err AttributeError /\ pred_class_entropy apply None distribute d loader = Err AttributeError /\
  pred_reg_mean apply None distribute d loader = Err AttributeError /\ pred_reg_mode apply None distribute d loader = Err AttributeError /\
  pred_reg_variance apply None distribute d loader = Err AttributeError /\
  @pred_class_sample label T choice X P M apply None n rng g distribute d loader = (Err AttributeError, g) /\
  pred_reg_sample label normal apply None n rng g distribute d loader = (Err AttributeError, g) /\
  pred_reg_entropy label normal apply None n rng g distribute d loader = (Err AttributeError, g) /\
  pred_quantile label normal apply None q n rng g distribute d loader = (Err AttributeError, g).
Proof. intros. repeat split; reflexivity. Qed.

Theorem state_classification : forall X P M (apply : P -> M -> list X -> list (list R)) p mu h distribute d loader,
  (forall xs, apply p mu xs = map h xs) -> divisible distribute d loader -> (forall x, In x (concat loader) -> h x <> []) ->
  pred_class_mean apply (Some (p, mu)) distribute d loader = Ok (map (fun x => probabilities (h x)) (concat loader)) /\
  pred_class_variance apply (Some (p, mu)) distribute d loader = Ok (map (fun x => map (fun p => (p * (1 - p))%R) (probabilities (h x))) (concat loader)) /\
  (exists labels, pred_class_mode apply (Some (p, mu)) distribute d loader = Ok labels /\ Forall2 (fun x i => first_max (h x) i) (concat loader) labels) /\
  (exists hs, pred_class_entropy apply (Some (p, mu)) distribute d loader = Ok hs /\
     Forall2 (fun x e => e = shannon (length (h x)) (fun i => nth i (probabilities (h x)) 0%R)) (concat loader) hs).
Proof.
  intros X P M apply p mu h distribute d loader A D NE.
  destruct (classification_rows X (apply p mu) None h distribute d loader (state_outputs apply p mu h A) D NE) as (B1 & B2 & B3 & (hs & B4 & F)).
  split; [exact B1|split; [exact B2|split; [exact B3|]]]. exists hs. split; [exact B4|]. clear - F. induction F as [|x e l hs (E & _) F IH]; constructor; assumption.
Qed.

Theorem state_regression : forall X P M (apply : P -> M -> list X -> list (list R)) p mu h ms lvs distribute d loader,
  (forall xs, apply p mu xs = map h xs) -> divisible distribute d loader -> parts_by h ms lvs (concat loader) ->
  pred_reg_mean apply (Some (p, mu)) distribute d loader = Ok (map ms (concat loader)) /\
  pred_reg_mode apply (Some (p, mu)) distribute d loader = Ok (map ms (concat loader)) /\
  pred_reg_variance apply (Some (p, mu)) distribute d loader = Ok (map (fun x => map exp (lvs x)) (concat loader)) /\
  pred_std None (pred_reg_variance apply (Some (p, mu)) distribute d loader) = Ok (map (fun x => map (fun v => sqrt (exp v)) (lvs x)) (concat loader)).
Proof.
  intros X P M apply p mu h ms lvs distribute d loader A D PB.
  destruct (regression_rows X (apply p mu) None h ms lvs distribute d loader (state_outputs apply p mu h A) D PB) as (B1 & B2 & B3).
  split; [exact B1|split; [exact B2|]]. assert (V : pred_reg_variance apply (Some (p, mu)) distribute d loader = Ok (map (fun x => map exp (lvs x)) (concat loader))) by exact B3.
  split; [exact V|]. rewrite V. cbn. rewrite map_map. f_equal. apply map_ext. intros x. now rewrite map_map.
Qed.

Theorem state_log_prob : forall X P M (apply : P -> M -> list X -> list (list R)) p mu h distribute d,
  (forall xs, apply p mu xs = map h xs) ->
  (forall loader : list (list (X * nat)), divisible distribute d loader -> (forall x y, In (x, y) (concat loader) -> y < length (h x)) ->
     pred_log_prob apply (Some (p, mu)) (fun o y => Ok (class_log_prob o y)) distribute d loader
     = Ok (map (fun xy => ln (nth (snd xy) (probabilities (h (fst xy))) 0%R)) (concat loader))) /\
  (forall ms lvs (loader : list (list (X * list R))), divisible distribute d loader ->
     (forall x y, In (x, y) (concat loader) -> h x = ms x ++ lvs x /\ length (ms x) = length (lvs x) /\ length y = length (ms x)) ->
     pred_log_prob apply (Some (p, mu)) reg_log_prob distribute d loader
     = Ok (map (fun xy => gauss_log_density (ms (fst xy)) (lvs (fst xy)) (snd xy)) (concat loader))).
Proof.
  intros X P M apply p mu h distribute d A. pose proof (state_outputs apply p mu h A) as O. split.
  - intros loader D L. exact (class_log_prob_rows X (apply p mu) None h distribute d loader O D L).
  - intros ms lvs loader D L. exact (reg_log_prob_rows X (apply p mu) None h ms lvs distribute d loader O D L).
Qed.

Theorem state_samples : forall label X P M T (choice : key -> list R -> nat -> nat -> T) normal (apply : P -> M -> list X -> list (list R)) p mu h n rng g distribute d loader,
  (forall xs, apply p mu xs = map h xs) -> divisible distribute d loader ->
  pred_class_sample label choice apply (Some (p, mu)) n rng g distribute d loader
  = (Ok (map (fun t => map (fun kx => choice (fst kx) (probabilities (h (snd kx))) n t)
                (combine (row_keys label (key_of label rng g) (length (concat loader))) (concat loader))) (seq 0 n)), generator_after label rng g) /\
  forall ms lvs, parts_by h ms lvs (concat loader) ->
    pred_reg_sample label normal apply (Some (p, mu)) n rng g distribute d loader
    = (Ok (map (fun t => map (fun jx => noisy (ms (snd jx)) (lvs (snd jx))
                  (normal (key_of label rng g) n (length (concat loader)) (length (ms (snd jx))) t (fst jx))) (numbered (concat loader))) (seq 0 n)), generator_after label rng g) /\
    (1 <= n -> pred_reg_entropy label normal apply (Some (p, mu)) n rng g distribute d loader
    = (Ok (map (fun jx => let '(j, x) := jx in let w := length (ms x) in
        (rover w (fun c => normal_entropy (exp (nth c (lvs x) 0))) +
         1 / 2 * (raverage n (fun t => let z := normal (key_of label rng g) n (length (concat loader)) w t j in rover w (fun c => z c * z c)) - INR w))%R)
      (numbered (concat loader))), generator_after label rng g)).
Proof.
  intros label X P M T choice normal apply p mu h n rng g distribute d loader A D. pose proof (state_outputs apply p mu h A) as O. split.
  - unfold pred_class_sample, with_state_key. rewrite (class_samples label X T choice (apply p mu) None h n [] rng g distribute d loader O D) by constructor. reflexivity.
  - intros ms lvs PB. split.
    + unfold pred_reg_sample, with_state_key. rewrite (reg_samples label X normal (apply p mu) None h ms lvs n [] rng g distribute d loader O D PB) by constructor. reflexivity.
    + intros N. exact (reg_entropy_value label X normal (apply p mu) None h ms lvs n rng g distribute d loader O D PB N).
Qed.

(** keys of successive samples *)
Theorem next_call_key : forall label g,
  let k := key_of label None g in let k' := key_of label None (generator_after label None g) in
  (forall n, label n = label 2 -> 1 <= n -> nth 0 (row_keys label k n) [] = k') /\ derived k k'.
Proof.
  intros label g k k'. split.
  - intros n L N. destruct n as [|n]; [lia|]. unfold row_keys. cbn [seq map nth]. rewrite L. reflexivity.
  - exists [Cut (label 2) 0]. reflexivity.
Qed.
