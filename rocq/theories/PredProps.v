(** Properties C45 to C48, C72 and C73: predictive statistics and output layers.  Proofs are in PredProofs*.v. *)
From Coq Require Import List Arith ZArith QArith Bool Reals String.
From Verif Require Import Lib QuantModel ConfRegModel ConfClassModel ConfClassSpec MetricSpec TempModel TempSpec PredModel PredSpec PredProofs PredProofs2 PredProofs3 PredProofs4 PredProofs5.
From Verif Require Import Lit.
Import ListNotations.
Local Notation length := List.length.
Open Scope Q_scope.

(** C45: predictive mean and variances *)
Theorem C45_mean : forall n m, (1 <= n)%nat -> batched_mean n m == average n m /\ batched_aleatoric_variance n m == average n m.
Proof. exact (@mean_average). Qed.
Print Assumptions C45_mean.
Theorem C45_mean_range : forall n m lo hi, (1 <= n)%nat -> (forall i, (i < n)%nat -> lo <= m i <= hi) -> lo <= batched_mean n m <= hi.
Proof. exact (@mean_range). Qed.
Print Assumptions C45_mean_range.
Theorem C45_mean_distribution : forall n k p, (1 <= n)%nat -> (forall i, (i < n)%nat -> over k (p i) == 1 /\ forall c, 0 <= p i c) ->
  over k (fun c => batched_mean n (fun i => p i c)) == 1 /\ forall c, 0 <= batched_mean n (fun i => p i c) .
Proof. exact (@mean_mixture). Qed.
Print Assumptions C45_mean_distribution.
Theorem C45_epistemic_variance : forall n m, (1 <= n)%nat -> batched_epistemic_variance n m == spread n m.
Proof. exact (@epistemic_spread). Qed.
Print Assumptions C45_epistemic_variance.
Theorem C45_epistemic_zero : forall n m, (1 <= n)%nat -> 0 <= batched_epistemic_variance n m /\ (batched_epistemic_variance n m == 0 <-> forall i, (i < n)%nat -> m i == m 0%nat).
Proof. exact (@epistemic_zero). Qed.
Print Assumptions C45_epistemic_zero.
Theorem C45_variance : forall n v m, (1 <= n)%nat -> (forall i, 0 <= v i) ->
  variance n None None v m == average n v + spread n m /\ 0 <= average n v /\ 0 <= spread n m /\
  forall a e, variance n (Some a) (Some e) v m = a + e.
Proof. exact (@variance_sum). Qed.
Print Assumptions C45_variance.
Theorem C45_class_total : forall n p, (1 <= n)%nat ->
  variance n None None (fun i => class_variance (p i)) p == class_variance (batched_mean n p).
Proof. exact (@class_total_variance). Qed.
Print Assumptions C45_class_total.
Theorem C45_class_bound : forall p, class_variance p <= 1 # 4 /\ (0 <= p <= 1 -> 0 <= class_variance p).
Proof. exact (@class_variance_bound). Qed.
Print Assumptions C45_class_bound.
Theorem C45_different_samples_refuted : exists n p q, (1 <= n)%nat /\ (forall i, 0 <= p i <= 1 /\ 0 <= q i <= 1) /\
  ~ variance n None None (fun i => class_variance (p i)) q <= 1 # 4.
Proof. exact (@different_samples_refuted). Qed.
Print Assumptions C45_different_samples_refuted.
Example C45_case : Qred (batched_epistemic_variance 3 (fun i => nth i [1; 2; 6] 0)) = (14 # 3) /\ Qred (variance 2 None None (fun i => nth i [1 # 2; 3 # 2] 0) (fun i => nth i [0; 4] 0)) = 5
  /\ Qred (batched_mean 3 (fun i => nth i [1; 2; 6] 0)) = 3.
Proof. vm_compute. repeat split; reflexivity. Qed.
(** C47: credible sets *)
Theorem C47_credible_sets : forall k rows e i p, (forall r, In r rows -> length r = k) -> (0 < k)%nat ->
  nth_error rows i = Some p -> 1 - e < total p -> 
  exists s, nth_error (credible_sets k rows e) i = Some (Some s) /\ top_labels p s /\ s <> [] /\ 1 - e < mass p s /\
    forall q, label_set p q -> 1 - e < mass p q -> e <= 1 -> (length s <= length q)%nat.
Proof. exact (@credible_set_meaning). Qed.
Print Assumptions C47_credible_sets.
Example C47_case_labels : let p := [1 # 10; 4 # 10; 2 # 10; 3 # 10] in top_labels p [1; 3; 2]%nat /\ label_set p [0; 1; 3]%nat.
Proof.
  cbn zeta. split; [split; [lit|]|split; [lit|intros i [<-|[<-|[<-|[]]]]; cbn; lia]]. split; [intros i [<-|[<-|[<-|[]]]]; cbn; lia|]. split; [repeat constructor; vm_compute; discriminate|].
  intros i j I L N. destruct j as [|[|[|[|j]]]]; try (exfalso; apply N; cbn; intuition; fail); [|cbn in L; lia]. destruct I as [<-|[<-|[<-|[]]]]; vm_compute; discriminate.
Qed.
Theorem C47_one_set_per_input : forall k rows e, (forall r, In r rows -> length r = k) -> (0 < k)%nat -> length (credible_sets k rows e) = length rows.
Proof. exact (@credible_sets_length). Qed.
Print Assumptions C47_one_set_per_input.
Theorem C47_nested : forall k rows e e' i p s s', (forall r, In r rows -> length r = k) -> (0 < k)%nat ->
  nth_error rows i = Some p -> e' <= e -> e <= 1 -> 1 - e' < total p ->
  nth_error (credible_sets k rows e) i = Some (Some s) -> nth_error (credible_sets k rows e') i = Some (Some s') ->
  exists r, s' = s ++ r.
Proof. exact (@credible_nested). Qed.
Print Assumptions C47_nested.
Theorem C47_unreachable : forall k rows e i p, (forall r, In r rows -> length r = k) -> (0 < k)%nat ->
  nth_error rows i = Some p -> Forall (fun x => 0 <= x) p -> total p <= 1 - e ->
  exists c, nth_error (credible_sets k rows e) i = Some (Some [c]) /\ (c < length p)%nat /\ forall j, (j < length p)%nat -> nth j p 0 <= nth c p 0.
Proof. exact (@credible_unreachable). Qed.
Print Assumptions C47_unreachable.
Theorem C47_zero_error_refuted : exists k rows p s, (forall r, In r rows -> length r = k) /\ total p == 1 /\ Forall (fun x => 0 <= x) p /\
  nth_error rows 0 = Some p /\ nth_error (credible_sets k rows 0) 0 = Some (Some s) /\ ~ 1 - 0 <= mass p s.
Proof. exact (@credible_zero_error_refuted). Qed.
Print Assumptions C47_zero_error_refuted.
Example C47_case : credible_sets 4 [[1 # 10; 4 # 10; 2 # 10; 3 # 10]; [9 # 10; 0; 1 # 10; 0]; [1 # 4; 1 # 4; 1 # 4; 1 # 4]] (2 # 10)
  = [Some [1; 3; 2]; Some [0]; Some [3; 2; 1; 0]]%nat.
Proof. reflexivity. Qed.
(** C48: conformal sets *)
Theorem C48_conformal_sets : forall arr ntr nte k e t, (t < nte)%nat ->
  exists s, nth_error (conformal_sets arr ntr nte k e) t = Some (Some s) /\ ascending_labels s /\
  (forall c, In c s -> (c < k)%nat) /\
  forall c w trains test, (c < k)%nat -> w = column_at arr (ntr + (c * nte + t)) -> ~ total w == 0 ->
    length trains = ntr -> (forall i, (i < ntr)%nat -> weighted_mean w (column_at arr i) (nth i trains 0)) -> weighted_mean w w test ->
    (In c s <-> e * nQ (ntr + 1) < nQ (rank_of test trains)).
Proof. exact (@conformal_sets_meaning). Qed.
Print Assumptions C48_conformal_sets.
Example C48_case_hypotheses : weighted_mean [1; 3] [2; 6] 5 /\ ascending_labels [0; 2; 5]%nat.
Proof. split; [reflexivity|]. unfold ascending_labels. repeat constructor. Qed.
Theorem C48_one_set_per_input : forall arr ntr nte k e, length (conformal_sets arr ntr nte k e) = nte.
Proof. exact (@conformal_sets_length). Qed.
Print Assumptions C48_one_set_per_input.
Theorem C48_nested : forall arr ntr nte k e e' t s s', e' <= e -> (t < nte)%nat ->
  nth_error (conformal_sets arr ntr nte k e) t = Some (Some s) -> nth_error (conformal_sets arr ntr nte k e') t = Some (Some s') -> incl s s'.
Proof. exact (@conformal_sets_nested). Qed.
Print Assumptions C48_nested.
Theorem C48_extremes : forall arr ntr nte k e t s, (t < nte)%nat -> nth_error (conformal_sets arr ntr nte k e) t = Some (Some s) ->
  (e * nQ (ntr + 1) < 1 -> s = seq 0 k) /\ (1 <= e -> s = []).
Proof. exact (@conformal_sets_extremes). Qed.
Print Assumptions C48_extremes.
Theorem C48_effective_sample_size : forall w, w <> [] -> Forall (fun x => 0 < x) w -> 1 <= ess w <= nQ (length w) /\
  ((forall i, (i < length w)%nat -> nth i w 0 == nth 0 w 0) -> ess w == nQ (length w)).
Proof. exact (@ess_range). Qed.
Print Assumptions C48_effective_sample_size.
Example C48_case : conformal_sets [[3 # 10; 6 # 10; 2 # 10; 5 # 10; 8 # 10; 5 # 10]; [4 # 10; 5 # 10; 7 # 10; 1 # 10; 3 # 10; 9 # 10]] 2 2 2 (7 # 10)
  = [Some [0; 1]; Some [1]]%nat /\ Qred (ess [1; 3]) = (8 # 5).
Proof. vm_compute. split; reflexivity. Qed.
(** C73: credible intervals *)
Theorem C73_intervals : forall layer e samples, samples <> [] -> e <= 1 ->
  (exists lo hi, credible_interval layer e "two-tailed" samples = Ok [lo; hi] /\ lo <= hi /\
     forall k, (k <= length samples)%nat -> nQ k + (1 # 2) * e * (nQ (length samples) - 1) <= nQ (length samples) ->
       (k <= num (fun x => Qle_bool lo x) samples)%nat /\ (k <= num (fun x => Qle_bool x hi) samples)%nat) /\
  (exists x, credible_interval layer e "left-tailed" samples = Ok [x] /\
     forall k, (k <= length samples)%nat -> nQ k + e * (nQ (length samples) - 1) <= nQ (length samples) -> (k <= num (fun y => Qle_bool x y) samples)%nat) /\
  (exists x, credible_interval layer e "right-tailed" samples = Ok [x] /\
     forall k, (k <= length samples)%nat -> nQ k + e * (nQ (length samples) - 1) <= nQ (length samples) -> (k <= num (fun y => Qle_bool y x) samples)%nat).
Proof. exact (@interval_shape). Qed.
Print Assumptions C73_intervals.
Theorem C73_nested : forall layer e e' samples lo hi lo' hi', samples <> [] -> e' <= e ->
  credible_interval layer e "two-tailed" samples = Ok [lo; hi] -> credible_interval layer e' "two-tailed" samples = Ok [lo'; hi'] -> lo' <= lo /\ hi <= hi'.
Proof. exact (@interval_nested). Qed.
Print Assumptions C73_nested.
Theorem C73_unknown_type : forall layer e kind samples, kind <> "two-tailed"%string -> kind <> "left-tailed"%string -> kind <> "right-tailed"%string ->
  credible_interval layer e kind samples = Err (if layer then IndexError else ValueError).
Proof. exact (@interval_unknown). Qed.
Print Assumptions C73_unknown_type.
Example C73_case : rmap (map Qred) (credible_interval false (1 # 2) "two-tailed" [5; 1; 2; 4; 3]) = Ok [2; 4] /\ credible_interval true (1 # 2) "both" [5; 1] = Err IndexError.
Proof. vm_compute. split; reflexivity. Qed.

Open Scope R_scope.
(** C46: entropies *)
Theorem C46_entropy : forall n k o, (1 <= n)%nat -> (1 <= k)%nat -> (forall s, (s < n)%nat -> length (o s) = k) ->
  let member := fun s i => nth i (class_mean (o s)) 0 in
  entropy n k o = shannon k (fun i => raverage n (fun s => member s i)) /\
  aleatoric_entropy n k o = raverage n (fun s => shannon k (member s)) /\
  entropy n k o = aleatoric_entropy n k o + epistemic_entropy n k o.
Proof. exact (@entropy_meaning). Qed.
Print Assumptions C46_entropy.
Theorem C46_bounds : forall n k o, (1 <= n)%nat -> (1 <= k)%nat -> (forall s, (s < n)%nat -> length (o s) = k) ->
  0 <= aleatoric_entropy n k o <= ln (INR k) /\ 0 <= epistemic_entropy n k o <= ln (INR n) /\ entropy n k o <= ln (INR k).
Proof. exact (@entropy_bounds). Qed.
Print Assumptions C46_bounds.
Theorem C46_agreement : forall n k o, (1 <= n)%nat -> (1 <= k)%nat -> (forall s, (s < n)%nat -> length (o s) = k) ->
  (epistemic_entropy n k o = 0 <-> forall s, (s < n)%nat -> class_mean (o s) = class_mean (o 0%nat)).
Proof. exact (@epistemic_agreement). Qed.
Print Assumptions C46_agreement.
Theorem C46_log_probability : forall n ll, (1 <= n)%nat ->
  exp (pred_log_prob n ll) = raverage n (fun s => exp (ll s)) /\
  raverage n ll <= pred_log_prob n ll /\
  forall lo hi, (forall s, (s < n)%nat -> lo <= ll s <= hi) -> lo <= pred_log_prob n ll <= hi.
Proof. exact (@pred_log_prob_spec). Qed.
Print Assumptions C46_log_probability.
Theorem C46_regression_entropy : forall n m ll, (1 <= n)%nat -> (1 <= m)%nat ->
  let lp := fun j t => ln (raverage n (fun i => exp (ll i j t))) in
  reg_entropy n m ll = - raverage n (fun j => raverage m (fun t => lp j t)) /\
  reg_aleatoric n m ll = - raverage n (fun j => raverage m (fun t => ll j j t)) /\
  reg_entropy n m ll = reg_aleatoric n m ll + reg_epistemic n m ll /\
  reg_epistemic n m ll <= ln (INR n).
Proof. exact (@reg_entropy_meaning). Qed.
Print Assumptions C46_regression_entropy.
Theorem C46_regression_epistemic_refuted : exists n m ll, (1 <= n)%nat /\ (1 <= m)%nat /\ reg_epistemic n m ll < 0.
Proof. exact (@reg_epistemic_negative). Qed.
Print Assumptions C46_regression_epistemic_refuted.
Example C46_case : entropy 2 2 toy_out = ln 2 /\ 0 < epistemic_entropy 2 2 toy_out.
Proof. exact toy_entropy. Qed.
(** C72: output layers *)
Theorem C72_log_probability : forall o i, (i < length o)%nat ->
  exp (class_log_prob o i) = nth i (class_mean o) 0 /\ class_log_prob o i <= 0 /\ rover (length o) (fun j => exp (class_log_prob o j)) = 1.
Proof. exact (@layer_log_prob). Qed.
Print Assumptions C72_log_probability.
Theorem C72_out_of_range : forall o i, (length o <= i)%nat -> class_log_prob o i = - ln (rtotal (map exp o)).
Proof. exact (@layer_out_of_range). Qed.
Print Assumptions C72_out_of_range.
Theorem C72_predict : forall o, o <> [] -> first_max (map (class_log_prob o) (seq 0 (length o))) (class_predict o) /\ first_max (class_mean o) (class_predict o).
Proof. exact (@layer_predict). Qed.
Print Assumptions C72_predict.
Theorem C72_entropy : forall o, o <> [] -> layer_entropy o = shannon (length o) (fun i => nth i (class_mean o) 0) /\ 0 <= layer_entropy o <= ln (INR (length o)).
Proof. exact (@layer_entropy_spec). Qed.
Print Assumptions C72_entropy.
Theorem C72_masked : forall o i, (masked_log_prob o 0 = 0) /\ ((0 < i)%nat -> masked_log_prob o i = class_log_prob o i).
Proof. exact (@masked_spec). Qed.
Print Assumptions C72_masked.
Theorem C72_masked_total : forall o, o <> [] -> rover (length o) (fun i => exp (masked_log_prob o i)) = 2 - nth 0 (class_mean o) 0.
Proof. exact (@masked_total). Qed.
Print Assumptions C72_masked_total.
Theorem C72_regression : forall ms lvs, length ms = length lvs ->
  reg_mean (ms ++ lvs) = Ok ms /\ reg_variance (ms ++ lvs) = Ok (map exp lvs) /\
  forall ys, length ys = length ms -> exists l, reg_log_prob (ms ++ lvs) ys = Ok l /\
    l = rover (length ms) (fun i => normal_log_density (nth i ys 0) (nth i ms 0) (nth i (map exp lvs) 0)).
Proof. exact (@reg_layer_spec). Qed.
Print Assumptions C72_regression.
Theorem C72_regression_odd : forall o, Nat.Odd (length o) -> reg_mean o = Err ValueError /\ reg_variance o = Err ValueError /\ forall ys, reg_log_prob o ys = Err ValueError.
Proof. exact (@reg_layer_odd). Qed.
Print Assumptions C72_regression_odd.
Theorem C72_regression_mode : forall y m v, 0 < v -> normal_log_density y m v <= normal_log_density m m v /\ (normal_log_density y m v = normal_log_density m m v -> y = m).
Proof. exact (@normal_mode). Qed.
Print Assumptions C72_regression_mode.
Theorem C72_regression_sample : forall m lv z, reg_sample1 m lv z = m + sqrt (exp lv) * z.
Proof. exact (@reg_sample_spec). Qed.
Print Assumptions C72_regression_sample.
Theorem C72_std : forall var i, (i < length var)%nat -> nth i (layer_std var None) 0 = sqrt (nth i var 0).
Proof. exact (@layer_std_spec). Qed.
Print Assumptions C72_std.
Theorem C72_std_refuted : exists var v i, (i < length v)%nat /\ nth i (layer_std var (Some v)) 0 <> sqrt (nth i v 0).
Proof. exact (@layer_std_refuted). Qed.
Print Assumptions C72_std_refuted.
Example C72_case : exp (masked_log_prob [0; 0] 0) = 1 /\ exp (class_log_prob [0; 0] 0) = 1 / 2.
Proof. exact toy_masked. Qed.
