(** Properties C143 to C146: predictions at fixed parameters.  Proofs are in LhpProofs*.v. *)
From Coq Require Import List Arith ZArith QArith Bool Reals String.
From Verif Require Import Lib LoaderModel TempSpec MetricSpec PredModel PredSpec DrawModel DrawSpec LhpModel LhpSpec LhpProofs LhpProofs2 LhpProofs3 LhpProofs4 LhpCases.
From Coq Require Import Permutation Sorted.
From Verif Require Import Lit.
Import ListNotations.
Local Notation length := List.length.
Local Notation concat := List.concat.
Local Open Scope R_scope.
Local Open Scope nat_scope.

(** C143: estimators of a likelihood *)
Theorem C143_outputs : forall X (net : list X -> list (list R)) manager h distribute d loader,
  outputs_by net manager h -> divisible distribute d loader ->
  get_calibrated_outputs net manager distribute d loader = Ok (map h (concat loader)).
Proof. exact (@calibrated_outputs_rows). Qed.
Print Assumptions C143_outputs.
Example C143_case_hypotheses : outputs_by wide_net (Some (Some (map (map (Rmult 2))))) (fun x => [2 * x; 2 * 1; 2 * 0]%R) /\ divisible true 2 [[1; 2]; [3; 4]]%R.
Proof.
  split; [exists (fun x => [x; 1; 0]%R), (map (Rmult 2)); repeat split|]. split; [lia|]. split; [discriminate|]. intros _. repeat constructor.
Qed.
Theorem C143_classification : forall X (net : list X -> list (list R)) manager h distribute d loader,
  outputs_by net manager h -> divisible distribute d loader -> (forall x, In x (concat loader) -> h x <> []) ->
  class_mean net manager distribute d loader = Ok (map (fun x => probabilities (h x)) (concat loader)) /\
  class_variance net manager distribute d loader = Ok (map (fun x => map (fun p => (p * (1 - p))%R) (probabilities (h x))) (concat loader)) /\
  (exists labels, class_mode net manager distribute d loader = Ok labels /\ Forall2 (fun x i => first_max (h x) i) (concat loader) labels) /\
  (exists hs, class_entropy net manager distribute d loader = Ok hs /\
     Forall2 (fun x e => e = shannon (length (h x)) (fun i => nth i (probabilities (h x)) 0%R) /\ (0 <= e <= ln (INR (length (h x))))%R) (concat loader) hs).
Proof. exact (@classification_rows). Qed.
Print Assumptions C143_classification.
Theorem C143_regression : forall X (net : list X -> list (list R)) manager h ms lvs distribute d loader,
  outputs_by net manager h -> divisible distribute d loader ->
  (forall x, In x (concat loader) -> h x = ms x ++ lvs x /\ length (ms x) = length (lvs x)) ->
  reg_mean net manager distribute d loader = Ok (map ms (concat loader)) /\
  reg_mode net manager distribute d loader = Ok (map ms (concat loader)) /\
  reg_variance net manager distribute d loader = Ok (map (fun x => map exp (lvs x)) (concat loader)).
Proof. exact (@regression_rows). Qed.
Print Assumptions C143_regression.
Theorem C143_class_log_prob : forall X (net : list X -> list (list R)) manager h distribute d (loader : list (list (X * nat))),
  outputs_by net manager h -> divisible distribute d loader ->
  (forall x y, In (x, y) (concat loader) -> y < length (h x)) ->
  log_prob net manager (fun o y => Ok (class_log_prob o y)) distribute d loader
  = Ok (map (fun xy => ln (nth (snd xy) (probabilities (h (fst xy))) 0%R)) (concat loader)).
Proof. exact (@class_log_prob_rows). Qed.
Print Assumptions C143_class_log_prob.
Theorem C143_reg_log_prob : forall X (net : list X -> list (list R)) manager h ms lvs distribute d (loader : list (list (X * list R))),
  outputs_by net manager h -> divisible distribute d loader ->
  (forall x y, In (x, y) (concat loader) -> h x = ms x ++ lvs x /\ length (ms x) = length (lvs x) /\ length y = length (ms x)) ->
  log_prob net manager reg_log_prob distribute d loader
  = Ok (map (fun xy => gauss_log_density (ms (fst xy)) (lvs (fst xy)) (snd xy)) (concat loader)).
Proof. exact (@reg_log_prob_rows). Qed.
Print Assumptions C143_reg_log_prob.
Theorem C143_std : forall given variance,
  std None variance = rmap (map (map sqrt)) variance /\ std (Some given) variance = Ok (map (map sqrt) given).
Proof. exact (@std_spec). Qed.
Print Assumptions C143_std.
Theorem C143_bad_loaders : forall X (net : list X -> list (list R)) manager T (lp : list R -> T -> result R) distribute d loader (data : list (list (X * T))),
  loader = [] /\ data = [] \/
  distribute = true /\ 1 <= d /\ Exists (fun b => length b mod d <> 0) loader /\ Exists (fun b => length b mod d <> 0) data ->
  get_calibrated_outputs net manager distribute d loader = Err ValueError /\
  class_mean net manager distribute d loader = Err ValueError /\ class_mode net manager distribute d loader = Err ValueError /\
  class_variance net manager distribute d loader = Err ValueError /\ class_entropy net manager distribute d loader = Err ValueError /\
  reg_mean net manager distribute d loader = Err ValueError /\ reg_mode net manager distribute d loader = Err ValueError /\
  reg_variance net manager distribute d loader = Err ValueError /\ log_prob net manager lp distribute d data = Err ValueError.
Proof. exact (@bad_loaders). Qed.
Print Assumptions C143_bad_loaders.
Theorem C143_odd_widths : forall X (net : list X -> list (list R)) manager h distribute d loader (data : list (list (X * list R))) w,
  outputs_by net manager h -> divisible distribute d loader -> divisible distribute d data -> concat data <> [] ->
  (forall x, length (h x) = S (2 * w)) ->
  (exists means, reg_mean net manager distribute d loader = Ok means /\ Forall (fun m => length m = w) means) /\
  (exists vars, reg_variance net manager distribute d loader = Ok vars /\ Forall (fun v => length v = S w) vars) /\
  log_prob net manager reg_log_prob distribute d data = Err ValueError.
Proof. exact (@odd_widths). Qed.
Print Assumptions C143_odd_widths.
Theorem C143_whole_calibrator_refuted : exists (net : list unit -> list (list R)) manager loader os ms,
  get_calibrated_outputs net manager false 1 loader = Ok os /\ reg_mean net manager false 1 loader = Ok ms /\
  ms <> map (fun o => firstn (length o / 2) o) os.
Proof. exact (@calibrator_whole). Qed.
Print Assumptions C143_whole_calibrator_refuted.
Example C143_case : class_mean flat_net None true 2 [[1; 2]; [3; 4]]%R = Ok [[/ 2; / 2]; [/ 2; / 2]; [/ 2; / 2]; [/ 2; / 2]]%R
  /\ class_variance flat_net (Some None) false 1 [[1]]%R = Ok [[/ 2 * (1 - / 2); / 2 * (1 - / 2)]]%R
  /\ class_mean flat_net None true 2 [[1; 2; 3]]%R = Err ValueError.
Proof. exact case_flat. Qed.
Example C143_case_odd : reg_mean wide_net None false 1 [[1]; [2]]%R = Ok [[1]; [2]]%R /\ reg_variance wide_net None false 1 [[1]]%R = Ok [[exp 1; exp 0]]
  /\ log_prob wide_net None reg_log_prob false 1 [[(1, [1])]]%R = Err ValueError.
Proof. exact case_wide. Qed.

(** C144: samples of a likelihood *)
Theorem C144_class_samples : forall label X T (choice : key -> list R -> nat -> nat -> T) (net : list X -> list (list R)) manager h m aux rng g distribute d loader,
  outputs_by net manager h -> divisible distribute d loader -> Forall (eq "outputs"%string) aux ->
  sample label (class_layer_sample label choice) net manager m aux rng g distribute d loader
  = (Ok (map (fun t => map (fun kx => choice (fst kx) (probabilities (h (snd kx))) m t)
                (combine (row_keys label (key_of label rng g) (length (concat loader))) (concat loader))) (seq 0 m),
         match aux with [] => None | _ => Some (map h (concat loader)) end), generator_after label rng g).
Proof. exact (@class_samples). Qed.
Print Assumptions C144_class_samples.
Example C144_case_hypotheses : outputs_by (unit_net 3 tt) None (fun x => [3 * x; 0]%R) /\ divisible true 2 [[1; 2]; [3; 4]]%R /\ parts_by (fun x => [3 * x; 0]%R) (fun x => [3 * x]%R) (fun x => [0]%R) [1; 2; 3; 4]%R.
Proof.
  split; [exists (fun x => [3 * x; 0]%R), (fun o => o); repeat split|]. split; [split; [lia|split; [discriminate|intros _; repeat constructor]]|]. intros x _. split; reflexivity.
Qed.
Theorem C144_row_keys : forall label k n,
  independent (row_keys label k n) /\ Forall (derived k) (row_keys label k n) /\ length (row_keys label k n) = n.
Proof. exact (@row_keys_independent). Qed.
Print Assumptions C144_row_keys.
Theorem C144_reg_samples : forall label X normal (net : list X -> list (list R)) manager h ms lvs m aux rng g distribute d loader,
  outputs_by net manager h -> divisible distribute d loader -> parts_by h ms lvs (concat loader) -> Forall (eq "outputs"%string) aux ->
  sample label (reg_layer_sample normal) net manager m aux rng g distribute d loader
  = (Ok (map (fun t => map (fun jx => noisy (ms (snd jx)) (lvs (snd jx))
                  (normal (key_of label rng g) m (length (concat loader)) (length (ms (snd jx))) t (fst jx))) (numbered (concat loader))) (seq 0 m),
         match aux with [] => None | _ => Some (map h (concat loader)) end), generator_after label rng g).
Proof. exact (@reg_samples). Qed.
Print Assumptions C144_reg_samples.
Theorem C144_refused : forall label X S (layer : nat -> list (list R) -> key -> result S) (net : list X -> list (list R)) manager m aux rng g distribute d loader,
  (Exists (fun s => s <> "outputs"%string) aux -> sample label layer net manager m aux rng g distribute d loader = (Err TypeError, g)) /\
  (Forall (eq "outputs"%string) aux -> loader = [] \/ distribute = true /\ 1 <= d /\ Exists (fun b => length b mod d <> 0) loader ->
     sample label layer net manager m aux rng g distribute d loader = (Err ValueError, g)).
Proof. exact (@sample_refused). Qed.
Print Assumptions C144_refused.
Theorem C144_odd_widths : forall label X normal (net : list X -> list (list R)) manager h m rng g distribute d loader,
  outputs_by net manager h -> divisible distribute d loader -> (exists x, In x (concat loader) /\ Nat.Odd (length (h x))) ->
  fst (sample label (reg_layer_sample normal) net manager m [] rng g distribute d loader) = Err ValueError.
Proof. exact (@reg_sample_odd). Qed.
Print Assumptions C144_odd_widths.
Theorem C144_calls_apart : forall label rng1 rng2 g n1 n2 a b,
  rng1 = None -> rng2 = None -> label n1 <> label 2 ->
  In a (row_keys label (key_of label rng1 g) n1) -> In b (row_keys label (key_of label rng2 (generator_after label rng1 g)) n2) -> apart a b.
Proof. exact (@sample_keys_apart). Qed.
Print Assumptions C144_calls_apart.
Theorem C144_calls_apart_refuted : forall label g,
  let k := key_of label None g in let k' := key_of label None (generator_after label None g) in
  (forall n, label n = label 2 -> 1 <= n -> nth 0 (row_keys label k n) [] = k') /\ derived k k'.
Proof. exact (@next_call_key). Qed.
Print Assumptions C144_calls_apart_refuted.
Theorem C144_reg_entropy : forall label X normal (net : list X -> list (list R)) manager h ms lvs m rng g distribute d loader,
  outputs_by net manager h -> divisible distribute d loader -> parts_by h ms lvs (concat loader) -> 1 <= m ->
  reg_entropy label normal net manager m rng g distribute d loader
  = (Ok (map (fun jx => let '(j, x) := jx in let w := length (ms x) in
        (rover w (fun c => normal_entropy (exp (nth c (lvs x) 0))) +
         1 / 2 * (raverage m (fun t => let z := normal (key_of label rng g) m (length (concat loader)) w t j in rover w (fun c => z c * z c)) - INR w))%R)
      (numbered (concat loader))), generator_after label rng g).
Proof. exact (@reg_entropy_value). Qed.
Print Assumptions C144_reg_entropy.
Example C144_case : fst (sample own (class_layer_sample own show_key) flat_net None 2 [] None [] true 2 [[1; 2]; [3; 4]]%R)
  = Ok ([[([Cut 2 0; Cut 4 0], 0); ([Cut 2 0; Cut 4 1], 0); ([Cut 2 0; Cut 4 2], 0); ([Cut 2 0; Cut 4 3], 0)];
         [([Cut 2 0; Cut 4 0], 1); ([Cut 2 0; Cut 4 1], 1); ([Cut 2 0; Cut 4 2], 1); ([Cut 2 0; Cut 4 3], 1)]], None)
  /\ snd (sample own (class_layer_sample own show_key) flat_net None 2 [] None [] true 2 [[1; 2]; [3; 4]]%R) = [Cut 2 0]
  /\ sample own (class_layer_sample own show_key) flat_net None 1 ["outputs"%string] (Some [Fold 7]) [] false 1 [[5]]%R
     = (Ok ([[([Fold 7; Cut 1 0], 0)]], Some [[0; 0]]%R), []).
Proof. exact case_keys. Qed.

(** C145: quantiles and credible intervals *)
Theorem C145_quantile : forall label X normal (net : list X -> list (list R)) manager h ms lvs q m rng g distribute d loader,
  outputs_by net manager h -> divisible distribute d loader -> parts_by h ms lvs (concat loader) -> 1 <= m -> (0 <= q <= 1)%Q ->
  exists a, quantile label normal net manager (Level q) true (Some loader) m None rng g distribute d = (Ok (One a), generator_after label rng g) /\
    row_quantiles ms lvs (concat loader) (fun w => normal (key_of label rng g) m (length (concat loader)) w) m q a.
Proof. exact (@quantile_level). Qed.
Print Assumptions C145_quantile.
Theorem C145_quantiles : forall label X normal (net : list X -> list (list R)) manager h ms lvs qs m rng g distribute d loader,
  outputs_by net manager h -> divisible distribute d loader -> parts_by h ms lvs (concat loader) -> 1 <= m -> Forall (fun q => (0 <= q <= 1)%Q) qs ->
  exists arrays, quantile label normal net manager (LevelArray qs) true (Some loader) m None rng g distribute d = (Ok (Several arrays), generator_after label rng g) /\
    Forall2 (row_quantiles ms lvs (concat loader) (fun w => normal (key_of label rng g) m (length (concat loader)) w) m) qs arrays.
Proof. exact (@quantile_array). Qed.
Print Assumptions C145_quantiles.
Theorem C145_given_samples : forall label X normal (net : list X -> list (list R)) manager q given loader m samples rng g distribute d rows w,
  samples <> [] -> Forall (fun s => length s = rows /\ Forall (fun r => length r = w) s) samples -> (0 <= q <= 1)%Q ->
  exists a, quantile label normal net manager (Level q) given loader m (Some samples) rng g distribute d = (Ok (One a), g) /\
    length a = rows /\ forall j, j < rows -> length (nth j a []) = w /\
      forall c, c < w -> quantile_of (map (fun s => nth c (nth j s []) 0%R) samples) q (nth c (nth j a []) 0%R).
Proof. exact (@quantile_given). Qed.
Print Assumptions C145_given_samples.
Theorem C145_counts : forall l q v, quantile_of l q v ->
  (INR (at_most v l) > Q2R q * (INR (length l) - 1))%R /\ (INR (at_least v l) > (1 - Q2R q) * (INR (length l) - 1))%R.
Proof. exact (@quantile_counts). Qed.
Print Assumptions C145_counts.
Example C145_case_quantile : quantile_of [5; 1; 3]%R (3 # 4) 4%R.
Proof.
  exists [1; 3; 5]%R, 1, (1 / 2)%R. split; [apply perm_trans with [1; 5; 3]%R; [apply perm_swap|apply perm_skip, perm_swap]|]. split; [repeat constructor; lra|].
  split; [cbn; lia|]. split; [lra|]. split; [right; cbn; lia|]. unfold Q2R. cbn. split; lra.
Qed.
Theorem C145_refused : forall label X normal (net : list X -> list (list R)) manager q given (loader : option (list (list X))) m rng g distribute d qs samples,
  (given = false \/ loader = None -> quantile label normal net manager q given loader m None rng g distribute d = (Err ValueError, g)) /\
  quantile label normal net manager (LevelList qs) given loader m (Some samples) rng g distribute d = (Err TypeError, g).
Proof. exact (@quantile_refused). Qed.
Print Assumptions C145_refused.
Theorem C145_list_refuted : forall label X normal (net : list X -> list (list R)) manager h ms lvs qs m rng g distribute d loader,
  outputs_by net manager h -> divisible distribute d loader -> parts_by h ms lvs (concat loader) ->
  quantile label normal net manager (LevelList qs) true (Some loader) m None rng g distribute d = (Err TypeError, generator_after label rng g).
Proof. exact (@quantile_list_refused). Qed.
Print Assumptions C145_list_refuted.
Theorem C145_two_tailed : forall label X P M normal (apply : P -> M -> list X -> list (list R)) p mu h ms lvs e m rng g distribute d loader,
  (forall xs, apply p mu xs = map h xs) -> divisible distribute d loader -> parts_by h ms lvs (concat loader) ->
  (forall x, In x (concat loader) -> length (ms x) = 1) -> concat loader <> [] -> 1 <= m -> (0 <= e <= 1)%Q ->
  exists a, pred_credible_interval label normal apply (Some (p, mu)) e "two-tailed" m rng g distribute d loader = (Ok a, generator_after label rng g) /\
    length a = length (concat loader) /\
    forall j x, nth_error (concat loader) j = Some x ->
      let mean := nth 0 (ms x) 0%R in let lv := nth 0 (lvs x) 0%R in
      let z := fun t => normal (key_of label rng g) m (length (concat loader)) 1 t j 0 in
      exists v v', let lo := (mean + sqrt (exp lv) * v)%R in let hi := (mean + sqrt (exp lv) * v')%R in
        nth_error a j = Some [lo; hi] /\ quantile_of (map z (seq 0 m)) ((1 # 2) * e) v /\ quantile_of (map z (seq 0 m)) (1 - (1 # 2) * e) v' /\ (lo <= hi)%R /\
        (INR (within lo hi (scalar_draws mean lv z m)) > (1 - Q2R e) * (INR m - 1) - 1)%R.
Proof. exact (@two_tailed). Qed.
Print Assumptions C145_two_tailed.
Theorem C145_one_tailed : forall label X P M normal (apply : P -> M -> list X -> list (list R)) p mu h ms lvs e kind q m rng g distribute d loader,
  (forall xs, apply p mu xs = map h xs) -> divisible distribute d loader -> parts_by h ms lvs (concat loader) ->
  (forall x, In x (concat loader) -> length (ms x) = 1) -> concat loader <> [] -> 1 <= m -> (0 <= e <= 1)%Q ->
  kind = "left-tailed"%string /\ q = e \/ kind = "right-tailed"%string /\ q = (1 - e)%Q ->
  exists a, pred_credible_interval label normal apply (Some (p, mu)) e kind m rng g distribute d loader = (Ok a, generator_after label rng g) /\
    length a = length (concat loader) /\
    forall j x, nth_error (concat loader) j = Some x ->
      let mean := nth 0 (ms x) 0%R in let lv := nth 0 (lvs x) 0%R in
      let z := fun t => normal (key_of label rng g) m (length (concat loader)) 1 t j 0 in
      exists v, let b := (mean + sqrt (exp lv) * v)%R in nth_error a j = Some [b] /\ quantile_of (map z (seq 0 m)) q v /\
        (INR (at_most b (scalar_draws mean lv z m)) > Q2R q * (INR m - 1))%R /\ (INR (at_least b (scalar_draws mean lv z m)) > (1 - Q2R q) * (INR m - 1))%R.
Proof. exact (@one_tailed). Qed.
Print Assumptions C145_one_tailed.
Theorem C145_unknown_type : forall label X P M normal (apply : P -> M -> list X -> list (list R)) state e kind m rng g distribute d loader,
  kind <> "two-tailed"%string -> kind <> "left-tailed"%string -> kind <> "right-tailed"%string ->
  pred_credible_interval label normal apply state e kind m rng g distribute d loader = (Err ValueError, g).
Proof. exact (@interval_refused). Qed.
Print Assumptions C145_unknown_type.
Theorem C145_vector_targets : forall label X P M normal (apply : P -> M -> list X -> list (list R)) p mu h ms lvs w e kind m rng g distribute d loader,
  (forall xs, apply p mu xs = map h xs) -> divisible distribute d loader -> parts_by h ms lvs (concat loader) ->
  (forall x, In x (concat loader) -> length (ms x) = w) -> w <> 1 -> concat loader <> [] -> 1 <= m -> (0 <= e <= 1)%Q ->
  In kind ["two-tailed"; "left-tailed"; "right-tailed"]%string ->
  fst (pred_credible_interval label normal apply (Some (p, mu)) e kind m rng g distribute d loader) = Err ValueError.
Proof. exact (@interval_vectors). Qed.
Print Assumptions C145_vector_targets.
Example C145_case : exists a b, pred_credible_interval own ramp unit_net (Some (1%R, tt)) (1 # 2) "two-tailed" 5 None [] false 1 [[3]]%R = (Ok [[a; b]], [Cut 2 0])
  /\ a = 4%R /\ b = 6%R /\ within a b [3; 4; 5; 6; 7]%R = 3.
Proof. exact case_interval. Qed.

(** C146: predictions of a calibration model *)
Theorem C146_no_state : forall label X P M T choice normal (apply : P -> M -> list X -> list (list R)) T' (lp : list R -> T' -> result R) distribute d loader data q n rng g,
  pred_log_prob apply None lp distribute d data = Err AttributeError /\
  pred_class_mean apply None distribute d loader = Err AttributeError /\ pred_class_mode apply None distribute d loader = Err AttributeError /\
  pred_class_variance apply None distribute d loader = Err AttributeError /\ pred_class_entropy apply None distribute d loader = Err AttributeError /\
  pred_reg_mean apply None distribute d loader = Err AttributeError /\ pred_reg_mode apply None distribute d loader = Err AttributeError /\
  pred_reg_variance apply None distribute d loader = Err AttributeError /\
  @pred_class_sample label T choice X P M apply None n rng g distribute d loader = (Err AttributeError, g) /\
  pred_reg_sample label normal apply None n rng g distribute d loader = (Err AttributeError, g) /\
  pred_reg_entropy label normal apply None n rng g distribute d loader = (Err AttributeError, g) /\
  pred_quantile label normal apply None q n rng g distribute d loader = (Err AttributeError, g).
Proof. exact (@no_state). Qed.
Print Assumptions C146_no_state.
Theorem C146_classification : forall X P M (apply : P -> M -> list X -> list (list R)) p mu h distribute d loader,
  (forall xs, apply p mu xs = map h xs) -> divisible distribute d loader -> (forall x, In x (concat loader) -> h x <> []) ->
  pred_class_mean apply (Some (p, mu)) distribute d loader = Ok (map (fun x => probabilities (h x)) (concat loader)) /\
  pred_class_variance apply (Some (p, mu)) distribute d loader = Ok (map (fun x => map (fun p => (p * (1 - p))%R) (probabilities (h x))) (concat loader)) /\
  (exists labels, pred_class_mode apply (Some (p, mu)) distribute d loader = Ok labels /\ Forall2 (fun x i => first_max (h x) i) (concat loader) labels) /\
  (exists hs, pred_class_entropy apply (Some (p, mu)) distribute d loader = Ok hs /\
     Forall2 (fun x e => e = shannon (length (h x)) (fun i => nth i (probabilities (h x)) 0%R)) (concat loader) hs).
Proof. exact (@state_classification). Qed.
Print Assumptions C146_classification.
Example C146_case_hypotheses : (forall xs, unit_net 2 tt xs = map (fun x => [2 * x; 0]%R) xs) /\ divisible true 1 [[3]; [4]]%R /\ (forall x : R, In x [3; 4]%R -> [2 * x; 0]%R <> []) /\ parts_by (fun x => [2 * x; 0]%R) (fun x => [2 * x]%R) (fun x => [0]%R) [3; 4]%R.
Proof.
  split; [reflexivity|]. split; [split; [lia|split; [discriminate|intros _; repeat constructor]]|]. split; [discriminate|]. intros x _. split; reflexivity.
Qed.
Theorem C146_regression : forall X P M (apply : P -> M -> list X -> list (list R)) p mu h ms lvs distribute d loader,
  (forall xs, apply p mu xs = map h xs) -> divisible distribute d loader -> parts_by h ms lvs (concat loader) ->
  pred_reg_mean apply (Some (p, mu)) distribute d loader = Ok (map ms (concat loader)) /\
  pred_reg_mode apply (Some (p, mu)) distribute d loader = Ok (map ms (concat loader)) /\
  pred_reg_variance apply (Some (p, mu)) distribute d loader = Ok (map (fun x => map exp (lvs x)) (concat loader)) /\
  pred_std None (pred_reg_variance apply (Some (p, mu)) distribute d loader) = Ok (map (fun x => map (fun v => sqrt (exp v)) (lvs x)) (concat loader)).
Proof. exact (@state_regression). Qed.
Print Assumptions C146_regression.
Theorem C146_std : forall given variance,
  pred_std None variance = rmap (map (map sqrt)) variance /\ pred_std (Some given) variance = Ok (map (map sqrt) given).
Proof. exact (@std_spec). Qed.
Print Assumptions C146_std.
Theorem C146_log_prob : forall X P M (apply : P -> M -> list X -> list (list R)) p mu h distribute d,
  (forall xs, apply p mu xs = map h xs) ->
  (forall loader : list (list (X * nat)), divisible distribute d loader -> (forall x y, In (x, y) (concat loader) -> y < length (h x)) ->
     pred_log_prob apply (Some (p, mu)) (fun o y => Ok (class_log_prob o y)) distribute d loader
     = Ok (map (fun xy => ln (nth (snd xy) (probabilities (h (fst xy))) 0%R)) (concat loader))) /\
  (forall ms lvs (loader : list (list (X * list R))), divisible distribute d loader ->
     (forall x y, In (x, y) (concat loader) -> h x = ms x ++ lvs x /\ length (ms x) = length (lvs x) /\ length y = length (ms x)) ->
     pred_log_prob apply (Some (p, mu)) reg_log_prob distribute d loader
     = Ok (map (fun xy => gauss_log_density (ms (fst xy)) (lvs (fst xy)) (snd xy)) (concat loader))).
Proof. exact (@state_log_prob). Qed.
Print Assumptions C146_log_prob.
Theorem C146_samples : forall label X P M T (choice : key -> list R -> nat -> nat -> T) normal (apply : P -> M -> list X -> list (list R)) p mu h n rng g distribute d loader,
  (forall xs, apply p mu xs = map h xs) -> divisible distribute d loader ->
  pred_class_sample label choice apply (Some (p, mu)) n rng g distribute d loader
  = (Ok (map (fun t => map (fun kx => choice (fst kx) (probabilities (h (snd kx))) n t)
                (combine (row_keys label (key_of label rng g) (length (concat loader))) (concat loader))) (seq 0 n)), generator_after label rng g) /\
  forall ms lvs, parts_by h ms lvs (concat loader) ->
    pred_reg_sample label normal apply (Some (p, mu)) n rng g distribute d loader
    = (Ok (map (fun t => map (fun jx => noisy (ms (snd jx)) (lvs (snd jx))
                  (normal (key_of label rng g) n (length (concat loader)) (length (ms (snd jx))) t (fst jx))) (numbered (concat loader))) (seq 0 n)), generator_after label rng g) /\
    (1 <= n -> pred_reg_entropy label normal apply (Some (p, mu)) n rng g distribute d loader
    = (Ok (map (fun jx => let '(j, x) := jx in let w := length (ms x) in
        (rover w (fun c => normal_entropy (exp (nth c (lvs x) 0))) +
         1 / 2 * (raverage n (fun t => let z := normal (key_of label rng g) n (length (concat loader)) w t j in rover w (fun c => z c * z c)) - INR w))%R)
      (numbered (concat loader))), generator_after label rng g)).
Proof. exact (@state_samples). Qed.
Print Assumptions C146_samples.
Example C146_case : pred_reg_mean unit_net (Some (2%R, tt)) true 1 [[3]; [4]]%R = Ok [[2 * 3]; [2 * 4]]%R
  /\ pred_reg_mean unit_net None true 1 [[3]; [4]]%R = Err AttributeError.
Proof. split; reflexivity. Qed.
