(** Model of fortuna/prob_model/predictive/{base,classification,regression}.py and
    fortuna/prob_output_layer/{base,classification,regression}.py.

    Quantities are modelled for one input (and one output coordinate); evaluation over
    batches and devices is in LoaderModel.  [n] is n_posterior_samples, at least 1.  The
    posterior samples enter as functions of the index of their random key. *)
From Coq Require Import List Arith ZArith QArith Qminmax Bool Reals String.
From Verif Require Import Lib QuantModel ConfRegModel ConfClassModel TempModel.
Import ListNotations.
Local Notation length := List.length.
Open Scope Q_scope.

(** lax.fori_loop(lo, hi, f, init) *)
Fixpoint fori {S} (k lo : nat) (f : nat -> S -> S) (init : S) : S :=
  match k with O => init | S k' => fori k' (Datatypes.S lo) f (f lo init) end.
Definition fori_loop {S} (lo hi : nat) (f : nat -> S -> S) (init : S) : S := fori (hi - lo) lo f init.

(** base.py:624-647 and 735-758: a running sum over posterior samples, divided by n *)
Definition batched_mean (n : nat) (m : nat -> Q) : Q :=
  let f := fun i s => s + m i in
  fori_loop 1 n f (f O 0) / inject_Z (Z.of_nat n).
Definition batched_aleatoric_variance (n : nat) (v : nat -> Q) : Q :=
  let f := fun i s => s + v i in
  fori_loop 1 n f (f O 0) / inject_Z (Z.of_nat n).
(** base.py:806-836 *)
Definition batched_epistemic_variance (n : nat) (m : nat -> Q) : Q :=
  let f := fun i (s : Q * Q) => (fst s + m i, snd s + m i * m i) in
  let s := fori_loop 1 n f (f O (0, 0)) in
  let c := fst s / inject_Z (Z.of_nat n) in
  Qmax 0 (snd s / inject_Z (Z.of_nat n) - c * c).
(** base.py:838-898: quantities passed by the caller are used as they are, the others are
    computed from samples drawn with two different keys *)
Definition variance (n : nat) (aleatoric epistemic : option Q) (v m : nat -> Q) : Q :=
  match aleatoric with Some a => a | None => batched_aleatoric_variance n v end
  + match epistemic with Some e => e | None => batched_epistemic_variance n m end.
(** likelihood/classification.py:181-199 and prob_output_layer/classification.py:88-104 *)
Definition class_variance (p : Q) : Q := p * (1 - p).

(** ---- credible sets, classification.py:434-483 ---- *)
(** jnp.argmax of booleans: first true one, or 0 *)
Fixpoint first_true (l : list bool) (i : nat) : option nat :=
  match l with [] => None | true :: _ => Some i | false :: r => first_true r (Datatypes.S i) end.
Definition argmax_bool (l : list bool) : nat := match first_true l 0 with Some i => i | None => O end.
(** lines 472-477 for one row of p_classes *)
Definition ranked_labels (probs : list Q) : list nat := rev (argsort Qle_bool 0 probs).
Definition index_true (probs : list Q) (error : Q) : nat :=
  argmax_bool (map (fun c => Qlt_bool (1 - error) c) (cumsum (map (fun i => nth i probs 0) (ranked_labels probs)))).
(** lines 478-483: one pass per set size; None is the initial 0 of the object array *)
Definition credible_sets (k : nat) (rows : list (list Q)) (error : Q) : list (option (list nat)) :=
  let idxs := map (fun r => index_true r error) rows in
  fold_left (fun sets s =>
      let idx := filter (fun i => (nth i idxs O =? s)%nat) (seq 0 (length rows)) in
      assign idx (map (fun i => Some (firstn (Datatypes.S s) (ranked_labels (nth i rows [])))) idx) sets)
    (seq 0 k) (repeat None (length rows)).

(** ---- conformal sets, classification.py:485-626 ---- *)
(** The log-probabilities are exponentiated in the code before they are used, so the model
    starts from the probabilities: one row per posterior sample, with a column per
    training point, then per class a column for each test point. *)
Definition column (arr : list (list Q)) (j : nat) : list Q := map (fun row => nth j row 0) arr.
(** lines 547-554: transposition, vsplit and dstack; row c has the test point's probability
    of class c under each sample *)
Definition test_grid (arr : list (list Q)) (n_train n_test n_classes t : nat) : list (list Q) :=
  map (fun c => column arr (n_train + (c * n_test + t))%nat) (seq 0 n_classes).
Definition dot (a b : list Q) : Q := qsum (zip_with Qmult a b).
(** lines 557-583, one class with importance weights w *)
Definition prob_train (arr : list (list Q)) (n_train : nat) (w : list Q) : list Q :=
  let z := qsum w in
  map (fun i => dot (map (fun x => x / z) w) (column arr i)) (seq 0 n_train).
Definition prob_test (w : list Q) : Q := qsum (map (fun x => x * x) w) / qsum w.
Definition rank_test (arr : list (list Q)) (n_train : nat) (w : list Q) : nat :=
  length (filter (fun p => Qle_bool p (prob_test w)) (prob_train arr n_train w ++ [prob_test w])).
Definition in_region (arr : list (list Q)) (n_train : nat) (error : Q) (w : list Q) : bool :=
  Qlt_bool (error * inject_Z (Z.of_nat (n_train + 1))) (inject_Z (Z.of_nat (rank_test arr n_train w))).
Definition region (arr : list (list Q)) (n_train n_test n_classes : nat) (error : Q) (t : nat) : list bool :=
  map (in_region arr n_train error) (test_grid arr n_train n_test n_classes t).
(** lines 590-596; np.argsort of booleans, as a stable sort *)
Definition bool_le (a b : bool) : bool := implb a b.
Definition region_sets (rows : list (list bool)) : list (option (list nat)) :=
  let sizes := map (fun r => length (filter (fun b => b) r)) rows in
  let order := map (fun r => rev (argsort bool_le false r)) rows in
  fold_left (fun sets s =>
      let idx := filter (fun i => (nth i sizes O =? s)%nat) (seq 0 (length rows)) in
      assign idx (map (fun i => Some (rev (firstn s (nth i order [])))) idx) sets)
    (unique_nat sizes) (repeat None (length rows)).
Definition conformal_sets (arr : list (list Q)) (n_train n_test n_classes : nat) (error : Q) : list (option (list nat)) :=
  region_sets (map (region arr n_train n_test n_classes error) (seq 0 n_test)).
(** lines 598-623: effective sample size of the weights of one class *)
Definition ess (w : list Q) : Q := 1 / qsum (map (fun x => x * x) (map (fun x => x / qsum w) w)).

(** ---- intervals, predictive/regression.py:269-329 and prob_output_layer/regression.py:91-144 ---- *)
(** quantile levels; the output layer formats its error message with too few arguments *)
Definition interval_levels (layer : bool) (error : Q) (kind : string) : result (list Q) :=
  if String.eqb kind "two-tailed" then Ok [(1 # 2) * error; 1 - (1 # 2) * error]
  else if String.eqb kind "left-tailed" then Ok [error]
  else if String.eqb kind "right-tailed" then Ok [1 - error]
  else Err (if layer then IndexError else ValueError).
(** for one scalar target: linear-interpolation quantiles of the target samples *)
Definition credible_interval (layer : bool) (error : Q) (kind : string) (samples : list Q) : result (list Q) :=
  rmap (map (quantile samples)) (interval_levels layer error kind).

(** ---- logarithmic quantities ---- *)
Open Scope R_scope.
Definition lse (l : list R) : R := ln (rsum (map exp l)).
Definition rmean (l : list R) : R := rsum l / INR (length l).
Definition one_hot (k i : nat) : list R := map (fun j => if (j =? i)%nat then 1 else 0) (seq 0 k).
(** prob_output_layer/classification.py:25-28 *)
Definition class_log_prob (outputs : list R) (target : nat) : R :=
  rsum (map (fun p => fst p * snd p) (combine (one_hot (length outputs) target) outputs)) - lse outputs.
(** lines 30-31 and 54-86 *)
Definition class_predict (outputs : list R) : nat := rargmax outputs.
Definition class_mean (outputs : list R) : list R := softmax outputs.
(** ClassificationMaskedProbOutputLayer, lines 151-158 *)
Definition masked_log_prob (outputs : list R) (target : nat) : R :=
  class_log_prob outputs target * (if (0 <? target)%nat then 1 else 0).
(** lines 125-148 *)
Definition layer_entropy (outputs : list R) : R :=
  - rsum (map (fun i => exp (class_log_prob outputs i) * class_log_prob outputs i) (seq 0 (length outputs))).
(** predictive/classification.py:257-432, for one input; k is the number of classes *)
Section Entropy.
Variables (n k : nat) (outputs : nat -> list R).
Definition ensemble : list (list R) := map outputs (seq 0 n).
Definition log_liks (i : nat) : list R := map (fun o => class_log_prob o i) ensemble.
Definition log_pred (i : nat) : R := lse (log_liks i) - ln (INR n).
Definition aleatoric_entropy : R := - rsum (map (fun i => rmean (map (fun l => exp l * l) (log_liks i))) (seq 0 k)).
Definition epistemic_entropy : R :=
  - rsum (map (fun i => exp (log_pred i) * log_pred i - rmean (map (fun l => exp l * l) (log_liks i))) (seq 0 k)).
Definition entropy : R := - rsum (map (fun i => exp (log_pred i) * log_pred i) (seq 0 k)).
End Entropy.

(** predictive/base.py:179-203 for one data point: [ll i] is its log-likelihood under
    posterior sample i *)
Definition pred_log_prob (n : nat) (ll : nat -> R) : R := lse (map ll (seq 0 n)) - ln (INR n).

(** predictive/regression.py:51-267; [ll i j t] is the log-likelihood under posterior
    sample i of the t-th target drawn from sample j; m is n_target_samples *)
Section RegEntropy.
Variables (n m : nat) (ll : nat -> nat -> nat -> R).
Definition reg_log_pred (j t : nat) : R := lse (map (fun i => ll i j t) (seq 0 n)) - ln (INR n).
Definition reg_aleatoric : R :=
  let f := fun i s => s - rmean (map (fun t => ll i i t) (seq 0 m)) in fori_loop 1 n f (f O 0) / INR n.
Definition reg_epistemic : R :=
  let f := fun i s => s - rmean (map (fun t => reg_log_pred i t - ll i i t) (seq 0 m)) in fori_loop 1 n f (f O 0) / INR n.
Definition reg_entropy : R :=
  let f := fun i s => s - rmean (map (fun t => reg_log_pred i t) (seq 0 m)) in fori_loop 1 n f (f O 0) / INR n.
End RegEntropy.

(** prob_output_layer/regression.py:30-34: first half of the outputs are means, second half
    log-variances; jnp.split raises on an odd length *)
Definition halves (outputs : list R) : result (list R * list R) :=
  if Nat.even (length outputs) then Ok (firstn (length outputs / 2) outputs, skipn (length outputs / 2) outputs) else Err ValueError.
Definition gauss_term (y m lv : R) : R := exp (- lv) * ((y - m) * (y - m)) + lv + ln (2 * PI).
Definition reg_log_prob (outputs targets : list R) : result R :=
  rmap (fun mv => - (1 / 2) * rsum (map (fun tmv => gauss_term (fst tmv) (fst (snd tmv)) (snd (snd tmv))) (combine targets (combine (fst mv) (snd mv)))))
    (halves outputs).
(** lines 36-37, 67-74 *)
Definition reg_mean (outputs : list R) : result (list R) := rmap fst (halves outputs).
Definition reg_variance (outputs : list R) : result (list R) := rmap (fun mv => map exp (snd mv)) (halves outputs).
(** prob_output_layer/base.py:135-152: given variances are returned unchanged *)
Definition layer_std (var : list R) (variances : option (list R)) : list R :=
  match variances with None => map sqrt var | Some v => v end.
(** lines 39-51, one coordinate and one standard normal draw z *)
Definition reg_sample1 (m lv z : R) : R := m + exp (1 / 2 * lv) * z.
