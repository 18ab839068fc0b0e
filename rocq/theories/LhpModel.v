(** Model of predictions at fixed parameters: the estimators of likelihood/base.py,
    likelihood/classification.py and likelihood/regression.py, the samplers of
    prob_output_layer they call, and calib_model/predictive.

    Simplifications: numbers are exact; outputs are matrices, given as the list of their
    rows; the network and the output calibrator map a batch to one output per row, and are
    called with the keyword arguments left out; an array without rows has no width. *)
From Coq Require Import List Arith ZArith QArith Qround Bool Reals String.
From Verif Require Import Lib ConfRegModel QuantModel LoaderModel TempModel PredModel DrawModel.
Import ListNotations.
Local Notation length := List.length.
Local Open Scope R_scope.
Local Open Scope nat_scope.

Notation row := (list R).

Section Likelihood.
Context {X : Type}.
(** model_manager.apply at the given parameters and mutable objects, and
    output_calib_manager.apply at the given calibration parameters: there may be no
    manager, and the manager may have no calibrator *)
Variables (net : list X -> list row) (manager : option (option (list row -> list row))).

(** likelihood/base.py:409-427 and 440-458 *)
Definition calibrate (outputs : list row) : list row :=
  match manager with Some (Some c) => c outputs | _ => outputs end.
(** base.py:429-458 _get_batched_calibrated_outputs *)
Definition batched_outputs (xs : list X) : list row := calibrate (net xs).
(** base.py:460-500 get_outputs *)
Definition get_outputs (distribute : bool) (d : nat) (loader : list (list X)) : result (list row) :=
  loop_fun distribute d net loader.
(** base.py:374-427 get_calibrated_outputs: the calibrator is applied to all outputs at once *)
Definition get_calibrated_outputs (distribute : bool) (d : nat) (loader : list (list X)) : result (list row) :=
  rmap calibrate (get_outputs distribute d loader).

(** base.py:67-123 log_prob: [lp] is prob_output_layer.log_prob of a row *)
Definition log_prob {T} (lp : row -> T -> result R) (distribute : bool) (d : nat) (loader : list (list (X * T))) : result (list R) :=
  bind (loop_fun distribute d (fun b => zip_with lp (batched_outputs (map fst b)) (map snd b)) loader) (mapM (fun r => r)).

(** classification.py:102-128, 181-199, through base.py:502-692 *)
Definition class_batched_mean (xs : list X) : list row := map softmax (batched_outputs xs).
Definition class_batched_mode (xs : list X) : list nat := map rargmax (batched_outputs xs).
Definition class_batched_variance (xs : list X) : list row := map (map (fun p => (p * (1 - p))%R)) (class_batched_mean xs).
Definition class_mean (distribute : bool) (d : nat) (loader : list (list X)) : result (list row) :=
  loop_fun distribute d class_batched_mean loader.
Definition class_mode (distribute : bool) (d : nat) (loader : list (list X)) : result (list nat) :=
  loop_fun distribute d class_batched_mode loader.
Definition class_variance (distribute : bool) (d : nat) (loader : list (list X)) : result (list row) :=
  loop_fun distribute d class_batched_variance loader.
(** classification.py:201-222: the terms are those of prob_output_layer/classification.py:140-148 *)
Definition class_entropy (distribute : bool) (d : nat) (loader : list (list X)) : result (list R) :=
  rmap (map layer_entropy) (get_calibrated_outputs distribute d loader).

(** regression.py:55-99: the axis is cut at half its length, rounded down *)
Definition reg_batched_mean (xs : list X) : list row := map (fun o => firstn (length o / 2) o) (batched_outputs xs).
Definition reg_batched_variance (xs : list X) : list row := map (fun o => map exp (skipn (length o / 2) o)) (batched_outputs xs).
Definition reg_mean (distribute : bool) (d : nat) (loader : list (list X)) : result (list row) :=
  loop_fun distribute d reg_batched_mean loader.
Definition reg_mode (distribute : bool) (d : nat) (loader : list (list X)) : result (list row) :=
  loop_fun distribute d reg_batched_mean loader.
Definition reg_variance (distribute : bool) (d : nat) (loader : list (list X)) : result (list row) :=
  loop_fun distribute d reg_batched_variance loader.

(** base.py:694-748 *)
Definition std (given : option (list row)) (variance : result (list row)) : result (list row) :=
  rmap (map (map sqrt)) (match given with Some v => Ok v | None => variance end).
End Likelihood.

(** ---- samples ---- *)
Section Samples.
Variable label : nat -> nat.
Context {T : Type}.
(** random.choice(key, n_cats, p=p, shape=(m,))[t] *)
Variable choice : key -> row -> nat -> nat -> T.
(** random.normal(key, (m, b, w))[t, j, c] *)
Variable normal : key -> nat -> nat -> nat -> nat -> nat -> nat -> R.

(** prob_output_layer/classification.py:33-52, after the key is known: entry [t, j] *)
Definition class_layer_sample (m : nat) (outputs : list row) (k : key) : result (list (list T)) :=
  let probs := map softmax outputs in
  let keys := split label k (length probs) in
  Ok (map (fun t => map (fun kp => choice (fst kp) (snd kp) m t) (combine keys probs)) (seq 0 m)).
(** prob_output_layer/regression.py:39-51, entry [t, j, c] *)
Definition reg_layer_sample (m : nat) (outputs : list row) (k : key) : result (list (list row)) :=
  rmap (fun hs =>
    map (fun t => map (fun jh => let '(j, (means, log_vars)) := jh in
      map (fun cml => let '(c, (mean, lv)) := cml in
             reg_sample1 mean lv (normal k m (length hs) (length means) t j c))
          (combine (seq 0 (length means)) (combine means log_vars)))
      (combine (seq 0 (length hs)) hs)) (seq 0 m))
    (mapM halves outputs).

(** likelihood/base.py:266-337 sample: the layer takes the key it is passed or the next one of
    its own generator, whose state is returned *)
Definition sample {X S} (layer : nat -> list row -> key -> result S) net manager (m : nat) (return_aux : list string)
    (rng : option key) (g : key) (distribute : bool) (d : nat) (loader : list (list X)) : result (S * option (list row)) * key :=
  match bind (check_aux return_aux) (fun _ => get_calibrated_outputs net manager distribute d loader) with
  | Err e => (Err e, g)
  | Ok outputs =>
      let '(k, g') := the_rng label rng g in
      (rmap (fun s => (s, match return_aux with [] => None | _ => Some outputs end)) (layer m outputs k), g')
  end.

(** regression.py:101-130: minus the mean over the samples of the log-probability of each row *)
Definition reg_entropy {X} net manager (m : nat) (rng : option key) (g : key) (distribute : bool) (d : nat) (loader : list (list X))
    : result (list R) * key :=
  let '(r, g') := sample reg_layer_sample net manager m ["outputs"%string] rng g distribute d loader in
  (bind r (fun so => match snd so with
     | None => Err TypeError
     | Some outputs =>
         mapM (fun jo => rmap (fun lls => (- rmean lls)%R)
                 (mapM (fun s => reg_log_prob (snd jo) (nth (fst jo) s [])) (fst so)))
              (combine (seq 0 (length outputs)) outputs)
     end), g').

(** jnp.quantile of real samples, as QuantModel.quantile *)
Fixpoint rinsert (x : R) (l : list R) : list R :=
  match l with
  | [] => [x]
  | y :: r => if Rleb x y then x :: l else y :: rinsert x r
  end.
Definition rsort (l : list R) : list R := fold_right rinsert [] l.
Definition rquantile (l : list R) (q : Q) : R :=
  let n := length l in
  let pos := (q * (inject_Z (Z.of_nat n) - 1))%Q in
  let low := Qfloor pos in
  let high := Qceiling pos in
  let w := Q2R (pos - inject_Z low)%Q in
  (nth (clamp_index n low) (rsort l) 0 * (1 - w) + nth (clamp_index n high) (rsort l) 0 * w)%R.
(** along the leading axis: for every row and every component *)
Definition quantile0 (samples : list (list row)) (q : Q) : list row :=
  map (fun jr => map (fun c => rquantile (map (fun s => nth c (nth (fst jr) s []) 0%R) samples) q) (seq 0 (length (snd jr))))
      (combine (seq 0 (length (hd [] samples))) (hd [] samples)).

(** the levels that may be passed: jnp.quantile refuses python lists *)
Inductive levels := Level (q : Q) | LevelArray (qs : list Q) | LevelList (qs : list Q).
Inductive quantiles := One (a : list row) | Several (a : list (list row)).
Definition np_quantile (q : levels) (samples : list (list row)) : result quantiles :=
  match q with
  | Level q => Ok (One (quantile0 samples q))
  | LevelArray qs => Ok (Several (map (quantile0 samples) qs))
  | LevelList _ => Err TypeError
  end.
(** likelihood/regression.py:132-194; [params_given]: whether params is not None *)
Definition quantile {X} net manager (q : levels) (params_given : bool) (loader : option (list (list X))) (m : nat)
    (target_samples : option (list (list row))) (rng : option key) (g : key) (distribute : bool) (d : nat)
    : result quantiles * key :=
  match target_samples with
  | Some s => (np_quantile q s, g)
  | None =>
      match params_given, loader with
      | true, Some l =>
          let '(r, g') := sample reg_layer_sample net manager m [] rng g distribute d l in
          (bind r (fun so => np_quantile q (fst so)), g')
      | _, _ => (Err ValueError, g)
      end
  end.

(** ---- calib_model/predictive ---- *)
(** base.py: every method reads the parameters and mutable objects from the state repository,
    which is there once the model is calibrated or loaded *)
Section Predictive.
Context {X P M : Type}.
Variables (apply : P -> M -> list X -> list row) (state : option (P * M)).
Definition with_state {A} (f : (list X -> list row) -> result A) : result A :=
  match state with None => Err AttributeError | Some (p, mu) => f (apply p mu) end.
Definition with_state_key {A} (g : key) (f : (list X -> list row) -> result A * key) : result A * key :=
  match state with None => (Err AttributeError, g) | Some (p, mu) => f (apply p mu) end.

(** base.py:27-57, 103-212; calibration models have no output calibrator *)
Definition pred_log_prob {T'} (lp : row -> T' -> result R) (distribute : bool) (d : nat) (loader : list (list (X * T'))) : result (list R) :=
  with_state (fun net => log_prob net None lp distribute d loader).
Definition pred_class_mean distribute d loader := with_state (fun net => class_mean net None distribute d loader).
Definition pred_class_mode distribute d loader := with_state (fun net => class_mode net None distribute d loader).
Definition pred_class_variance distribute d loader := with_state (fun net => class_variance net None distribute d loader).
Definition pred_reg_mean distribute d loader := with_state (fun net => reg_mean net None distribute d loader).
Definition pred_reg_mode distribute d loader := with_state (fun net => reg_mode net None distribute d loader).
Definition pred_reg_variance distribute d loader := with_state (fun net => reg_variance net None distribute d loader).
(** base.py:214-250: the square root of the variances given, else of the method variance *)
Definition pred_std (given : option (list row)) (variance : result (list row)) : result (list row) := std given variance.
(** classification.py:12-47 *)
Definition pred_class_entropy distribute d loader := with_state (fun net => class_entropy net None distribute d loader).
(** base.py:59-101 *)
Definition pred_class_sample n rng g distribute d loader :=
  with_state_key g (fun net => let '(r, g') := sample class_layer_sample net None n [] rng g distribute d loader in (rmap fst r, g')).
Definition pred_reg_sample n rng g distribute d loader :=
  with_state_key g (fun net => let '(r, g') := sample reg_layer_sample net None n [] rng g distribute d loader in (rmap fst r, g')).
(** regression.py:20-104 *)
Definition pred_reg_entropy n rng g distribute d loader :=
  with_state_key g (fun net => reg_entropy net None n rng g distribute d loader).
Definition pred_quantile (q : levels) n rng g distribute d loader :=
  with_state_key g (fun net => quantile net None q true (Some loader) n None rng g distribute d).

(** regression.py:139-150, with the message formatted properly *)
Definition levels_of (error : Q) (kind : string) : result levels :=
  if negb (existsb (String.eqb kind) ["two-tailed"; "right-tailed"; "left-tailed"]%string) then Err ValueError
  else Ok (if String.eqb kind "two-tailed" then LevelArray [(1 # 2) * error; 1 - (1 # 2) * error]%Q
           else if String.eqb kind "left-tailed" then Level error else Level (1 - error)%Q).
(** regression.py:158-166; shape[-1] is the width of the rows *)
Definition to_intervals (qq : quantiles) : result (list row) :=
  match qq with
  | One a => if length (hd [] a) =? 1 then Ok a else Err ValueError
  | Several [lq; uq] =>
      if length (hd [] lq) =? 1 then Ok (map (fun lu => fst lu ++ snd lu) (combine lq uq)) else Err ValueError
  | Several _ => Err ValueError
  end.
Definition pred_credible_interval (error : Q) (kind : string) n rng g distribute d loader : result (list row) * key :=
  match levels_of error kind with
  | Err e => (Err e, g)
  | Ok q => let '(r, g') := pred_quantile q n rng g distribute d loader in (bind r to_intervals, g')
  end.
End Predictive.
End Samples.
