(** Model of the random keys behind the predictive quantities: utils/random.py,
    prob_model/predictive/base.py and prob_model/predictive/regression.py,
    likelihood/base.py:339-372 and the samplers of prob_output_layer.

    A key is the path that leads to it from the seed: jax derives keys only by splitting
    and by folding in a number.  Different paths are taken to be different keys, except
    that jax's [split(k, n)[i]] may or may not depend on n, according to its configuration
    (jax_threefry_partitionable): [label] is that dependence, the identity or a constant.

    Simplifications: posterior.sample is a function of its key only (no posterior of the
    library uses the inputs it is passed other than for their shape); outputs of the network
    are computed row by row (models run with train=False); one component of the target. *)
From Coq Require Import List Arith Bool QArith Reals String.
From Verif Require Import Lib ConfRegModel LoaderModel PredModel.
Import ListNotations.
Local Notation length := List.length.
Local Notation concat := List.concat.
Local Open Scope nat_scope.

Inductive move := Cut (label i : nat) | Fold (i : nat).
Definition key := list move.
(** jax.random.fold_in *)
Definition fold_in (k : key) (i : nat) : key := k ++ [Fold i].

Section Draw.
Variable label : nat -> nat.
(** jax.random.split(k, n)[i] and jax.random.split(k, n) *)
Definition child (k : key) (n i : nat) : key := k ++ [Cut (label n) i].
Definition split (k : key) (n : nat) : list key := map (child k n) (seq 0 n).

(** utils/random.py:38-49 RandomNumberGenerator.get: the key handed out, and the state left *)
Definition rng_get (g : key) : key * key := let k := nth 0 (split g 2) [] in (k, k).
(** "if rng is None: rng = self.rng.get()": the key of the call, and the generator left *)
Definition the_rng (rng : option key) (g : key) : key * key :=
  match rng with None => rng_get g | Some k => (k, g) end.

Section Predictive.
Variables (P X Y T : Type).
Variables (post : key -> P).                         (* posterior.sample *)
Variables (out : P -> X -> Y).                       (* calibrated outputs of a row *)
Variables (mean_of var_of : Y -> Q).                 (* likelihood._batched_mean, _batched_variance *)
(** prob_output_layer.sample: the t-th of n targets for the j-th of b rows *)
Variable noise : key -> nat -> nat -> nat -> nat -> Y -> T.

(** "keys[i]" *)
Definition nth_key (keys : list key) (i : nat) : key := nth i keys [].

(** base.py:624-647, 735-758, 806-836 *)
Definition batch_mean (n : nat) (rng : key) (xs : list X) : list Q :=
  let keys := split rng n in map (fun x => batched_mean n (fun i => mean_of (out (post (nth_key keys i)) x))) xs.
Definition batch_aleatoric (n : nat) (rng : key) (xs : list X) : list Q :=
  let keys := split rng n in map (fun x => batched_aleatoric_variance n (fun i => var_of (out (post (nth_key keys i)) x))) xs.
Definition batch_epistemic (n : nat) (rng : key) (xs : list X) : list Q :=
  let keys := split rng n in map (fun x => batched_epistemic_variance n (fun i => mean_of (out (post (nth_key keys i)) x))) xs.
(** base.py:461-495 _sample_batched_calibrated_outputs *)
Definition batch_outputs (n : nat) (rng : key) (xs : list X) : list (list Y) :=
  map (fun k => map (out (post k)) xs) (split rng n).

(** base.py:582-622, 689-733, 760-804: every batch is passed the same key (952-975) *)
Definition mean (distribute : bool) (d n : nat) (rng : option key) (g : key) (loader : list (list X)) : result (list Q) * key :=
  let '(k, g') := the_rng rng g in (loop_fun distribute d (batch_mean n k) loader, g').
Definition aleatoric_variance (distribute : bool) (d n : nat) (rng : option key) (g : key) (loader : list (list X)) : result (list Q) * key :=
  let '(k, g') := the_rng rng g in (loop_fun distribute d (batch_aleatoric n k) loader, g').
Definition epistemic_variance (distribute : bool) (d n : nat) (rng : option key) (g : key) (loader : list (list X)) : result (list Q) * key :=
  let '(k, g') := the_rng rng g in (loop_fun distribute d (batch_epistemic n k) loader, g').
(** base.py:442-460, 999-1022 *)
Definition calibrated_outputs (distribute : bool) (d n : nat) (rng : option key) (g : key) (loader : list (list X)) : result (list (list Y)) * key :=
  let '(k, g') := the_rng rng g in (loop_ensemble distribute d n (batch_outputs n k) loader, g').

(** base.py:838-898: parts passed by the caller are used as they are, and the keys of the others
    come from splitting the call's key once for each computed part *)
Definition variance (distribute : bool) (d n : nat) (al ep : option (list Q)) (rng : option key) (g : key) (loader : list (list X))
    : result (list Q) * key :=
  let '(k, g') := the_rng rng g in
  let '(a, k) := match al with
    | Some a => (Ok a, k)
    | None => (fst (aleatoric_variance distribute d n (Some (nth_key (split k 2) 1)) g' loader), nth_key (split k 2) 0)
    end in
  let e := match ep with
    | Some e => Ok e
    | None => fst (epistemic_variance distribute d n (Some (nth_key (split k 2) 1)) g' loader)
    end in
  (bind a (fun a => bind e (fun e => Ok (zip_with Qplus a e))), g').

(** likelihood/base.py:339-372 and prob_output_layer: m targets for each row *)
Definition layer_sample (m : nat) (ys : list Y) (k : key) : list (list T) :=
  map (fun t => map (fun jy => noise k m (length ys) t (fst jy) (snd jy)) (combine (seq 0 (length ys)) ys)) (seq 0 m).

(** base.py:406-440 _batched_sample; squeeze(0) of the single target sample *)
Definition batch_sample (n : nat) (rng : key) (xs : list X) : list (list T) :=
  map (fun k => let key1 := nth_key (split k 2) 0 in let key2 := nth_key (split k 2) 1 in
                hd [] (layer_sample 1 (map (out (post key1)) xs) key2)) (split rng n).

(** base.py:316-404 without distribution.  [not rng] of a key that is passed raises ValueError:
    the truth value of an array with more than one element is ambiguous.  With auxiliary
    objects the batches are concatenated along the axis of the target samples (so their other
    axis must agree), and the dictionary returned is tested before anything is in it. *)
Definition concat_axis0 {A} (parts : list (list (list A))) : result (list (list A)) :=
  match parts with
  | [] => Err ValueError
  | p :: r =>
      if forallb (fun q => length (hd [] q) =? length (hd [] p)) r then Ok (concat parts) else Err ValueError
  end.
(** likelihood/base.py:351-361: the sum of the names that are not supported starts from the number 0 *)
Definition check_aux (return_aux : list string) : result unit :=
  if forallb (String.eqb "outputs") return_aux then Ok tt else Err TypeError.
Definition sample (n : nat) (return_aux : list string) (rng : option key) (g : key) (loader : list (list X))
    : result (list (list T) * list (string * list (list Y))) * key :=
  match rng with
  | Some _ => (Err ValueError, g)
  | None =>
      let '(k, g') := rng_get g in
      (match return_aux with
       | [] => rmap (fun s => (s, [])) (concat_axis1 n (map (batch_sample n k) loader))
       | _ => bind (mapM (fun xs => rmap (fun _ => batch_sample n k xs) (check_aux return_aux)) loader) (fun parts =>
              rmap (fun s => (s, [])) (concat_axis0 parts))
       end, g')
  end.
(** predictive/regression.py:331-369 quantile, 269-329 credible_interval: of the samples *)
Definition quantile {R} (quant : list (list T) -> result R) (n : nat) (rng : option key) (g : key) (loader : list (list X)) : result R * key :=
  let '(s, g') := sample n [] rng g loader in (bind s (fun s => quant (fst s)), g').

(** base.py:537-580 _sample_outputs_loader, one element for each batch: with distribution the
    key of a sample is split over the devices (shard_prng_key), without it is used as it is *)
Definition outputs_loader (distribute : bool) (d n : nat) (rng : option key) (g : key) (loader : list (list X))
    : result (list (list (list Y))) * key :=
  let '(k, g') := the_rng rng g in
  let keys := split k n in
  (mapM (fun xs =>
     if distribute then
       rmap (fun shards =>
         map (fun k => concat (map (fun js => map (out (post (nth_key (split k d) (fst js)))) (snd js)) (combine (seq 0 d) shards))) keys)
         (reshape_devices d xs)
     else Ok (map (fun k => map (out (post k)) xs) keys)) loader, g').

(** regression.py:89-105, 160-176, 235-251: outputs of n posterior samples from the first key,
    and m targets for each of them from the others, after the batches are concatenated *)
Definition reg_draws (distribute : bool) (d n m : nat) (rng : option key) (g : key) (loader : list (list X))
    : result (list (list Y) * list (list (list T))) * key :=
  let '(k, g') := the_rng rng g in
  let keys := split k (1 + n) in
  (rmap (fun outs => (outs, map (fun ok => layer_sample m (fst ok) (snd ok)) (combine outs (tl keys))))
     (fst (calibrated_outputs distribute d n (Some (hd [] keys)) g' loader)), g').
(** regression.py:107-116, 178-195, 253-267: the three entropies of every row, from the
    log-probabilities under each of the outputs *)
Definition row_logps (log_prob : Y -> T -> R) (outs : list (list Y)) (targets : list (list (list T))) (dy : Y) (dt : T) (r i j t : nat) : R :=
  log_prob (nth r (nth i outs []) dy) (nth r (nth t (nth j targets []) []) dt).
Definition entropy_call (est : nat -> nat -> (nat -> nat -> nat -> R) -> R) (log_prob : Y -> T -> R) (dy : Y) (dt : T)
    (distribute : bool) (d n m : nat) (rng : option key) (g : key) (loader : list (list X)) : result (list R) * key :=
  let '(dr, g') := reg_draws distribute d n m rng g loader in
  (rmap (fun ot => map (fun r => est n m (row_logps log_prob (fst ot) (snd ot) dy dt r)) (seq 0 (length (hd [] (fst ot))))) dr, g').
End Predictive.

(** prob_output_layer/classification.py:40-52: a key for each row, whose [choice] is drawn from *)
Definition class_noise {Y T} (choice : key -> nat -> nat -> Y -> T) (k : key) (m b t j : nat) (y : Y) : T :=
  choice (nth_key (split k b) j) m t y.
(** prob_output_layer/regression.py:46-51: one array of normal numbers of shape (m, b) *)
Definition reg_noise {Y T Z} (place : Y -> Z -> T) (normal : key -> nat -> nat -> nat -> nat -> Z) (k : key) (m b t j : nat) (y : Y) : T :=
  place y (normal k m b t j).

(** ---- what a sequence of calls draws from ----
    Calls that take their key from the generator, and the keys they end up drawing from. *)
Inductive call :=
  | Average (n : nat)      (* mean, mode, the two variances, log_prob, outputs, entropies of classification *)
  | Entropies (n : nat)    (* the entropies of regression *)
  | Samples (n : nat)      (* sample, quantile, credible_interval *)
  | Variances (n : nat)    (* variance, std *)
  | Training (s : nat).    (* a trainer that runs s steps: trainer.py:676-680 training_step_start *)
Definition drawn (k : key) (c : call) : list key :=
  match c with
  | Average n => split k n
  | Entropies n => split (hd [] (split k (1 + n))) n ++ tl (split k (1 + n))
  | Samples n => flat_map (fun k => split k 2) (split k n)
  | Variances n => split (nth_key (split k 2) 1) n ++ split (nth_key (split (nth_key (split k 2) 0) 2) 1) n
  | Training s => map (fold_in k) (seq 0 s)
  end.
Fixpoint history (g : key) (cs : list call) : list key :=
  match cs with
  | [] => []
  | c :: r => let '(k, g') := rng_get g in drawn k c ++ history g' r
  end.
End Draw.
Arguments mean label {P X Y}.
Arguments aleatoric_variance label {P X Y}.
Arguments epistemic_variance label {P X Y}.
Arguments calibrated_outputs label {P X Y}.
Arguments variance label {P X Y}.
Arguments layer_sample {Y T}.
Arguments batch_mean label {P X Y}.
Arguments batch_aleatoric label {P X Y}.
Arguments batch_epistemic label {P X Y}.
Arguments batch_outputs label {P X Y}.
Arguments batch_sample label {P X Y T}.
Arguments sample label {P X Y T}.
Arguments quantile label {P X Y T} _ _ _ {R}.
Arguments outputs_loader label {P X Y}.
Arguments reg_draws label {P X Y T}.
Arguments row_logps {Y T}.
Arguments entropy_call label {P X Y T}.
