(** Model of fortuna/prob_model/posterior/base.py (choice of the starting state),
    fortuna/prob_model/posterior/laplace, fortuna/distribution/gaussian.py and
    fortuna/prob_model/posterior/normalizing_flow. *)
From Coq Require Import List Arith ZArith QArith Bool String Reals.
From Verif Require Import Lib QuantModel ConfClassModel NestedModel FreezeModel TempModel.
Import ListNotations.
Local Notation length := List.length.
Local Notation concat := List.concat.
Open Scope Q_scope.
Local Notation "a >>= f" := (bind a f) (at level 61, left associativity).

(** ---- where training starts ---- *)
(** the kinds of posterior states, posterior/*/..._state.py *)
Inductive state_kind := MapKind | LaplaceKind | AdviKind | SwagKind | OtherKind.
Definition kind_eqb (a b : state_kind) : bool :=
  match a, b with MapKind, MapKind | LaplaceKind, LaplaceKind | AdviKind, AdviKind | SwagKind, SwagKind | OtherKind, OtherKind => true | _, _ => false end.
Inductive start (S : Type) := FromCheckpoint (s : S) | FromCurrent (s : S) | FromMap | Fresh.
Arguments FromCheckpoint {S} s.
Arguments FromCurrent {S} s.
Arguments FromMap {S}.
Arguments Fresh {S}.
(** posterior/base.py:210-217 *)
Definition check_fit_config (dump_state save_dir_given : bool) : result unit :=
  if dump_state && negb save_dir_given then Err ValueError else Ok tt.
(** posterior/base.py:68-88, 219-224, 243-255 as used by every fit: [restore] is the result of
    restoring the given checkpoint path ([None]: no path given), [current] the result of
    [self.state.get()] ([None]: [self.state] is None) *)
Definition fit_start {S} (kind : S -> state_kind) (allowed : list state_kind) (dump_state save_dir_given : bool)
    (restore : option (result S)) (start_from_current : bool) (current : option (result S)) (map_config_given : bool) : result (start S) :=
  check_fit_config dump_state save_dir_given >>= fun _ =>
  let check s ok := if existsb (kind_eqb (kind s)) allowed then Ok ok else Err ValueError in
  match restore with
  | Some r => r >>= fun s => check s (FromCheckpoint s)
  | None =>
      if start_from_current then
        match current with None => Err AttributeError | Some r => r >>= fun s => check s (FromCurrent s) end
      else Ok (if map_config_given then FromMap else Fresh)
  end.
(** laplace_posterior.py:236-260: a fresh start is refused *)
Definition laplace_start {S} (kind : S -> state_kind) dump_state save_dir_given restore start_from_current current map_config_given : result (start S) :=
  fit_start kind [MapKind; LaplaceKind] dump_state save_dir_given restore start_from_current current map_config_given >>= fun s =>
  match s with Fresh => Err ValueError | _ => Ok s end.

(** ---- converting states: laplace_state.py:41-95, laplace_posterior.py:386-421,
         advi_trainer.py:73-93, advi_posterior.py:340-388 ----
    without [which_params] the parameters are a dictionary of model components; [A] is the
    "params" entry of a component *)
Definition pair_components {A} (means others : list (string * A)) : result (list (string * (A * A))) :=
  mapM (fun kv => match assoc_get (fst kv) others with Some h => Ok (fst kv, (snd kv, h)) | None => Err KeyError end) means.
Definition first_components {A} (d : list (string * (A * A))) : list (string * A) := map (fun kv => (fst kv, fst (snd kv))) d.
Definition second_components {A} (d : list (string * (A * A))) : list (string * A) := map (fun kv => (fst kv, snd (snd kv))) d.
(** laplace_state.py:94 *)
Definition state_prior_log_var (p : option Q) : Q := match p with Some v => v | None => 0 end.

(** ---- laplace_posterior.py:453-516: tuning of the prior log-variance ---- *)
Fixpoint best_of {C} (score : C -> Q) (best : option (C * Q)) (cs : list C) : option (C * Q) :=
  match cs with
  | [] => best
  | c :: r =>
      let s := score c in
      best_of score (match best with None => Some (c, s) | Some (_, b) => if Qlt_bool s b then Some (c, s) else best end) r
  end.
(** [score c] is the negative log-probability of the validation data under candidate [c];
    without [distribute] the variable rng of line 505 is never assigned; an empty validation
    loader makes the concatenation of line 502 fail *)
Definition tune_cv (score : Q -> Q) (n_batches : nat) (prior_log_var : Q) (lo hi : Q) (grid_size : nat) (distribute : bool) : result Q :=
  let candidates := linspace lo hi grid_size ++ [prior_log_var] in
  if (n_batches =? 0)%nat then Err ValueError
  else if negb distribute then Err UnboundLocalErr
  else match best_of score None candidates with Some (c, _) => Ok c | None => Err TypeError end.
Definition tune_prior_log_var (score : Q -> Q) n_batches prior_log_var lo hi grid_size distribute (mode : string) : result Q :=
  if String.eqb mode "cv" then tune_cv score n_batches prior_log_var lo hi grid_size distribute
  else if String.eqb mode "marginal_lik" then Err NotImplementedErr else Err ValueError.

(** ---- raveling: jax.flatten_util.ravel_pytree visits dictionary keys in sorted order and
         tuples in their own order ---- *)
Fixpoint ravel {V} (t : tree (list V)) : list V :=
  match t with
  | Leaf v => v
  | Dict kvs =>
      concat (map snd (sort_keys ((fix go (kvs : list (string * tree (list V))) : list (string * list V) :=
        match kvs with [] => [] | (k, v) :: r => (k, ravel v) :: go r end) kvs)))
  end.
(** advi_posterior.py:424-426: the flat vector of the trainable parameters, in path order *)
Definition ravel_paths {V} (params : tree (list V)) (paths : list path) : result (list V) :=
  rmap (fun objs => concat (map ravel objs)) (mapM (nested_get params) paths).
(** advi_trainer.py:131-151: with freeze_fun, training starts by raveling the dictionary of
    the trainable parameters instead *)
Definition ravel_trainable {V} (params : tree (list V)) (paths : list path) : result (list V) :=
  rmap ravel (extract params paths).

Open Scope R_scope.
(** ---- laplace_posterior.py:182-226: arrays are functions of their indices ---- *)
Definition isum (n : nat) (f : nat -> R) : R := rsum (map f (seq 0 n)).
(** lines 190-200 for one data point: eigenvalues [lam], eigenvectors [z o k] (column k) of
    the Hessian of the log-likelihood with respect to the [n_out] outputs; [J o p] Jacobian *)
Definition ztj (n_out : nat) (z J : nat -> nat -> R) (k p : nat) : R := isum n_out (fun o => z o k * J o p).
Definition ggn_point (n_out : nat) (lam : nat -> R) (z J : nat -> nat -> R) (p : nat) : R :=
  - isum n_out (fun k => lam k * (ztj n_out z J k p * ztj n_out z J k p)).
(** the sum of line 200 runs over the data points of the batch; lines 213-217 over batches *)
Definition ggn_batch {X} (point : X -> nat -> R) (batch : list X) (p : nat) : R := rsum (map (fun x => point x p) batch).
Definition ggn_loader {X} (point : X -> nat -> R) (loader : list (list X)) (p : nat) : R :=
  fold_left (fun h batch => h + ggn_batch point batch p) loader 0.
(** lines 223-226; NaN ([None]) for the square root of a negative number; a zero precision
    gives infinity, also [None] *)
Definition laplace_std (prior_log_var hess : R) : option R :=
  if Rle_lt_dec (exp (- prior_log_var) + hess) 0 then None else Some (1 / sqrt (exp (- prior_log_var) + hess)).
(** lines 341-377, one parameter *)
Definition laplace_sample (mean prior_log_var hess noise : R) : option R :=
  match laplace_std prior_log_var hess with Some s => Some (mean + s * noise) | None => None end.
(** lines 449-451 for one data point: [lps] log-likelihoods of the posterior samples *)
Definition mc_log_prob (lps : list R) : R := ln (rsum (map exp lps)) - ln (INR (length lps)).

(** ---- distribution/gaussian.py:18-58 with vectors ---- *)
Definition diag_sample (mean std noise : list R) : list R :=
  map (fun q => fst (fst q) + snd (fst q) * snd q) (combine (combine mean std) noise).
(** jax.scipy.stats.norm.logpdf *)
Definition norm_logpdf (x loc scale : R) : R :=
  - (((x - loc) * (x - loc)) / (scale * scale) + ln (2 * PI * (scale * scale))) / 2.
Definition diag_log_prob (mean std x : list R) : R :=
  rsum (map (fun q => norm_logpdf (snd q) (fst (fst q)) (snd (fst q))) (combine (combine mean std) x)).

(** ---- advi_architecture.py:34-84 for one vector ---- *)
Definition advi_forward (mean log_std u : list R) : list R * R :=
  (map (fun q => fst (fst q) + exp (snd (fst q)) * snd q) (combine (combine mean log_std) u), rsum log_std).
Definition advi_backward (mean log_std v : list R) : list R * R :=
  (map (fun q => exp (- snd (fst q)) * (snd q - fst (fst q))) (combine (combine mean log_std) v), - rsum log_std).
(** advi_posterior.py:203-206: base distribution *)
Definition advi_base_log_prob (log_std_base : R) (u : list R) : R :=
  diag_log_prob (map (fun _ => 0) u) (map (fun _ => exp log_std_base * 1) u) u.
(** normalizing_flow_trainer.py:111-133: [us] base samples, [neg_log_joint] the loss *)
Definition mean_R (l : list R) : R := rsum l / INR (length l).
Definition advi_loss (neg_log_joint : list R -> R) (mean log_std : list R) (us : list (list R)) : R :=
  mean_R (map (fun u => neg_log_joint (fst (advi_forward mean log_std u))) us) - mean_R (map (fun u => snd (advi_forward mean log_std u)) us).
