(** Model of a whole fit of a stochastic gradient sampler:
    fortuna/prob_model/posterior/sgmcmc/sghmc/sghmc_posterior.py:94-187 and
    cyclical_sgld/cyclical_sgld_posterior.py:98-192.  The trainer is that of MAP (DescModel.v), the loops
    those of TrainModel.v, the callbacks and integrators those of McmcModel.v.

    Coordinates of the parameters are a type of indices; the normal number of a coordinate is a function
    of the key of the step (NoiseModel.v says which).  Not modelled here: frozen parameters and the
    preliminary fit of MAP they allow, several devices, where states come from and go (FitModel.v). *)
From Coq Require Import List Arith ZArith QArith Bool String Reals.
From Verif Require Import Lib QuantModel PredModel LikModel CalibModel TrainModel McmcModel DescModel.
Import ListNotations.
Open Scope list_scope.
Local Notation length := List.length.
Local Notation "a >>= f" := (bind a f) (at level 61, left associativity).

Section Chain.
Variables P M X T O K G OS Pr U : Type.
Variable predict : O -> Pr.
Variable fold_in : nat -> K.
Variable diff : (P -> Q) -> P -> G.
Variable gadd : G -> G -> G.
Variable gdiv : G -> nat -> G.
Variable zeros_like : G -> G.
Variable clip_by : Q -> G -> G.
Variable opt : G -> OS -> P -> P * OS.

Notation tst := (tstate P OS G (option M)).

(** sghmc_posterior.py:173, joint/base.py:54-122: the loss given to the trainer is the log joint
    probability itself *)
Definition chain_loss {C} (net : P -> option K -> bool -> option M -> X -> O * M) (log_prior : P -> Q)
    (calibrator : option (bool -> option C -> O -> O * C)) (calib_mutable : option (option C)) (log_prob : O -> list T -> list Q) : lossfun P M X T O K :=
  fun p b n_data m return_aux train key =>
  joint_log_prob (log_prior p)
    (fun ra => lik_log_joint (fun tr mu => class_apply (net p key) tr mu (fst b)) (Some calibrator) log_prob (snd b) n_data m true calib_mutable ra train None)
    (Some return_aux) >>= fun '(v, aux) =>
  Ok {| an_loss := v;
        an_outputs := match aux with Some a => aux_outputs a | None => None end;
        an_mutable := match aux with Some a => match aux_mutable a with Some m' => m' | None => None end | None => None end |}.
Definition chain_setting {C} net log_prior (calibrator : option (bool -> option C -> O -> O * C)) calib_mutable log_prob n_train n_val metrics training_metrics : setting P M X T O K Pr U :=
  {| s_loss := chain_loss net log_prior calibrator calib_mutable log_prob; s_n_train := n_train; s_n_val := n_val; s_metrics := metrics;
     s_training_metrics := training_metrics; s_uncertainty := None; s_val_uncertainty := None |}.

(** the state of training and the attributes of the sampling callback, with the calls of the
    repository's put; [Err] for an exception raised by the callback *)
Record ch_state := { c_state : result tst; c_step : nat; c_count : nat; c_kept : result (list (nat * tst)) }.
Definition ch_init (s : tst) : ch_state := {| c_state := Ok s; c_step := 0; c_count := 0; c_kept := Ok [] |}.
Definition ch_step (c : setting P M X T O K Pr U) (s : ch_state) (b : X * list T) (key : nat) : ch_state * list Q :=
  let '(s1, m) := fit_step P M X T O K G OS Pr U predict fold_in diff gadd gdiv zeros_like clip_by opt c 0 0 (c_state s) b key in
  ({| c_state := s1; c_step := c_step s; c_count := c_count s; c_kept := c_kept s |}, m).
(** sgmcmc_sampling_callback.py:36-47 *)
Definition ch_step_end (do : nat -> nat -> result bool) (s : ch_state) : ch_state :=
  match c_state s, c_kept s with
  | Ok t, Ok kept =>
      let current := Datatypes.S (c_step s) in
      match do current (c_count s) with
      | Err e => {| c_state := c_state s; c_step := current; c_count := c_count s; c_kept := Err e |}
      | Ok true => {| c_state := c_state s; c_step := current; c_count := Datatypes.S (c_count s); c_kept := Ok (kept ++ [(c_count s, t)]) |}
      | Ok false => {| c_state := c_state s; c_step := current; c_count := c_count s; c_kept := Ok kept |}
      end
  | _, _ => s
  end.
Definition ch_step_no (s : ch_state) : nat := match c_state s with Ok s => step _ _ _ _ s | Err _ => 0%nat end.

(** sghmc_posterior.py:158-184: the callback is made with the number of batches, then the trainer runs
    without clipping and accumulation *)
Definition chain_run (do : nat -> nat -> result bool) (n_samples : nat) (c : setting P M X T O K Pr U) (monitor : list Q -> option Q) (cfg : config)
    (bs : list (X * list T)) (vs : option (list (X * list T))) (s : tst) : result (tst * list (nat * tst) * list (list Q) * list (list Q)) :=
  make_callback do n_samples (n_epochs cfg) (length bs) >>= fun do' =>
  let cfg' := {| accumulation := 0; n_epochs := n_epochs cfg; eval_every := eval_every cfg; save_dir := save_dir cfg;
                 save_every := save_every cfg; stop_config := stop_config cfg |} in
  train ch_state (X * list T) (X * list T) ch_step_no (ch_step c) (fun s => fit_validation P M X T O K G OS Pr U predict c (c_state s))
    (fun s => s) (ch_step_end do') (fun s => s) monitor cfg' bs vs {| es := stopping0; gstep := 0; saved := [] |} (ch_init s) >>= fun '(_, s', ms, mvs) =>
  c_kept s' >>= fun kept => c_state s' >>= fun s'' => Ok (s'', kept, ms, mvs).
(** sghmc_posterior.py:158-167, cyclical_sgld_posterior.py:162-172 *)
Definition sghmc_fit n_samples n_thinning burnin := chain_run (do_sample_sghmc n_samples n_thinning burnin) n_samples.
Definition cyclical_fit n_samples n_thinning cycle_length ratio := chain_run (do_sample_cyclical n_samples n_thinning cycle_length ratio) n_samples.
End Chain.

(** ---- the integrators as optimizers: tx.update and apply_updates, coordinate by coordinate ---- *)
Section Integrators.
Variables (C K : Type) (split : K -> K * K) (normal : C -> K -> R) (pc : preconditioner).
Local Open Scope R_scope.
Definition integrator_opt (update : C -> R -> sghmc_state pc K -> R * sghmc_state pc K) (g : C -> R) (os : C -> sghmc_state pc K) (p : C -> R)
    : (C -> R) * (C -> sghmc_state pc K) :=
  (fun c => p c + fst (update c (g c) (os c)), fun c => snd (update c (g c) (os c))).
(** sghmc_posterior.py:97-103: the momentum is never resampled *)
Definition sghmc_opt (decay : R) (schedule : nat -> R) := integrator_opt (fun c => sghmc_update pc K split (normal c) decay None schedule).
(** cyclical_sgld_integrator.py:21-102 *)
Definition cyclical_opt (cycle_length : nat) (ratio : Q) (schedule : nat -> R) := integrator_opt (fun c => cyclical_update pc K split (normal c) cycle_length ratio schedule).
Definition integrator_init (key : K) (_ : C -> R) : C -> sghmc_state pc K := fun _ => sghmc_init pc K key.
End Integrators.
