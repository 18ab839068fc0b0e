(** Model of a whole fit of parameters by the trainer: what the trainer asks of the loss in a
    training and in a validation step (fortuna/prob_model/posterior/map/map_trainer.py and
    fortuna/calib_model/calib_model_calibrator.py), the losses it is given, and which
    hyperparameters reach it.  The loops are those of TrainModel.v, the losses those of
    LikModel.v and CalibModel.v.

    Networks, metrics, optimizers and differentiation are parameters.  Not modelled here:
    callbacks, frozen parameters (FreezeModel.v), loss scaling (TrainModel.v) and several devices
    (DevModel.v). *)
From Coq Require Import List Arith ZArith QArith Bool String.
From Verif Require Import Lib QuantModel PredModel LikModel CalibModel TrainModel.
Import ListNotations.
Open Scope list_scope.
Local Notation length := List.length.
Local Notation "a >>= f" := (bind a f) (at level 61, left associativity).

(** ---- hyperparameters ---- *)
(** prob_model/fit_config/hyperparameters.py, calib_model/config/hyperparameters.py:4-21 *)
Record hyper := { h_norm : option Q; h_accumulation : option nat }.
(** a MAP fit, a member of an ensemble, SWAG after its initial fit, a calibration model *)
Inductive run := FitMAP | FitMember | FitSWAG | CalibrateModel.
(** the keyword arguments of trainer.train: map_posterior.py:109-110 and
    deep_ensemble_posterior.py:159-160 pass both; swag_posterior.py:154-169 and
    calib_model/base.py:136-148 pass none.  trainer.py:158-161,470-472: [kwargs.get(...) or 0]. *)
Definition or_zero {A} (zero : A) (x : option A) : A := match x with Some v => v | None => zero end.
Definition run_kwargs (r : run) (h : hyper) : nat * Q :=
  match r with
  | FitMAP | FitMember => (or_zero 0%nat (h_accumulation h), or_zero 0%Q (h_norm h))
  | FitSWAG | CalibrateModel => (0%nat, 0%Q)
  end.

Section Fit.
(** parameters, mutable variables, inputs, one target, outputs, random keys, gradients, state of
    the optimizer, predictions, uncertainties *)
Variables P M X T O K G OS Pr U : Type.

(** the loss, and the entries of its auxiliary dictionary (aux.get) *)
Record answer := { an_loss : Q; an_outputs : option O; an_mutable : option M }.
(** parameters, batch, n_data, mutable, return_aux, train, rng *)
Definition lossfun := P -> X * list T -> nat -> option M -> list string -> bool -> option K -> result answer.

(** map_trainer.py:48-70 and calib_model_calibrator.py:45-67 *)
Definition training_loss_step (loss : lossfun) (n_data : nat) (p : P) (b : X * list T) (m : option M) (key : K) : result answer :=
  loss p b n_data m (["outputs"%string] ++ match m with Some _ => ["mutable"%string] | None => [] end) true (Some key).
(** map_trainer.py:83-92 and calib_model_calibrator.py:80-89 *)
Definition validation_loss_step (loss : lossfun) (n_data : nat) (p : P) (b : X * list T) (m : option M) : result answer :=
  loss p b n_data m ["outputs"%string] false None.

(** ---- the losses ---- *)
(** prob_model/joint/base.py:124-155 with likelihood/base.py and a plain model manager.  [net]
    is the forward pass; the calibrator (if any) has fixed variables during a fit. *)
Definition map_loss {C} (net : P -> option K -> bool -> option M -> X -> O * M) (log_prior : P -> Q)
    (calibrator : option (bool -> option C -> O -> O * C)) (calib_mutable : option (option C)) (log_prob : O -> list T -> list Q) : lossfun :=
  fun p b n_data m return_aux train key =>
  joint_neg_log_prob (log_prior p)
    (fun ra => lik_log_joint (fun tr mu => class_apply (net p key) tr mu (fst b)) (Some calibrator) log_prob (snd b) n_data m true calib_mutable ra train None)
    (Some return_aux) >>= fun '(v, aux) =>
  Ok {| an_loss := v;
        an_outputs := match aux with Some a => aux_outputs a | None => None end;
        an_mutable := match aux with Some a => match aux_mutable a with Some m' => m' | None => None end | None => None end |}.
(** calib_model/loss.py:33-128; n_data is not used *)
Definition calib_model_loss (net : P -> option K -> bool -> option M -> X -> O * M) (loss_fn : O -> list T -> Q) : lossfun :=
  fun p b _ m return_aux train key =>
  cm_loss (fun tr mu => class_apply (net p key) tr mu (fst b)) loss_fn (snd b) m return_aux train None >>= fun '(v, a) =>
  Ok {| an_loss := v; an_outputs := aux_outputs a; an_mutable := match aux_mutable a with Some m' => m' | None => None end |}.

(** ---- one training step ---- *)
(** trainer.py:660-676: a metric takes predictions, uncertainties (if any) and targets *)
Definition metric_fn := Pr -> option U -> list T -> Q.
Variable predict : O -> Pr.
Definition report (metrics : option (list metric_fn)) (uncertainty : option (O -> U)) (a : answer) (targets : list T) : list Q :=
  an_loss a ::
  match metrics, an_outputs a with
  | Some ms, Some o => map (fun f => f (predict o) (option_map (fun u => u o) uncertainty) targets) ms
  | _, _ => []
  end.

(** random.fold_in on the key of the run, trainer.py:678-682 *)
Variable fold_in : nat -> K.
(** the gradient of a function of the parameters *)
Variable diff : (P -> Q) -> P -> G.
Variable gadd : G -> G -> G.
Variable gdiv : G -> nat -> G.
Variable zeros_like : G -> G.
Variable clip_by : Q -> G -> G.            (* clip_grandients_by_norm *)
Variable opt : G -> OS -> P -> P * OS.     (* tx.update + apply_updates *)

(** what trainer and configuration fix for a run *)
Record setting := {
  s_loss : lossfun;
  s_n_train : nat;                            (* training_dataset_size *)
  s_n_val : nat;                              (* validation_dataset_size *)
  s_metrics : option (list metric_fn);
  s_training_metrics : bool;                  (* not disable_training_metrics_computation *)
  s_uncertainty : option (O -> U);            (* uncertainty_fn of the trainer *)
  s_val_uncertainty : option (O -> U) }.      (* map_trainer.py:95-97 passes none, calib_model_calibrator.py:92-97 does *)

(** jax.value_and_grad of training_loss_step, and the entry of training_step_end (trainer.py:270-316) *)
Definition fit_value_and_grad (c : setting) (p : P) (m : option M) (b : X * list T) (key : nat) : G * option M * list Q :=
  let at_p := fun q => training_loss_step (s_loss c) (s_n_train c) q b m (fold_in key) in
  (diff (fun q => match at_p q with Ok a => an_loss a | Err _ => 0%Q end) p,
   match at_p p with Ok a => an_mutable a | Err _ => m end,
   match at_p p with Ok a => report (if s_training_metrics c then s_metrics c else None) (s_uncertainty c) a (snd b) | Err _ => [] end).

(** trainer.py:111-191 with the exceptions of the loss; k = gradient_accumulation_steps or 0,
    norm = max_grad_norm or 0.  A state [Err e] stands for the raised exception. *)
Definition fit_step (c : setting) (k : nat) (norm : Q) (s : result (tstate P OS G (option M))) (b : X * list T) (key : nat)
    : result (tstate P OS G (option M)) * list Q :=
  match s with
  | Err e => (Err e, [])
  | Ok s =>
      match training_loss_step (s_loss c) (s_n_train c) (params _ _ _ _ s) b (mutable _ _ _ _ s) (fold_in key) with
      | Err e => (Err e, [])
      | Ok _ =>
          let r := training_step P OS G (option M) (X * list T) (fit_value_and_grad c) gadd gdiv zeros_like
                     (if Qlt_bool 0 norm then clip_by norm else fun g => g) opt k s b key in
          (Ok (fst r), snd r)
      end
  end.

(** map_trainer.py:94-102, calib_model_calibrator.py:91-102.  With a model manager the validation
    loss does not raise; if it did, the entry would be missing here. *)
Definition fit_validation (c : setting) (s : result (tstate P OS G (option M))) (b : X * list T) : list Q :=
  match s with
  | Err _ => []
  | Ok s =>
      match validation_loss_step (s_loss c) (s_n_val c) (params _ _ _ _ s) b (mutable _ _ _ _ s) with
      | Err _ => []
      | Ok a => report (s_metrics c) (s_val_uncertainty c) a (snd b)
      end
  end.

(** ---- the run: trainer.py:354-453, map_posterior.py:91-111, calib_model/base.py:136-148 ---- *)
Definition fit (r : run) (h : hyper) (c : setting) (monitor : list Q -> option Q) (cfg : config) (bs : list (X * list T)) (vs : option (list (X * list T)))
    (s : tstate P OS G (option M)) : result (tstate P OS G (option M) * list (list Q) * list (list Q)) :=
  let '(k, norm) := run_kwargs r h in
  let cfg' := {| accumulation := k; n_epochs := n_epochs cfg; eval_every := eval_every cfg; save_dir := save_dir cfg;
                 save_every := save_every cfg; stop_config := stop_config cfg |} in
  train (result (tstate P OS G (option M))) (X * list T) (X * list T)
    (fun s => match s with Ok s => step _ _ _ _ s | Err _ => 0%nat end)
    (fit_step c k norm) (fit_validation c) (fun s => s) (fun s => s) (fun s => s) monitor cfg' bs vs
    {| es := stopping0; gstep := 0; saved := [] |} (Ok s) >>= fun '(_, s', ms, mvs) =>
  s' >>= fun s'' => Ok (s'', ms, mvs).

(** map_posterior.py:55-121: the setting of a MAP fit; prob_model/fit_config/monitor.py *)
Definition map_setting {C} net log_prior (calibrator : option (bool -> option C -> O -> O * C)) calib_mutable log_prob n_train n_val metrics training_metrics : setting :=
  {| s_loss := map_loss net log_prior calibrator calib_mutable log_prob; s_n_train := n_train; s_n_val := n_val; s_metrics := metrics;
     s_training_metrics := training_metrics; s_uncertainty := None; s_val_uncertainty := None |}.
(** calib_model/base.py:89-101, classification.py:183-193, regression.py:129-139: [default] is the
    mean of the output layer for classifiers and its variance for regressors *)
Definition calib_setting net loss_fn n_train n_val metrics training_metrics (uncertainty_fn : option (O -> U)) (default : O -> U) : setting :=
  let u := match uncertainty_fn with Some u => u | None => default end in
  {| s_loss := calib_model_loss net loss_fn; s_n_train := n_train; s_n_val := n_val; s_metrics := metrics;
     s_training_metrics := training_metrics; s_uncertainty := Some u; s_val_uncertainty := Some u |}.
End Fit.
