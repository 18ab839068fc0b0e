(** Model of several calibrations of a calibration model (CalibClassifier, CalibRegressor):
    fortuna/calib_model/base.py:65-159,208-242, calib_mixin.py:16-40, calib_model_calibrator.py:31-69,
    calib_model/state.py:22-92, training/train_state_repository.py:24-63.

    States, freezing and training are those of EnsModel.v, reading back those of ContModel.v.  Every
    call brings its configuration, the batches it goes through in order (early stopping is in
    TrainModel.v), and what a new initialisation would give.  Not modelled here: checks of output
    dimensions and what the loss raises (CalibModel.v), checkpoints saved during training, metrics,
    callbacks, several devices. *)
From Coq Require Import List Arith Bool String.
From Verif Require Import Lib NestedModel FreezeModel EnsModel ContModel.
Import ListNotations.
Open Scope list_scope.
Local Notation "a >>= f" := (bind a f) (at level 61, left associativity).

Section CmRun.
(** arrays, mutable variables, inputs, targets, keys, outputs, optimizers, their states, losses *)
Context {V M X T K Out O OS L : Type}.
Variable o_init : O -> tree V -> OS.
Variable o_update : O -> tree V -> OS -> tree V -> result (tree V * OS).
Variable diff : (tree V -> L) -> tree V -> tree V.
Variable gadd : tree V -> tree V -> result (tree V).
Variable gdiv : nat -> tree V -> tree V.
Variable zeros : tree V -> tree V.
(** the model in training mode with the key of a step; the loss function of calibrate *)
Variable net : tree V -> K -> X -> Out.
Variable key : nat -> nat -> K.
Variable loss_fn : Out -> T -> L.
Notation state := (tstate V M unit O OS).

(** calib_model/loss.py:33-128 without mutable variables (CalibModel.cm_loss), calib_model_calibrator.py:31-69 *)
Definition cm_objective (run : nat) (p : tree V) (m : option M) (_ : unit) (b : X * T) (n : nat) : L * option M :=
  (loss_fn (net p (key run n) (fst b)) (snd b), m).

(** a call of calibrate: config/{optimizer,checkpointer}.py, the number of the call (its key), its batches,
    what [_init] gives, and what restore_checkpoint_path holds if it is given *)
Record cm_call := {
  k_method : O; k_freeze : option (path -> V -> string); k_run : nat; k_batches : list (X * T);
  k_init : tree V * option M; k_checkpoint : option (option state); k_current : bool; k_dump : bool; k_dir : bool }.
(** calib_model/base.py:136-148 passes neither gradient_accumulation_steps nor max_grad_norm *)
Definition cm_config (k : cm_call) : fit_config V O :=
  {| fc_method := k_method k; fc_freeze := k_freeze k; fc_accumulation := 0; fc_clip := fun g => g |}.
(** the repository of the predictive: a state in a file or in memory *)
Definition repository := option (bool * state).
(** base.py:208-242; calib_mixin.py:23-38 raises ValueError if nothing is found; [self.predictive.state]
    is None before the first calibration *)
Definition cm_init_state (k : cm_call) (r : repository) : result state :=
  match k_checkpoint k with
  | Some None => Err ValueError
  | Some (Some s) => Ok (restored o_init true (k_method k) s)
  | None =>
      if k_current k then
        match r with None => Err AttributeError | Some (file, s) => Ok (restored o_init file (k_method k) s) end
      else Ok (fresh_state o_init (k_method k) {| st_params := fst (k_init k); st_mutable := snd (k_init k); st_calib := tt |})
  end.
(** the trainer; with mutable variables the first step raises, TypeError stands for what the loss raises *)
Definition cm_train (k : cm_call) (s : state) : result state :=
  match t_mutable s, k_batches k with
  | Some _, _ :: _ => Err TypeError
  | _, _ => train_run o_update cm_objective diff gadd gdiv zeros (cm_config k) (k_run k) (k_batches k) s
  end.
(** base.py:65-159.  The result is the new repository. *)
Definition cm_calibrate (k : cm_call) (r : repository) : result repository :=
  if k_dump k && negb (k_dir k) then Err ValueError
  else cm_init_state k r >>= freeze_optimizer_in_state o_init (cm_config k) >>= cm_train k >>= fun s => Ok (Some (k_dump k, s)).
Fixpoint cm_calibrations (l : list cm_call) (r : repository) : result repository :=
  match l with [] => Ok r | k :: rest => cm_calibrate k r >>= cm_calibrations rest end.
End CmRun.
Arguments cm_call V M X T O OS : clear implicits.
Arguments repository V M O OS : clear implicits.
