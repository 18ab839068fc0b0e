(** Model of several calibrations after each other: prob_model/base.py:109-232 for posteriors and
    output_calib_model/base.py:52-133 for given outputs, on the calibrations of CalRunModel.v.

    A posterior keeps its calibration parameters and mutable variables, a model of given outputs the state that the last
    calibration returned.  Everything else is given with every call: the optimizer, the configuration, the data and the outputs, for
    posteriors those of the ensemble drawn in the call.  Not modelled: posteriors that restore a checkpoint
    (CalibModel.v), several devices. *)
From Coq Require Import List Arith ZArith QArith Bool String.
From Verif Require Import Lib QuantModel TrainModel CalibModel CalRunModel.
Import ListNotations.
Open Scope list_scope.
Local Notation "a >>= f" := (bind a f) (at level 61, left associativity).

Section Recal.
Variables P X C O T G OS Pr U : Type.
Variable predict : O -> Pr.
Variable uncertainty : O -> U.
Variable diff : (P -> Q) -> P -> G.
Variable calibrator : option (P -> bool -> option C -> O -> O * C).
Notation state := (tstate P OS G (option (option (cmut C)))).

(** an optimizer: its initial state and its update *)
Record optimizer := { o_init : P -> OS; o_step : G -> OS -> P -> P * OS }.
(** OutputCalibState.init (output_calib_model/state.py:28-66): step 0 and a new state of the optimizer *)
Definition calib_state (o : optimizer) (p : P) (m : option (option (cmut C))) : state :=
  {| params := p; opt_state := o_init o p; step := 0; mutable := m; acc := None |}.

(** ---- posteriors ---- *)
Variable log_prob : O -> list T -> list Q.
Variable log_mean_exp : list Q -> Q.
Variable mean_outputs : list O -> O.
Variable mean_mutable : list C -> C.
Record pm_call := {
  p_opt : optimizer; p_cfg : cconfig; p_monitor : list Q -> option Q;
  p_data : list (X * list T); p_outs : list (list O); p_val : option (list (X * list T) * list (list O));
  p_size : nat; p_val_size : nat; p_metrics : option (list (Pr -> U -> list T -> Q)); p_training_metrics : bool }.
(** prob_model/base.py:188-195 (extract_calib_keys), 204-215, 217-219 (update) *)
Definition pm_calibrate (k : pm_call) (v : P * option (option (cmut C))) : result (P * option (option (cmut C))) :=
  cal_run P (option (cmut C)) (X * list T) (list O) O (list T) G OS Pr U predict uncertainty snd diff (o_step (p_opt k))
    (pm_setting calibrator log_prob log_mean_exp mean_outputs mean_mutable (p_size k) (p_val_size k) (p_metrics k) (p_training_metrics k))
    (p_monitor k) (p_cfg k) (p_data k) (p_outs k) (p_val k) (calib_state (p_opt k) (fst v) (snd v)) >>= fun '(s, _, _) => Ok (params _ _ _ _ s, mutable _ _ _ _ s).
Fixpoint pm_calibrations (l : list pm_call) (v : P * option (option (cmut C))) : result (P * option (option (cmut C))) :=
  match l with [] => Ok v | k :: r => pm_calibrate k v >>= pm_calibrations r end.

(** ---- given outputs ---- *)
Variable loss_fn : O -> T -> Q.
Record oc_call := {
  q_opt : optimizer; q_cfg : cconfig; q_monitor : list Q -> option Q; q_outputs : O; q_targets : T; q_val : option (T * O);
  q_metrics : option (list (Pr -> U -> T -> Q)); q_training_metrics : bool;
  q_init : P * option (option (cmut C));      (* output_calib_manager.init with the next key *)
  q_checkpoint : option state }.              (* what restore_checkpoint_path holds *)
(** output_calib_model/base.py:93-110.  A restored state has a new state of the optimizer (output_calib_model/output_calib_mixin.py:15-41,
    output_calib_model/state.py:69-101). *)
Definition oc_start (k : oc_call) : state :=
  match q_checkpoint k with
  | None => calib_state (q_opt k) (fst (q_init k)) (snd (q_init k))
  | Some s => {| params := params _ _ _ _ s; opt_state := o_init (q_opt k) (params _ _ _ _ s); step := step _ _ _ _ s; mutable := mutable _ _ _ _ s; acc := None |}
  end.
(** output_calib_model/base.py:117-133: a new repository, whatever was stored *)
Definition oc_calibrate (k : oc_call) (stored : option state) : result (option state) :=
  cal_run_full P (option (cmut C)) T O O T G OS Pr U predict uncertainty (fun t => t) diff (o_step (q_opt k))
    (oc_setting calibrator loss_fn (q_metrics k) (q_training_metrics k)) (q_monitor k) (q_cfg k) (q_targets k) (q_outputs k) (q_val k) (oc_start k) >>= fun '(s, _, _) => Ok (Some s).
Fixpoint oc_calibrations (l : list oc_call) (stored : option state) : result (option state) :=
  match l with [] => Ok stored | k :: r => oc_calibrate k stored >>= oc_calibrations r end.
End Recal.
Arguments optimizer P G OS : clear implicits.
Arguments o_init {P G OS}.
Arguments o_step {P G OS}.
Arguments Build_optimizer {P G OS}.
Arguments p_opt {P X O T G OS Pr U}.
Arguments p_cfg {P X O T G OS Pr U}.
Arguments p_monitor {P X O T G OS Pr U}.
Arguments p_data {P X O T G OS Pr U}.
Arguments p_outs {P X O T G OS Pr U}.
Arguments p_val {P X O T G OS Pr U}.
Arguments p_size {P X O T G OS Pr U}.
Arguments p_val_size {P X O T G OS Pr U}.
Arguments p_metrics {P X O T G OS Pr U}.
Arguments p_training_metrics {P X O T G OS Pr U}.
Arguments q_opt {P C O T G OS Pr U}.
Arguments q_cfg {P C O T G OS Pr U}.
Arguments q_monitor {P C O T G OS Pr U}.
Arguments q_outputs {P C O T G OS Pr U}.
Arguments q_targets {P C O T G OS Pr U}.
Arguments q_val {P C O T G OS Pr U}.
Arguments q_metrics {P C O T G OS Pr U}.
Arguments q_training_metrics {P C O T G OS Pr U}.
Arguments q_init {P C O T G OS Pr U}.
Arguments q_checkpoint {P C O T G OS Pr U}.
Arguments calib_state {P C G OS}.
Arguments oc_start {P C O T G OS Pr U}.
Arguments pm_calibrate {P X C O T G OS Pr U}.
Arguments pm_calibrations {P X C O T G OS Pr U}.
Arguments oc_calibrate {P C O T G OS Pr U}.
Arguments oc_calibrations {P C O T G OS Pr U}.
