(** Model of a whole calibration of outputs: the training and validation steps of
    output_calib_model/output_calib_model_calibrator.py and prob_model/prob_model_calibrator.py
    with training/output_calibrator.py, and the losses given to them.  The loops are those of
    CalibModel.v, the losses of one batch those of CalibModel.v and LikModel.v.

    Calibrators, metrics, optimizers, differentiation and the average of likelihoods over an
    ensemble are parameters.  Not modelled: random layers in calibrators, several devices
    (CalibModel.v, StatModel.v), restoring of checkpoints (CalibModel.v). *)
From Coq Require Import List Arith ZArith QArith Bool String.
From Verif Require Import Lib QuantModel PredModel LikModel TrainModel CalibModel.
Import ListNotations.
Open Scope list_scope.
Local Notation length := List.length.
Local Notation "a >>= f" := (bind a f) (at level 61, left associativity).

Section Run.
(** parameters of the calibrator, its mutable variables (the dictionary with the entry of the output
    calibrator), batches, their outputs, calibrated outputs, targets, gradients, state of the
    optimizer, predictions, uncertainties *)
Variables P Mu B Ou O Y G OS Pr U : Type.

(** the loss and the entries of its auxiliary dictionary *)
Record canswer := { ca_loss : Q; ca_outputs : option O; ca_mutable : option Mu }.
(** parameters, batch, outputs, mutable, return_aux *)
Definition clossfun := P -> B -> Ou -> option Mu -> list string -> result canswer.

Variable predict : O -> Pr.
Variable uncertainty : O -> U.
Variable targets_of : B -> Y.
Variable diff : (P -> Q) -> P -> G.
Variable opt : G -> OS -> P -> P * OS.

Definition cmetric := Pr -> U -> Y -> Q.
(** training/output_calibrator.py:296-322,388-404: loss, then the metrics of predictions and uncertainties *)
Definition c_report (metrics : option (list cmetric)) (a : canswer) (y : Y) : list Q :=
  ca_loss a ::
  match metrics, ca_outputs a with
  | Some ms, Some o => map (fun f => f (predict o) (uncertainty o) y) ms
  | _, _ => []
  end.

Record csetting := {
  cs_loss : clossfun;                         (* on the calibration data *)
  cs_val_loss : clossfun;                     (* on the validation data *)
  cs_aux : list string;                       (* return_aux of training_loss_step *)
  cs_metrics : option (list cmetric);
  cs_training_metrics : bool }.               (* not disable_training_metrics_computation *)

(** training/output_calibrator.py:230-262 and output_calib_model_calibrator.py:224-257.  A state
    [Err e] stands for the raised exception.  The key of the step is not used by the losses. *)
Definition cal_step (c : csetting) (s : result (tstate P OS G (option Mu))) (b : B) (o : Ou) (key : nat)
    : result (tstate P OS G (option Mu)) * list Q :=
  match s with
  | Err e => (Err e, [])
  | Ok s =>
      let at_p := fun q => cs_loss c q b o (mutable _ _ _ _ s) (cs_aux c) in
      match at_p (params _ _ _ _ s) with
      | Err e => (Err e, [])
      | Ok a =>
          let g := diff (fun q => match at_p q with Ok a => ca_loss a | Err _ => 0%Q end) (params _ _ _ _ s) in
          (Ok (apply_gradients P OS G (option Mu) opt s g (ca_mutable a) (acc _ _ _ _ s)),
           c_report (if cs_training_metrics c then cs_metrics c else None) a (targets_of b))
      end
  end.
(** training/output_calibrator.py:366-404 and output_calib_model_calibrator.py:375-425.  The exceptions
    of a validation loss are not modelled; the losses below raise them only for mutable
    variables with which the next training step fails, too. *)
Definition cal_val (c : csetting) (s : result (tstate P OS G (option Mu))) (b : B) (o : Ou) : list Q :=
  match s with
  | Err _ => []
  | Ok s =>
      match cs_val_loss c (params _ _ _ _ s) b o (mutable _ _ _ _ s) ["outputs"%string] with
      | Err _ => []
      | Ok a => c_report (cs_metrics c) a (targets_of b)
      end
  end.
Definition c_step_no (s : result (tstate P OS G (option Mu))) : nat := match s with Ok s => step _ _ _ _ s | Err _ => 0%nat end.
Definition c_start {S} : ctrainer S := {| c_es := stopping0; c_saved := [] |}.
Definition finish {S A} (r : result (A * result S * list (list Q) * list (list Q))) : result (S * list (list Q) * list (list Q)) :=
  r >>= fun '(_, s, ms, mvs) => s >>= fun s' => Ok (s', ms, mvs).

(** prob_model/base.py:210-223: batches of data and of outputs *)
Definition cal_run (c : csetting) (monitor : list Q -> option Q) (cfg : cconfig) (data : list B) (outs : list Ou) (val : option (list B * list Ou))
    (s : tstate P OS G (option Mu)) : result (tstate P OS G (option Mu) * list (list Q) * list (list Q)) :=
  finish (calib_train (result (tstate P OS G (option Mu))) B Ou B Ou c_step_no (cal_step c) (cal_val c) monitor cfg data outs val c_start (Ok s)).
(** output_calib_model/base.py:118-125: all data at once *)
Definition cal_run_full (c : csetting) (monitor : list Q -> option Q) (cfg : cconfig) (b : B) (o : Ou) (val : option (B * Ou))
    (s : tstate P OS G (option Mu)) : result (tstate P OS G (option Mu) * list (list Q) * list (list Q)) :=
  finish (output_calib_train c_step_no (cal_step c) (cal_val c) monitor cfg b o val c_start (Ok s)).
End Run.
Arguments ca_loss {Mu O} c.
Arguments ca_outputs {Mu O} c.
Arguments ca_mutable {Mu O} c.

(** output_calib_model_calibrator.py:259-287,390-406 with output_calib_model/loss.py *)
Definition oc_answer {P M O T} (calibrator : option (P -> bool -> option M -> O -> O * M)) (loss_fn : O -> T -> Q) : clossfun P (option (cmut M)) T O O :=
  fun p targets outputs mutable return_aux =>
  oc_loss calibrator loss_fn p targets outputs mutable return_aux >>= fun '(v, aux) =>
  match aux with
  | None => Err TypeError
  | Some a => Ok {| ca_loss := v; ca_outputs := oc_outputs a; ca_mutable := oc_mutable_aux a |}
  end.
Definition oc_setting {P M O T Pr U} (calibrator : option (P -> bool -> option M -> O -> O * M)) (loss_fn : O -> T -> Q) (metrics : option (list (Pr -> U -> T -> Q))) training_metrics
    : csetting P (option (cmut M)) T O O T Pr U :=
  {| cs_loss := oc_answer calibrator loss_fn; cs_val_loss := oc_answer calibrator loss_fn; cs_aux := ["outputs"; "mutable"]%string;
     cs_metrics := metrics; cs_training_metrics := training_metrics |}.

(** prob_model_calibrator.py:31-80 with prob_model/predictive/base.py:205-316 and
    likelihood/base.py:125-264 on the outputs of an ensemble.  [log_mean_exp] is logsumexp minus
    the logarithm of the number of samples, [mean_outputs] and [mean_mutable] the means over the samples.
    The manager returns its mutable variables in a plain dictionary, which it does not accept back. *)
Definition manager_of {P M O} (f : P -> bool -> option M -> O -> O * M) (p : P) (train : bool) (m : option (cmut M)) (o : O) : O * cmut M :=
  let r := f p train (match m with Some (Frozen x) => Some x | _ => None end) o in (fst r, Wrapped (snd r)).
Definition inside {M} (m : cmut M) : M := match m with Frozen x => x | Wrapped x => x end.
Definition pm_answer {P X M O T} (calibrator : option (P -> bool -> option M -> O -> O * M)) (log_prob : O -> list T -> list Q)
    (log_mean_exp : list Q -> Q) (mean_outputs : list O -> O) (mean_mutable : list M -> M) (n_data : nat) : clossfun P (option (cmut M)) (X * list T) (list O) O :=
  fun p b outs mutable return_aux =>
  let want_c := in_aux "calib_mutable" return_aux in
  match calibrator, mutable with Some _, Some (Some (Wrapped _)) => Err AttributeError | _, _ => Ok tt end >>= fun _ =>
  mapM (fun o => lik_log_joint (M := unit) (fun _ _ => Arr o) (Some (option_map (fun f => manager_of f p) calibrator)) log_prob (snd b) n_data None true mutable return_aux false (Some o)) outs >>= fun rows =>
  mapM (fun r => match snd r with None => Err TypeError | Some a => Ok a end) rows >>= fun auxs =>
  Ok {| ca_loss := (- log_mean_exp (map fst rows))%Q;
        ca_outputs := if in_aux "outputs" return_aux then Some (mean_outputs (flat_map (fun a => match aux_outputs a with Some o => [o] | None => [] end) auxs)) else None;
        ca_mutable := if want_c then Some (match flat_map (fun a => match aux_calib a with Some (Some c) => [inside c] | _ => [] end) auxs with [] => None | l => Some (Wrapped (mean_mutable l)) end) else None |}.
Definition pm_setting {P X M O T Pr U} (calibrator : option (P -> bool -> option M -> O -> O * M)) (log_prob : O -> list T -> list Q)
    (log_mean_exp : list Q -> Q) (mean_outputs : list O -> O) (mean_mutable : list M -> M) (n_calib n_val : nat) (metrics : option (list (Pr -> U -> list T -> Q))) training_metrics
    : csetting P (option (cmut M)) (X * list T) (list O) O (list T) Pr U :=
  {| cs_loss := pm_answer calibrator log_prob log_mean_exp mean_outputs mean_mutable n_calib;
     cs_val_loss := pm_answer calibrator log_prob log_mean_exp mean_outputs mean_mutable n_val;
     cs_aux := ["outputs"; "calib_mutable"]%string; cs_metrics := metrics; cs_training_metrics := training_metrics |}.
