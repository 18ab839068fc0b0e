(** Model of the monitor configurations (fortuna/prob_model/fit_config/monitor.py,
    fortuna/prob_model/calib_config/monitor.py, fortuna/calib_model/config/monitor.py) and of
    the early-stopping options that reach the trainers (fortuna/training/mixin.py:93-151 and the
    places that build a trainer or calibrator).

    The training loop and EarlyStopping are those of TrainModel.v, the loop of output calibrators
    that of CalibModel.v.  Not modelled: verbosity. *)
From Coq Require Import List Arith ZArith QArith Bool String.
From Verif Require Import Lib QuantModel TrainModel CalibModel.
Import ListNotations.
Open Scope list_scope.
Local Notation length := List.length.

(** ---- the constructors ---- *)
(** an argument as Python sees it: whether it is callable, and its elements when its type is
    exactly tuple *)
Inductive pyval := PNone | PTuple (elements : list pyval) | POther (is_callable : bool).
Definition callable (v : pyval) : bool := match v with POther b => b | _ => false end.

(** fit_config/monitor.py:50-57, calib_config/monitor.py:62-69, calib_model/config/monitor.py:60-67 *)
Definition check_metrics (metrics : pyval) : result unit :=
  match metrics with
  | PNone => Ok tt
  | PTuple ms => if forallb callable ms then Ok tt else Err ValueError
  | POther _ => Err ValueError
  end.
(** calib_config/monitor.py:70-71, calib_model/config/monitor.py:68-69 *)
Definition check_uncertainty_fn (f : pyval) : result unit :=
  match f with PNone => Ok tt | _ => if callable f then Ok tt else Err ValueError end.

(** the attributes read when a trainer is built *)
Record monitor_config := {
  es_patience : option Z;
  es_monitor : string;
  es_min_delta : Q;
  eval_every_n_epochs : Z }.

(** fit_config/monitor.py:14-65 *)
Definition fit_monitor (metrics : pyval) (c : monitor_config) : result monitor_config :=
  rmap (fun _ => c) (check_metrics metrics).
(** calib_config/monitor.py:14-82 and calib_model/config/monitor.py:14-80 *)
Definition calib_monitor (metrics uncertainty_fn : pyval) (c : monitor_config) : result monitor_config :=
  bind (check_metrics metrics) (fun _ => rmap (fun _ => c) (check_uncertainty_fn uncertainty_fn)).

(** ---- the mixin, mixin.py:94-107: keyword arguments with their defaults ---- *)
Record es_kwargs := {
  kw_monitor : option string;
  kw_min_delta : option Q;
  kw_patience : option (option Z);
  kw_mode : option (option string) }.
Definition default {A} (d : A) (o : option A) : A := match o with Some a => a | None => d end.
Definition mixin_monitor (k : es_kwargs) : string := default "val_loss"%string (kw_monitor k).
Definition mixin_config (k : es_kwargs) : es_config :=
  {| patience := default (Some 0%Z) (kw_patience k);
     mode := default (Some "min"%string) (kw_mode k);
     min_delta := default 0%Q (kw_min_delta k) |}.

(** ---- who passes what ---- *)
Inductive run_kind :=
  | RunMAP            (* map_posterior.py:74-77; also SNGP, and the fit inside Laplace *)
  | RunADVI           (* advi_posterior.py:150-153 *)
  | RunEnsemble       (* deep_ensemble_posterior.py:140-143, one trainer per member *)
  | RunSGHMC          (* sghmc_posterior.py:124-127 *)
  | RunCyclicalSGLD   (* cyclical_sgld_posterior.py:128-131 *)
  | RunSWAG           (* swag_posterior.py:138-150 *)
  | RunCalibModel.    (* calib_model/base.py:96-99 *)

Definition run_kwargs (r : run_kind) (c : monitor_config) : es_kwargs :=
  match r with
  | RunSWAG => {| kw_monitor := None; kw_min_delta := None; kw_patience := None; kw_mode := None |}
  | _ => {| kw_monitor := Some (es_monitor c); kw_min_delta := Some (es_min_delta c);
            kw_patience := Some (es_patience c); kw_mode := None |}
  end.

(** the calibrators of output_calibrator.py: prob_model/base.py:182-185 and
    output_calib_model/base.py:87-90 *)
Definition calib_kwargs (c : monitor_config) : es_kwargs :=
  {| kw_monitor := Some (es_monitor c); kw_min_delta := Some (es_min_delta c);
     kw_patience := Some (es_patience c); kw_mode := None |}.

(** ---- the entry looked up by mixin.py:146 ---- *)
(** keys of the validation dictionary, map_trainer.py:99-106 and output_calibrator.py:366-418: "val_loss", then "val_" followed
    by the name of each metric; a key that is there keeps its place *)
Definition add_key (ks : list string) (k : string) : list string :=
  if existsb (String.eqb k) ks then ks else ks ++ [k].
Definition val_keys (metric_names : list string) : list string :=
  fold_left (fun ks m => add_key ks ("val_" ++ m)%string) metric_names ["val_loss"%string].
Fixpoint lookup (k : string) (ks : list string) (vs : list Q) : option Q :=
  match ks, vs with
  | k' :: ks', v :: vs' => if String.eqb k k' then Some v else lookup k ks' vs'
  | _, _ => None
  end.

(** ---- a run: TrainerABC.train with a fresh trainer ---- *)
Section Run.
Variables S Batch VBatch : Type.
Variable step_no : S -> nat.
Variable tstep : S -> Batch -> nat -> S * list Q.
(** values of the validation dictionary in the order of its keys *)
Variable vstep : S -> VBatch -> list Q.
Variables cb_epoch_start cb_step_end cb_epoch_end : S -> S.

Definition run_config (r : run_kind) (c : monitor_config) (accum epochs : nat) (dir : bool) (every : option nat) : config :=
  {| accumulation := accum; n_epochs := epochs; eval_every := eval_every_n_epochs c;
     save_dir := dir; save_every := every; stop_config := mixin_config (run_kwargs r c) |}.

Definition run (r : run_kind) (c : monitor_config) (metric_names : list string) (accum epochs : nat)
    (dir : bool) (every : option nat) (bs : list Batch) (vs : option (list VBatch)) (s : S)
    : result (trainer S * S * list (list Q) * list (list Q)) :=
  @train S Batch VBatch step_no tstep vstep cb_epoch_start cb_step_end cb_epoch_end
    (lookup (mixin_monitor (run_kwargs r c)) (val_keys metric_names))
    (run_config r c accum epochs dir every) bs vs
    {| es := stopping0; gstep := 0; saved := [] |} s.
End Run.
Arguments run {S Batch VBatch}.

(** ---- a calibration: OutputCalibratorABC.train (CalibModel.v) with a fresh calibrator ---- *)
Section CalibRun.
Variables S Batch Out VBatch VOut : Type.
Variable step_no : S -> nat.
Variable cstep : S -> Batch -> Out -> nat -> S * list Q.
Variable cval : S -> VBatch -> VOut -> list Q.
Definition calib_run (c : monitor_config) (metric_names : list string) (epochs : nat) (dir : bool) (every : option nat)
    (data : list Batch) (outs : list Out) (val : option (list VBatch * list VOut)) (s : S)
    : result (ctrainer S * S * list (list Q) * list (list Q)) :=
  calib_train S Batch Out VBatch VOut step_no cstep cval
    (lookup (mixin_monitor (calib_kwargs c)) (val_keys metric_names))
    {| c_epochs := epochs; c_eval_every := eval_every_n_epochs c; c_save_dir := dir; c_save_every := every;
       c_stop := mixin_config (calib_kwargs c) |} data outs val
    {| c_es := stopping0; c_saved := [] |} s.
End CalibRun.
Arguments calib_run {S Batch Out VBatch VOut}.
