(** Model of the calibration code: fortuna/training/output_calibrator.py,
    fortuna/output_calib_model, fortuna/calib_model (loss, checks and flow),
    fortuna/prob_model/base.py (train, _calibrate), fortuna/prob_model/prob_model_calibrator.py,
    fortuna/prob_model/predictive/base.py:205-316,537-580 and fortuna/utils/data.py:12-32.

    Networks, calibrators, losses and optimizers are parameters.  Not modelled: logging, progress
    bars, jit and the collective operations of pmap. *)
From Coq Require Import List Arith ZArith QArith Bool String Reals.
From Verif Require Import Lib QuantModel TrainModel TempModel PredModel LikModel.
Import ListNotations.
Local Notation length := List.length.
Local Notation concat := List.concat.
Open Scope list_scope.
Local Notation "a >>= f" := (bind a f) (at level 61, left associativity).

(** ---- the training loop of output calibrators, training/output_calibrator.py:82-489 ---- *)
Section OutputLoop.
Variables S Batch Out VBatch VOut : Type.
Variable step_no : S -> nat.
(** training_step and training_step_end for a batch and its outputs, with the argument of
    fold_in; returns loss and metrics of the batch *)
Variable cstep : S -> Batch -> Out -> nat -> S * list Q.
(** val_step *)
Variable cval : S -> VBatch -> VOut -> list Q.
(** the monitored entry of the validation dictionary *)
Variable monitor : list Q -> option Q.

Record cconfig := {
  c_epochs : nat;
  c_eval_every : Z;                (* eval_every_n_epochs *)
  c_save_dir : bool;               (* save_checkpoint_dir is given *)
  c_save_every : option nat;       (* save_every_n_steps *)
  c_stop : es_config }.

(** early stopping, and a log of the checkpoints: whether forced, and the state *)
Record ctrainer := { c_es : stopping; c_saved : list (bool * S) }.

(** training/mixin.py:32-57 *)
Definition c_save (c : cconfig) (forced : bool) (t : ctrainer) (s : S) : ctrainer :=
  if c_save_dir c then {| c_es := c_es t; c_saved := c_saved t ++ [(forced, s)] |} else t.

(** output_calibrator.py:277-294: the number of the epoch decides, not the step *)
Definition c_step_end (c : cconfig) (epoch : nat) (t : ctrainer) (s : S) : ctrainer :=
  match c_save_every c with
  | Some n => if negb (n =? 0)%nat && (epoch mod n =? 0)%nat then c_save c false t s else t
  | None => t
  end.

(** output_calibrator.py:190-208 *)
Fixpoint c_batches (c : cconfig) (epoch : nat) (bs : list (Batch * Out)) (t : ctrainer) (s : S) : ctrainer * S * list (list Q) :=
  match bs with
  | [] => (t, s, [])
  | (b, o) :: r =>
      let '(s1, m) := cstep s b o (step_no s) in
      let '(t2, s2, ms) := c_batches c epoch r (c_step_end c epoch t s1) s1 in
      (t2, s2, m :: ms)
  end.

(** output_calibrator.py:324-364 and 420-432 *)
Definition c_validate (c : cconfig) (vs : list (VBatch * VOut)) (t : ctrainer) (s : S) : result (ctrainer * list Q) :=
  mean_metrics (map (fun p => cval s (fst p) (snd p)) vs) >>= fun m =>
  if is_active (c_stop c) then
    match monitor m with
    | None => Err KeyError
    | Some v =>
        let e := early_stopping_update (c_stop c) (c_es t) v in
        let t' := {| c_es := e; c_saved := c_saved t |} in
        Ok (if has_improved e then c_save c true t' s else t', m)
    end
  else Ok (t, m).

(** output_calibrator.py:441-448 *)
Definition c_should_validate (c : cconfig) (epoch : nat) : bool :=
  (0 <? c_eval_every c)%Z && (Z.of_nat epoch mod c_eval_every c =? 0)%Z.

(** output_calibrator.py:110-161 *)
Fixpoint c_epochs_loop (c : cconfig) (bs : list (Batch * Out)) (vs : option (list (VBatch * VOut))) (n epoch : nat) (t : ctrainer) (s : S)
    : result (ctrainer * S * list (list Q) * list (list Q)) :=
  match n with
  | O => Ok (t, s, [], [])
  | Datatypes.S n' =>
      let '(t1, s1, rows) := c_batches c epoch bs t s in
      mean_metrics rows >>= fun m =>
      match (if c_should_validate c epoch then vs else None) with
      | Some v =>
          c_validate c v t1 s1 >>= fun '(t2, mv) =>
          if is_active (c_stop c) && should_stop (c_es t2) then Ok (t2, s1, [m], [mv])
          else c_epochs_loop c bs vs n' (Datatypes.S epoch) t2 s1 >>= fun '(t3, s3, ms, mvs) => Ok (t3, s3, m :: ms, mv :: mvs)
      | None =>
          c_epochs_loop c bs vs n' (Datatypes.S epoch) t1 s1 >>= fun '(t3, s3, ms, mvs) => Ok (t3, s3, m :: ms, mvs)
      end
  end.

(** output_calibrator.py:82-171: data and outputs are paired by zip, which stops at the shorter
    one; the last thing is a forced save *)
Definition calib_train (c : cconfig) (data : list Batch) (outs : list Out) (val : option (list VBatch * list VOut)) (t : ctrainer) (s : S)
    : result (ctrainer * S * list (list Q) * list (list Q)) :=
  c_epochs_loop c (combine data outs) (match val with Some p => Some (combine (fst p) (snd p)) | None => None end) (c_epochs c) 0 t s >>=
  fun '(t1, s1, ms, mvs) => Ok (c_save c true t1 s1, s1, ms, mvs).
End OutputLoop.
Arguments c_es {S} c.
Arguments c_saved {S} c.

(** output_calib_model/output_calib_model_calibrator.py: the same loop, with all the targets and
    outputs as the only batch *)
Definition output_calib_train {S T O} (step_no : S -> nat) (cstep : S -> T -> O -> nat -> S * list Q) (cval : S -> T -> O -> list Q)
    (monitor : list Q -> option Q) (c : cconfig) (targets : T) (outputs : O) (val : option (T * O)) (t : ctrainer S) (s : S) :=
  calib_train S T O T O step_no cstep cval monitor c [targets] [outputs] (match val with Some p => Some ([fst p], [snd p]) | None => None end) t s.

(** ---- calibrators with their variables ---- *)
(** mutable variables of a calibrator: a FrozenDict of collections, or the plain dictionary
    {"mutable": ...} that output_calib_manager/base.py:78 returns *)
Inductive cmut (M : Type) := Frozen (m : M) | Wrapped (m : M).
Arguments Frozen {M} m.
Arguments Wrapped {M} m.
(** output_calibrator/output_calib_manager/base.py:26-82: a plain dictionary has no [unfreeze] *)
Definition manager_apply {P M O} (calibrator : option (P -> bool -> option M -> O -> O * M)) (params : P) (mutable : option (cmut M)) (calib : bool) (o : O) : result (pyout O (cmut M)) :=
  match calibrator with
  | None => Ok (Arr o)
  | Some f =>
      match mutable with
      | None => Ok (Arr (fst (f params calib None o)))
      | Some (Frozen m) => if calib then Ok (Tup (fst (f params true (Some m) o)) (Wrapped (snd (f params true (Some m) o)))) else Ok (Arr (fst (f params false (Some m) o)))
      | Some (Wrapped _) => Err AttributeError
      end
  end.

Record oc_aux (O M : Type) := { oc_outputs : option O; oc_mutable_aux : option (option (cmut M)) }.
Arguments oc_outputs {O M} o.
Arguments oc_mutable_aux {O M} o.
(** output_calib_model/loss.py:31-79.  [mutable] is the dictionary with the entry of the output
    calibrator, or [None]; summing unsupported names raises TypeError. *)
Definition oc_loss {P M O T} (calibrator : option (P -> bool -> option M -> O -> O * M)) (loss_fn : O -> T -> Q) (params : P) (targets : T) (outputs : O)
    (mutable : option (option (cmut M))) (return_aux : list string) : result (Q * option (oc_aux O M)) :=
  let want_m := in_aux "mutable" return_aux in
  if negb (length (filter (fun s => negb (in_aux s ["outputs"; "mutable"]%string)) return_aux) =? 0)%nat then Err TypeError
  else match mutable with
  | None => Err TypeError
  | Some m =>
      manager_apply calibrator params m want_m outputs >>= fun outs =>
      match m, want_m, outs with
      | Some _, true, Tup o m' => Ok (o, Some (Some m'))
      | Some _, true, Arr _ => Err ValueError
      | _, _, Arr o => Ok (o, if want_m then Some None else None)
      | _, _, Tup _ _ => Err TypeError
      end >>= fun '(o, aux_m) =>
      Ok (loss_fn o targets, if (length return_aux =? 0)%nat then None
                             else Some {| oc_outputs := if in_aux "outputs" return_aux then Some o else None; oc_mutable_aux := aux_m |})
  end.

Record oc_state (P M : Type) := { oc_params : P; oc_mutable : option (cmut M) }.
Arguments oc_params {P M} o.
Arguments oc_mutable {P M} o.
(** output_calib_model/predictive/base.py:38-262: every method calibrates the outputs, if asked
    to, and passes them to the method of the same name of the output layer *)
Definition oc_method {P M O R} (calibrator : option (P -> bool -> option M -> O -> O * M)) (layer : O -> R) (state : option (oc_state P M)) (calibrated : bool) (outputs : O) : result R :=
  if calibrated then
    match state with
    | None => Err ValueError
    | Some s =>
        manager_apply calibrator (oc_params s) (oc_mutable s) false outputs >>= fun r =>
        match r with Arr o => Ok (layer o) | Tup _ _ => Err TypeError end
    end
  else Ok (layer outputs).

(** output_calib_model/classification.py:79-125: dimension checks.  [labels] are the targets,
    [width] the number of columns of the outputs. *)
Definition distinct_labels (labels : list Z) : nat := length (nodup Z.eq_dec labels).
Definition oc_class_check (width : nat) (labels : list Z) : result unit :=
  if (width =? distinct_labels labels)%nat then Ok tt else Err ValueError.
(** output_calib_model/base.py:52-134.  [train_fn] is the calibrator's train method started from
    the restored or initial state; the repository in memory then holds the final state. *)
Definition oc_calibrate {St V Status} (val_outputs val_targets : option V) (restored init : result St) (restore : bool) (train_fn : St -> option (V * V) -> result (St * Status)) : result (St * Status) :=
  match val_outputs, val_targets with
  | Some _, None | None, Some _ => Err ValueError
  | o, t =>
      (if restore then restored else init) >>= fun s =>
      train_fn s (match t, o with Some a, Some b => Some (a, b) | _, _ => None end)
  end.

(** ---- calib_model ---- *)
(** calib_model/loss.py:33-128 without an output calibration manager, which is how
    calib_model/classification.py:75-79 and calib_model/regression.py:73-78 build the
    likelihood.  [apply] is the model manager on the inputs of the batch.  [loss_fn] on a pair
    raises: TypeError stands for whichever exception the loss raises. *)
Definition cm_loss {O M T} (apply : bool -> option M -> pyout O M) (loss_fn : O -> T -> Q) (targets : T) (mutable : option M)
    (return_aux : list string) (train : bool) (outputs : option O) : result (Q * lik_aux O M unit) :=
  let want_m := in_aux "mutable" return_aux in
  lik_checks return_aux train (match outputs with Some _ => true | None => false end) (match mutable with Some _ => true | None => false end) >>= fun _ =>
  match outputs with
  | Some _ => Err UnboundLocalErr
  | None =>
      let outs := apply train mutable in
      match want_m, outs with true, Arr _ => Err ValueError | _, _ => Ok tt end >>= fun _ =>
      match outs with
      | Tup _ _ => Err TypeError
      | Arr o => Ok (loss_fn o targets, {| aux_outputs := if in_aux "outputs" return_aux then Some o else None;
                                           aux_mutable := if want_m then Some mutable else None;
                                           aux_calib := if in_aux "calib_mutable" return_aux then Some None else None |})
      end
  end.
(** calib_model/classification.py:137-152, prob_model/classification.py:218-242 *)
Definition class_dim_check (size width num_labels : nat) : result unit :=
  if (size =? 0)%nat then Err ValueError else if (width =? num_labels)%nat then Ok tt else Err ValueError.
(** calib_model/regression.py:82-98: [first] is the width of the targets of the first batch *)
Definition reg_dim_check (first : option nat) (width : nat) : result unit :=
  match first with
  | None | Some O => Err ValueError
  | Some d => if (width =? 2 * d)%nat then Ok tt else Err ValueError
  end.
(** calib_model/base.py:65-159,226-242: order of checks, choice of the initial state *)
Definition cm_calibrate {St Status} (dump dir : bool) (restored init : result St) (restore from_current : bool) (current : option St)
    (train_fn : St -> result (St * Status)) : result (St * Status) :=
  if dump && negb dir then Err ValueError
  else (if restore then restored
        else if from_current then match current with Some s => Ok s | None => Err AttributeError end
        else init) >>= train_fn.

(** ---- utils/data.py:12-32 ---- *)
(** [first] and [second] are two iterations over the loader; zip stops at the shorter one, and
    the loop at index max_iter + 1 *)
Definition check_not_random {X} (eqb : X -> X -> bool) (max_iter : nat) (first second : list X) : result unit :=
  if existsb (fun p => negb (eqb (fst p) (snd p))) (firstn (Datatypes.S max_iter) (combine first second)) then Err ValueError else Ok tt.

(** ---- prob_model/base.py:50-234 ---- *)
(** what the posterior state repository holds *)
Record post_state (A P M : Type) := { ps_rest : A; ps_calib_params : P; ps_calib_mutable : M }.
Arguments ps_rest {A P M} p.
Arguments ps_calib_params {A P M} p.
Arguments ps_calib_mutable {A P M} p.
(** lines 109-234.  [calib_ok] and [val_ok] are the results of check_data_loader_is_not_random,
    [restored] the checkpoint to restore (if a path is given), [train_fn] the calibrator's train
    method.  Returns the status (if there was something to calibrate), the posterior state and
    whether it was dumped. *)
Definition pm_calibrate {A P M Status} (calib_ok : result unit) (val_ok : option (result unit)) (has_calibrator : bool)
    (restored : option (result (P * M))) (train_fn : post_state A P M -> P * M -> result (P * M * Status)) (dump dir : bool)
    (state : option (post_state A P M)) : result (option Status * option (post_state A P M) * bool) :=
  calib_ok >>= fun _ =>
  match val_ok with Some r => r | None => Ok tt end >>= fun _ =>
  if negb has_calibrator then Ok (None, state, false)
  else match state with
  | None => Err ValueError
  | Some ps =>
      match restored with None => Ok (ps_calib_params ps, ps_calib_mutable ps) | Some r => r end >>= fun start =>
      train_fn ps start >>= fun '((p, m), status) =>
      Ok (Some status, Some {| ps_rest := ps_rest ps; ps_calib_params := p; ps_calib_mutable := m |}, dump && dir)
  end.
(** lines 50-107: [fit] returns the state it puts in the repository; a loader is true when it
    has a batch (its length decides) *)
Definition pm_train {F Sp C} (fit : result (F * Sp)) (calib_batches : option nat) (calibrate : Sp -> result (option C * Sp)) : result (F * option C * Sp) :=
  fit >>= fun '(fs, s) =>
  match calib_batches with
  | Some (Datatypes.S _) => calibrate s >>= fun '(cs, s') => Ok (fs, cs, s')
  | _ => Ok (fs, None, s)
  end.

(** ---- prob_model/predictive/base.py:537-580: ensemble of outputs on the calibration data ---- *)
(** without distribution: every batch uses the same keys; [post] draws parameters with a key and
    [net] is the model, row by row *)
Definition sample_outputs {K W X O} (post : K -> W) (net : W -> X -> O) (keys : list K) (batches : list (list X)) : list (list (list O)) * nat :=
  (map (fun b => map (fun k => map (net (post k)) b) keys) batches, fold_left (fun n b => (n + length b)%nat) batches 0%nat).
(** with distribution over [d] devices: each batch is cut into [d] rows, device i gets the i-th
    key split from the key of the sample, and the first dimension is the number of devices *)
Definition device_rows {X} (d : nat) (b : list X) : list (list X) := map (fun i => firstn (length b / d) (skipn (i * (length b / d)) b)) (seq 0 d).
Definition sample_outputs_distributed {K W X O} (split : K -> nat -> K) (post : K -> W) (net : W -> X -> O) (d : nat) (keys : list K) (batches : list (list X)) : list (list (list O)) * nat :=
  (map (fun b => map (fun k => concat (map (fun ix => map (net (post (split k (fst ix)))) (snd ix)) (combine (seq 0 d) (device_rows d b)))) keys) batches,
   fold_left (fun n _ => (n + d)%nat) batches 0%nat).
(** prob_model/prob_model_calibrator.py:91-104: outputs of shape (samples, batch) are cut along
    the batch: swap the axes, split in [d] parts, swap back *)
Definition columns {A} (d0 : A) (n : nat) (m : list (list A)) : list (list A) := map (fun j => map (fun r => nth j r d0) m) (seq 0 n).
Definition split_outputs {O} (d0 : O) (d batch : nat) (outs : list (list O)) : result (list (list (list O))) :=
  if negb (batch mod d =? 0)%nat then Err ValueError
  else Ok (map (fun part => columns d0 (length outs) part) (device_rows d (columns d0 batch outs))).

(** training/output_calibrator.py:670-700: lax.pmean is applied to the loss and to the auxiliary
    outputs; then the devices are concatenated.  [outs] are the outputs of each device, with
    [rows] rows and [cols] columns *)
Definition device_mean (rows cols : nat) (outs : list (list (list Q))) : list (list Q) :=
  map (fun r => map (fun j => (qsum (map (fun o => nth j (nth r o []) 0%Q) outs) / inject_Z (Z.of_nat (length outs)))%Q) (seq 0 cols)) (seq 0 rows).
Definition device_val_outputs (rows cols : nat) (outs : list (list (list Q))) : list (list Q) :=
  concat (map (fun _ => device_mean rows cols outs) outs).

Open Scope R_scope.
(** ---- prob_model/predictive/base.py:205-316: the objective of the calibration ---- *)
(** log-likelihood of a batch under one sample, scaled to the data set (likelihood/base.py) *)
Definition scaled_log_lik (n_data : nat) (ll : list R) : R := rsum ll * (INR n_data / INR (length ll)).
(** lines 205-287: [lls] are the log-likelihoods of the points of the batch, one list per sample *)
Definition ensemble_log_joint (n_data : nat) (lls : list (list R)) : R :=
  lse (map (scaled_log_lik n_data) lls) - ln (INR (length lls)).
(** lines 289-316 *)
Definition calib_objective (n_data : nat) (lls : list (list R)) : R := - ensemble_log_joint n_data lls.
(** line 279: the outputs reported for the metrics are averaged over the samples *)
Definition ensemble_outputs_mean (outs : list (list R)) (j : nat) : R := rmean (map (fun o => nth j o 0) outs).
(** training/output_calibrator.py:590-597: the loss is averaged over the devices; [lls] has one
    ensemble per device *)
Definition device_objective (n_data : nat) (lls : list (list (list R))) : R := rmean (map (calib_objective n_data) lls).
