(** Model of the training status: what is recorded for each batch, averaged over an epoch and
    returned by [train] (fortuna/training/trainer.py,
    fortuna/prob_model/posterior/map/map_trainer.py,
    fortuna/prob_model/posterior/normalizing_flow/normalizing_flow_trainer.py), and the
    arrays given to the metrics by trainers and calibrators that run on several devices
    (fortuna/training/output_calibrator.py,
    fortuna/output_calib_model/output_calib_model_calibrator.py).

    Which batches are recorded and which epochs are validated is modelled in TrainModel.v.
    Simplifications: numbers are rationals, metrics are total functions except those of
    fortuna/metric/classification.py modelled here; dictionaries are association lists. *)
From Coq Require Import List Arith ZArith QArith Bool String.
From Verif Require Import Lib QuantModel ConfRegModel ConfClassModel MetricModel NestedModel.
Import ListNotations.
Open Scope list_scope.
Local Notation length := List.length.
Local Notation concat := List.concat.

Definition row := list (string * Q).

(** trainer.py:660-674 compute_metrics: one entry per [metric.__name__], in order *)
Definition compute_metrics {P T} (metrics : list (string * (P -> T -> Q))) (preds : P) (targets : T) : row :=
  fold_left (fun d m => assoc_set (fst m) (snd m preds targets) d) metrics [].

(** [for k, v in extra.items(): d[k] = v] *)
Definition update (d extra : row) : row := fold_left (fun d kv => assoc_set (fst kv) (snd kv) d) extra d.

(** trainer.py:270-319: the entry of a training batch.  [metrics] is None when no metric is
    given or disable_training_metrics_computation is set. *)
Definition training_row {P T} (loss : Q) (logging : option row) (metrics : option (list (string * (P -> T -> Q))))
    (preds : P) (targets : T) : row :=
  let d := [("loss"%string, loss)] in
  let d := match logging with Some l => update d l | None => d end in
  match metrics with Some ms => update d (compute_metrics ms preds targets) | None => d end.

(** map_trainer.py:94-111 and normalizing_flow_trainer.py:221-232: the entry of a validation
    batch; [{"val_loss": loss, **{f"val_{m}": v ...}}] *)
Definition validation_row {P T} (loss : Q) (metrics : option (list (string * (P -> T -> Q)))) (preds : P) (targets : T) : row :=
  let d := [("val_loss"%string, loss)] in
  match metrics with
  | Some ms => update d (map (fun kv => (("val_" ++ fst kv)%string, snd kv)) (compute_metrics ms preds targets))
  | None => d
  end.

(** two dictionaries (without repeated keys) with the same keys *)
Definition same_keys (a b : row) : bool :=
  (length a =? length b) && forallb (fun kv => match assoc_get (fst kv) b with Some _ => true | None => false end) a.

(** trainer.py:584-589 (output_calibrator.py:434-439): flax's stack_forest, a tree_map over
    all dictionaries, then the mean of every entry.  Without any dictionary tree_map lacks
    an argument; dictionaries with different keys are different trees. *)
Definition mean_rows (rows : list row) : result row :=
  match rows with
  | [] => Err TypeError
  | r :: rest =>
      if forallb (same_keys r) rest
      then Ok (map (fun kv => (fst kv, qmean (map (fun r' => match assoc_get (fst kv) r' with Some v => v | None => 0%Q end) rows))) r)
      else Err ValueError
  end.

Definition history := list (string * list Q).
(** trainer.py:407-411 and 434-438: appending to a defaultdict(list) *)
Definition append_row (h : history) (r : row) : history :=
  fold_left (fun h kv => assoc_set (fst kv) ((match assoc_get (fst kv) h with Some l => l | None => [] end) ++ [snd kv]) h) r h.

(** trainer.py:446-452 [dict( **training, **validation)]: a repeated keyword argument raises *)
Definition merge_status (a b : history) : result history :=
  if existsb (fun kv => match assoc_get (fst kv) a with Some _ => true | None => false end) b then Err TypeError
  else Ok (a ++ b).

(** trainer.py:384-452 as far as the status is concerned: the entries recorded in each epoch,
    and those of its validation if it was validated *)
Fixpoint epochs_status (epochs : list (list row * option (list row))) (t v : history) : result (history * history) :=
  match epochs with
  | [] => Ok (t, v)
  | (rows, val) :: rest =>
      bind (mean_rows rows) (fun m =>
      match val with
      | None => epochs_status rest (append_row t m) v
      | Some vrows => bind (mean_rows vrows) (fun mv => epochs_status rest (append_row t m) (append_row v mv))
      end)
  end.
Definition train_status (epochs : list (list row * option (list row))) : result history :=
  bind (epochs_status epochs [] []) (fun tv => merge_status (fst tv) (snd tv)).

(** ---- several devices ---- *)
(** reshape of a flat array to n rows of k entries *)
Definition rows_of {A} (n k : nat) (flat : list A) : result (list (list A)) :=
  if (length flat =? n * k)%nat then Ok (map (fun i => slice (i * k) (i * k + k) flat) (seq 0 n)) else Err TypeError.
(** [a.reshape(n, -1)] of a flat array *)
Definition rows_inferred {A} (n : nat) (flat : list A) : result (list (list A)) :=
  match n with
  | O => Err ZeroDivisionError
  | _ => rows_of n (length flat / n) flat
  end.

(** sizes of the leading axes of a regular array *)
Definition size1 {A} (l : list (list A)) : nat := length (hd [] l).
Definition size2 {A} (l : list (list (list A))) : nat := length (hd [] (hd [] l)).

(** normalizing_flow_trainer.py:168-185: predictions of shape (devices, samples, batch) are
    reshaped to (samples, devices * batch); a metric is computed for every row against the
    merged targets, then averaged (190-192) *)
Definition flow_rows {A} (preds : list (list (list A))) : result (list (list A)) :=
  rows_of (size1 preds) (length preds * size2 preds) (concat (map (fun d => concat d) preds)).
Definition flow_metric {A T} (metric : list A -> list T -> Q) (preds : list (list (list A))) (targets : list (list T)) : result Q :=
  rmap (fun rows => qmean (map (fun p => metric p (concat targets)) rows)) (flow_rows preds).
(** normalizing_flow_trainer.py:186-192 on one device *)
Definition flow_metric_single {A T} (metric : list A -> list T -> Q) (preds : list (list A)) (targets : list T) : Q :=
  qmean (map (fun p => metric p targets) preds).

(** labels: a one-dimensional array or a matrix *)
Inductive labels := L1 (l : list Z) | L2 (rows : list (list Z)).

(** output_calibrator.py:691-693 (output_calib_model_calibrator.py:654-656): outputs of shape
    (devices, batch, dim), targets of shape (devices, batch) *)
Definition calib_outputs {A} (outputs : list (list (list A))) : result (list (list A)) :=
  rows_inferred (length outputs * size1 outputs) (concat (map (fun d => concat d) outputs)).
Definition calib_labels (targets : list (list Z)) : result labels :=
  rmap L2 (rows_inferred (length targets * size1 targets) (concat targets)).
(** output_calibrator.py:300-315: the training metrics merge the two leading axes instead *)
Definition calib_training_labels (targets : list (list Z)) : labels := L1 (concat targets).

(** classification.py:33-42 *)
Definition accuracy_of (preds : list Z) (targets : labels) : result Q :=
  match targets with L1 l => accuracy preds l | L2 _ => Err ValueError end.

(** classification.py:73-95: [diff = targets - preds] for a column of targets is the matrix
    of all differences, and [diff[idx]] selects rows of it *)
Definition bins_for (preds : list Z) (confs : list Q) (targets : labels) : result (list bin) :=
  match targets with
  | L1 l => bins_of preds confs l
  | L2 rows =>
      bind (mapM (fun r => match r with [t] => Ok t | _ => Err TypeError end) rows) (fun ts =>
      if negb (length preds =? length confs)%nat || negb (length ts =? length confs)%nat then Err TypeError
      else
        let data := combine confs (map (fun t => map (fun p => (t - p =? 0)%Z) preds) ts) in
        Ok (map (fun i =>
          let l := filter (fun d => in_bin (length confs) i (fst d)) data in
          {| b_count := length l; b_conf := mean0 (map fst l);
             b_acc := mean0 (map of_bool (concat (map snd l))) |}) (seq 0 10)))
  end.
(** classification.py:98-133 *)
Definition ece_of (preds : list Z) (probs : arr) (targets : labels) : result Q :=
  rmap (fun bs => (qsum (map gap bs) / inject_Z (Z.of_nat (length preds)))%Q) (bins_for preds (confidences probs) targets).

(** val_metrics_step on several devices with a classifier, on the outputs it is given (that they
    are averaged over the devices is in CalibModel.v): [predict] and [uncertainty] act on
    the merged outputs *)
Definition calib_val_metric {A U} (predict : list (list A) -> list Z) (uncertainty : list (list A) -> U)
    (metric : list Z -> U -> labels -> result Q) (outputs : list (list (list A))) (targets : list (list Z)) : result Q :=
  bind (calib_outputs outputs) (fun o => bind (calib_labels targets) (fun t => metric (predict o) (uncertainty o) t)).
(** training_step_end: predictions of every device, merged *)
Definition calib_training_metric {A U} (predict : list (list A) -> list Z) (uncertainty : list (list A) -> list U)
    (metric : list Z -> list U -> labels -> result Q) (outputs : list (list (list A))) (targets : list (list Z)) : result Q :=
  metric (concat (map predict outputs)) (concat (map uncertainty outputs)) (calib_training_labels targets).
(** regression targets of shape (devices, batch, dim) are reshaped like the outputs *)
Definition calib_val_metric_reg {A B C} (predict : list (list A) -> B) (metric : B -> list (list C) -> Q)
    (outputs : list (list (list A))) (targets : list (list (list C))) : result Q :=
  bind (calib_outputs outputs) (fun o => bind (calib_outputs targets) (fun t => Ok (metric (predict o) t))).
