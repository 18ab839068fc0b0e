(** Properties C121-C123: training status and metrics on several devices. *)
From Coq Require Import List Arith ZArith QArith Bool String.
From Verif Require Import Lib QuantModel ConfRegModel ConfClassModel MetricModel NestedModel StatModel StatSpec StatProofs StatProofs2 StatProofs3 StatProofs4.
From Verif Require Import Lit.
Import ListNotations.
Open Scope list_scope.
Local Notation length := List.length.
Local Notation concat := List.concat.

(** ==== C121: the status returned by training ==== *)

(** one value per epoch, the average over the recorded batches of that epoch; likewise for the
    validated epochs *)
Theorem C121_status : forall epochs K L,
  Forall (fun e : list (list (string * Q)) * option (list (list (string * Q))) =>
    fst e <> [] /\ Forall (fun r => has_keys r K) (fst e) /\
    match snd e with None => True | Some v => v <> [] /\ Forall (fun r => has_keys r L) v end) epochs ->
  (forall k, In k K -> ~ In k L) ->
  let val := flat_map (fun e => match snd e with Some v => [v] | None => [] end) epochs in
  exists st, train_status epochs = Ok st /\ NoDup (map fst st) /\
    (forall k, In k (map fst st) <-> (epochs <> [] /\ In k K) \/ (val <> [] /\ In k L)) /\
    (forall k ms, In k K -> entry st k ms -> Forall2 (fun e m => average_entry (fst e) k m) epochs ms) /\
    (forall k ms, In k L -> entry st k ms -> Forall2 (fun v m => average_entry v k m) val ms).
Proof. exact (@train_status_ok). Qed.
Print Assumptions C121_status.
Example C121_case_keys : has_keys [("loss", 1); ("acc", 2)]%string%Q ["acc"; "loss"]%string.
Proof. split; [lit|]. intros k. cbn. intuition. Qed.

(** what is recorded for a training batch and for a validation batch *)
Theorem C121_training_batch : forall P T loss (logging : list (string * Q)) (metrics : list (string * (P -> T -> Q))) preds targets,
  NoDup ("loss"%string :: map fst logging ++ map fst metrics) ->
  let r := training_row loss (Some logging) (Some metrics) preds targets in
  has_keys r ("loss"%string :: map fst logging ++ map fst metrics) /\
  entry r "loss" loss /\ (forall k v, In (k, v) logging -> entry r k v) /\
  (forall k f, In (k, f) metrics -> entry r k (f preds targets)).
Proof. exact (@training_row_entries). Qed.
Print Assumptions C121_training_batch.

Theorem C121_validation_batch : forall P T loss (metrics : list (string * (P -> T -> Q))) preds targets,
  NoDup ("loss"%string :: map fst metrics) ->
  let r := validation_row loss (Some metrics) preds targets in
  has_keys r ("val_loss"%string :: map (fun m => ("val_" ++ fst m)%string) metrics) /\
  entry r "val_loss" loss /\ (forall k f, In (k, f) metrics -> entry r ("val_" ++ k)%string (f preds targets)).
Proof. exact (@validation_row_entries). Qed.
Print Assumptions C121_validation_batch.

(** over batches of one size, the validation metrics are those of the whole data set *)
Theorem C121_dataset_metric : forall P T (h : P * T -> Q) name metrics loss b (batches : list (list (P * T))),
  NoDup ("loss"%string :: map fst metrics) ->
  In (name, fun (p : list P) (t : list T) => average (map h (combine p t))) metrics ->
  (0 < b)%nat -> batches <> [] -> all_sizes b batches ->
  exists r m, mean_rows (map (fun x => validation_row (loss x) (Some metrics) (map fst x) (map snd x)) batches) = Ok r /\
    entry r ("val_" ++ name)%string m /\ (m == average (map h (concat batches)))%Q.
Proof. exact (@validation_average). Qed.
Print Assumptions C121_dataset_metric.
Example C121_case_sizes : all_sizes 2 [[(1, true); (2, false)]; [(3, true); (4, true)]]%nat /\ NoDup ["loss"; "acc"; "brier"]%string.
Proof. split; [intros x [<-|[<-|[]]]; reflexivity|lit]. Qed.

(** not with a shorter last batch *)
Theorem C121_dataset_metric_refuted : exists (h : Q * Q -> Q) loss (batches : list (list (Q * Q))) r m,
  mean_rows (map (fun x => validation_row (loss x) (Some [("mse"%string, fun p t => average (map h (combine p t)))]) (map fst x) (map snd x)) batches) = Ok r /\
  entry r "val_mse" m /\ ~ (m == average (map h (concat batches)))%Q.
Proof. exact (@validation_average_refuted). Qed.
Print Assumptions C121_dataset_metric_refuted.

(** two metrics of one name: only the last is reported *)
Theorem C121_same_name_refuted : forall P T name (f g : P -> T -> Q) loss preds targets, f preds targets <> g preds targets ->
  let r := training_row loss None (Some [(name, f); (name, g)]) preds targets in
  entry r name (g preds targets) /\ ~ entry r name (f preds targets).
Proof. exact (@same_name). Qed.
Print Assumptions C121_same_name_refuted.

(** a metric named "loss" replaces the loss *)
Theorem C121_named_loss_refuted : forall P T (f : P -> T -> Q) loss preds targets, f preds targets <> loss ->
  ~ entry (training_row loss None (Some [("loss"%string, f)]) preds targets) "loss" loss /\
  ~ entry (validation_row loss (Some [("loss"%string, f)]) preds targets) "val_loss" loss.
Proof. exact (@named_loss). Qed.
Print Assumptions C121_named_loss_refuted.

(** a name that occurs both as training and as validation entry makes training fail at its end *)
Theorem C121_shared_name_raises : forall epochs K L k,
  Forall (fun e : list (list (string * Q)) * option (list (list (string * Q))) =>
    fst e <> [] /\ Forall (fun r => has_keys r K) (fst e) /\
    match snd e with None => True | Some v => v <> [] /\ Forall (fun r => has_keys r L) v end) epochs ->
  In k K -> In k L -> (exists e, In e epochs /\ snd e <> None) ->
  train_status epochs = Err TypeError.
Proof. exact (@shared_key_raises). Qed.
Print Assumptions C121_shared_name_raises.

Example C121_case :
  train_status [([training_row 4 None (Some [("err", fun p t => p - t)]) 3 1; training_row 2 None (Some [("err", fun p t => p - t)]) 5 1],
                 Some [validation_row 1 (Some [("err", fun p t => p - t)]) 2 1]);
                ([training_row 1 None (Some [("err", fun p t => p - t)]) 3 2], None)]%string%Q
  = Ok [("loss", [average [4; 2]; average [1]]); ("err", [average [3 - 1; 5 - 1]; average [3 - 2]]);
        ("val_loss", [average [1]]); ("val_err", [average [2 - 1]])]%string%Q.
Proof. reflexivity. Qed.
Example C121_case_names :
  train_status [([training_row 4 None (Some [("val_loss", fun p t => p - t)]) 3 1], Some [validation_row 1 (Some [("val_loss", fun p t => p - t)]) 2 1])]%string%Q
  = Err TypeError /\
  training_row 4 None (Some [("<lambda>", fun p t => p - t); ("<lambda>", fun p t => p + t)])%string%Q 3%Q 1%Q = [("loss", 4); ("<lambda>", 3 + 1)]%string%Q.
Proof. split; reflexivity. Qed.

(** ==== C122: training metrics of normalizing flows on several devices ==== *)

(** the trainer for one device *)
Theorem C122_single : forall A T (metric : list A -> list T -> Q) (preds : list (list A)) targets,
  flow_metric_single metric preds targets = average (map (fun i => metric (nth i preds []) targets) (seq 0 (length preds))).
Proof. exact (@flow_single). Qed.
Print Assumptions C122_single.

(** the trainer for several devices *)
Theorem C122_one_device_or_sample : forall A T (metric : list A -> list T -> Q) d s b (preds : list (list (list A))) (targets : list (list T)),
  (0 < d)%nat -> (0 < s)%nat -> shaped d s b preds -> (d = 1 \/ s = 1)%nat ->
  flow_metric metric preds targets = Ok (average (map (fun i => metric (sample_predictions i preds) (concat targets)) (seq 0 s))).
Proof. exact (@flow_correct). Qed.
Print Assumptions C122_one_device_or_sample.

(** for all sizes from two devices and two samples there are predictions that are all right, for
    every sample, and yet are not reported so *)
Theorem C122_devices_refuted : forall d s b, (2 <= d)%nat -> (2 <= s)%nat -> (1 <= b)%nat ->
  exists preds (targets : list (list Z)) q, shaped d s b preds /\ length targets = d /\ all_sizes b targets /\
    (forall i, (i < s)%nat -> sample_predictions i preds = concat targets) /\
    flow_metric (fun p t => fraction (fun x => (fst x =? snd x)%Z) (combine p t)) preds targets = Ok q /\ (q < 1)%Q.
Proof. exact (@flow_refuted). Qed.
Print Assumptions C122_devices_refuted.

Example C122_case :
  flow_rows [[[1; 2]; [11; 12]]; [[3; 4]; [13; 14]]]%nat = Ok [[1; 2; 11; 12]; [3; 4; 13; 14]]%nat /\
  map (fun s => sample_predictions s [[[1; 2]; [11; 12]]; [[3; 4]; [13; 14]]]%nat) [0; 1]%nat = [[1; 2; 3; 4]; [11; 12; 13; 14]]%nat /\
  rmap Qred (flow_metric (fun p t => fraction (fun x => (fst x =? snd x)%Z) (combine p t)) [[[0]; [0]]; [[1]; [1]]]%Z [[0]; [1]]%Z) = Ok (1 # 2)%Q.
Proof. repeat split; vm_compute; reflexivity. Qed.

(** ==== C123: validation metrics of output calibrators on several devices ==== *)

(** the training metrics are those of the whole batch *)
Theorem C123_training : forall A U (g : list A -> Z) (u : list A -> U) (metric : list Z -> list U -> labels -> result Q) outputs targets,
  calib_training_metric (map g) (map u) metric outputs targets =
  metric (map g (concat outputs)) (map u (concat outputs)) (L1 (concat targets)).
Proof. exact (@training_aligned). Qed.
Print Assumptions C123_training.

(** so are the validation metrics of regression *)
Theorem C123_regression : forall A B C d b k k' (predict : list (list A) -> B) (metric : B -> list (list C) -> Q) outputs targets,
  (0 < d)%nat -> (0 < b)%nat -> shaped d b k outputs -> shaped d b k' targets ->
  calib_val_metric_reg predict metric outputs targets = Ok (metric (predict (concat outputs)) (concat targets)).
Proof. exact (@regression_aligned). Qed.
Print Assumptions C123_regression.

(** the validation accuracy of a classifier always raises *)
Theorem C123_accuracy_refuted : forall A U d b k (predict : list (list A) -> list Z) (uncertainty : list (list A) -> U) outputs targets,
  (0 < d)%nat -> (0 < b)%nat -> shaped d b k outputs -> length targets = d -> all_sizes b targets ->
  calib_val_metric predict uncertainty (fun p _ t => accuracy_of p t) outputs targets = Err ValueError.
Proof. exact (@val_accuracy_raises). Qed.
Print Assumptions C123_accuracy_refuted.

(** the accuracy of a bin compares each of its targets with the predictions for all data points *)
Theorem C123_bin_accuracy : forall preds confs ts bins,
  bins_for preds confs (L2 (map (fun t => [t]) ts)) = Ok bins -> preds <> [] ->
  length preds = length confs /\ length ts = length confs /\ length bins = 10%nat /\
  forall i, (i < 10)%nat ->
    let members := filter (fun x => in_bin (length confs) i (fst x)) (combine confs ts) in
    b_count (nth i bins (Build_bin 0 0 0)) = length members /\
    b_conf (nth i bins (Build_bin 0 0 0)) = mean0 (map fst members) /\
    (members <> [] -> (b_acc (nth i bins (Build_bin 0 0 0)) == fraction (fun x => (fst x =? snd x)%Z) (list_prod (map snd members) preds))%Q).
Proof. exact (@column_bins). Qed.
Print Assumptions C123_bin_accuracy.

(** a perfect and fully confident classifier has no calibration error, but one is reported as
    soon as two classes occur *)
Theorem C123_calibration_error_refuted : forall A d b k (predict : list (list A) -> list Z) (uncertainty : list (list A) -> arr) outputs targets t1 t2,
  (0 < d)%nat -> (0 < b)%nat -> shaped d b k outputs -> length targets = d -> all_sizes b targets ->
  predict (concat outputs) = concat targets ->
  length (confidences (uncertainty (concat outputs))) = length (concat targets) ->
  (forall c, In c (confidences (uncertainty (concat outputs))) -> (c == 1)%Q) ->
  In t1 (concat targets) -> In t2 (concat targets) -> t1 <> t2 ->
  (exists q, ece_of (predict (concat outputs)) (uncertainty (concat outputs)) (L1 (concat targets)) = Ok q /\ (q == 0)%Q) /\
  (exists q, calib_val_metric predict uncertainty ece_of outputs targets = Ok q /\ (0 < q)%Q).
Proof. exact (@val_ece_wrong). Qed.
Print Assumptions C123_calibration_error_refuted.

Example C123_case :
  calib_labels [[0; 1]; [1; 1]]%Z = Ok (L2 [[0]; [1]; [1]; [1]])%Z /\
  rmap Qred (calib_val_metric (map (fun r => nth 0 r 0%Z)) (fun o => A1 (map (fun _ => 1%Q) o)) ece_of [[[0]; [1]]; [[1]; [1]]]%Z [[0; 1]; [1; 1]]%Z) = Ok (3 # 8)%Q /\
  rmap Qred (ece_of [0; 1; 1; 1]%Z (A1 [1; 1; 1; 1]%Q) (L1 [0; 1; 1; 1]%Z)) = Ok 0%Q /\
  calib_val_metric (map (fun r => nth 0 r 0%Z)) (fun o => o) (fun p _ t => accuracy_of p t) [[[0]; [1]]; [[1]; [1]]]%Z [[0; 1]; [1; 1]]%Z = Err ValueError.
Proof. repeat split; vm_compute; reflexivity. Qed.
