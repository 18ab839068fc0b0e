(** Properties C133 and C134: passes over the sources of data loaders. *)
From Coq Require Import List Arith Bool String.
From Verif Require Import Lib SrcModel SrcSpec SrcProofs SrcProofs2 SrcCases.
Import ListNotations.
Local Notation length := List.length.
Local Notation concat := List.concat.

(** C133: what loaders say about their data, and when it depends on earlier uses *)
Theorem C133_repeatable : forall X shape (s : source X) l os, repeatable s l ->
  Forall2 (answers shape l) os (fst (exec_all shape os (new_loader s))).
Proof. exact (@repeatable_answers). Qed.
Print Assumptions C133_repeatable.
Example C133_case_repeatable : repeatable (Reusable [[(10, 1); (20, 0)]; [(30, 1)]]) [[(10, 1); (20, 0)]; [(30, 1)]] /\ repeatable (Calls (fun _ => [[(10, 1)]]) 4) [[(10, 1)]].
Proof. split; [reflexivity|intros k; reflexivity]. Qed.
Theorem C133_calls_anew : forall X shape (f : nat -> list (batch X)) k n c,
  fst (exec_all shape (repeat OPass n) {| src := Calls f k; labels_cache := c |}) = map (fun i => Ok (VBatches (f (k + i)))) (seq 0 n).
Proof. exact (@calls_anew). Qed.
Print Assumptions C133_calls_anew.
Theorem C133_labels_kept : forall X shape (d : loader X) n os d1,
  exec shape OLabels d = (Ok (VNat n), d1) ->
  fst (exec shape OLabels (snd (exec_all shape os d1))) = Ok (VNat n).
Proof. exact (@labels_kept). Qed.
Print Assumptions C133_labels_kept.
Theorem C133_views : forall X (s : source X) l, repeatable s l -> zip_views s = map split_batch l.
Proof. exact (@views_match). Qed.
Print Assumptions C133_views.
Theorem C133_framework : forall T A (numpy : T -> A) bs out,
  framework_pass numpy bs = Ok out ->
  length out = length bs /\
  forall i x y, nth_error bs i = Some (x, y) ->
    exists t, y = One t /\
    ((exists u, x = One u /\ nth_error out i = Some (One (numpy u), numpy t)) \/
     (exists d d', x = Dict d /\ nth_error out i = Some (Dict d', numpy t) /\
        map fst d' = map fst d /\ map snd d' = map numpy (map snd d))).
Proof. exact (@framework_arrays). Qed.
Print Assumptions C133_framework.
Theorem C133_framework_dict_targets : forall T A (numpy : T -> A) bs x d,
  In (x, Dict d) bs -> framework_pass numpy bs = Err AttributeError.
Proof. exact (@framework_dict_targets). Qed.
Print Assumptions C133_framework_dict_targets.
(** a loader of an iterator has nothing left after any property but the input shape was read *)
Theorem C133_one_shot_refuted : forall X shape c (l : list (batch X)) o os, o <> OShape -> ~ In OLabels os ->
  Forall2 (answers shape []) os (fst (exec_all shape os (snd (exec shape o (new_loader (OneShot c l)))))).
Proof. exact (@one_shot_exhausted). Qed.
Print Assumptions C133_one_shot_refuted.
Theorem C133_input_shape_refuted : forall X shape c (l : list (batch X)),
  fst (exec_all shape [OShape; OPass] (new_loader (OneShot c l))) =
  [match l with [] => Err UnboundLocalErr | b :: _ => Ok (VNat (shape b)) end;
   Ok (VBatches (if c then [] else tl l))].
Proof. exact (@broken_off). Qed.
Print Assumptions C133_input_shape_refuted.
(** read together, its inputs and targets are those of different batches; so are those of a
    loader that shuffles in every pass *)
Theorem C133_views_one_shot_refuted : forall X c (l : list (batch X)),
  length (zip_views (OneShot c l)) = length l / 2 /\
  forall i a b, nth_error l (2 * i) = Some a -> nth_error l (2 * i + 1) = Some b ->
    nth_error (zip_views (OneShot c l)) i = Some (fst (split_batch a), snd (split_batch b)).
Proof. exact (@views_one_shot). Qed.
Print Assumptions C133_views_one_shot_refuted.
Theorem C133_views_calls_refuted : forall X (f : nat -> list (batch X)) k i a b,
  nth_error (f k) i = Some a -> nth_error (f (S k)) i = Some b ->
  nth_error (zip_views (Calls f k)) i = Some (fst (split_batch a), snd (split_batch b)).
Proof. exact (@views_calls). Qed.
Print Assumptions C133_views_calls_refuted.

Example C133_case_list :
  fst (exec_all toy_shape [OShape; OSize; OLen; OLabels; OBool; OPass; OArrays] (new_loader (Reusable toy_batches))) =
  [Ok (VNat 7); Ok (VNat 5); Ok (VNat 3); Ok (VNat 2); Ok (VBool true); Ok (VBatches toy_batches); Ok (VRows (concat toy_batches))].
Proof. reflexivity. Qed.
Example C133_case_generator :
  fst (exec_all toy_shape [OShape; OSize; OLen; OLabels; OBool; OPass] (new_loader (OneShot true toy_batches))) =
  [Ok (VNat 7); Ok (VNat 0); Ok (VNat 0); Err ValueError; Ok (VBool false); Ok (VBatches [])].
Proof. reflexivity. Qed.
Example C133_case_iterator :
  fst (exec_all toy_shape [OShape; OSize; OLen] (new_loader (OneShot false toy_batches))) = [Ok (VNat 7); Ok (VNat 3); Ok (VNat 0)].
Proof. reflexivity. Qed.
Example C133_case_views :
  zip_views (Reusable toy_batches) = [([1; 2], [0; 1]); ([3; 4], [1; 1]); ([5], [0])] /\
  zip_views (OneShot true toy_batches) = [([1; 2], [1; 1])] /\
  zip_views (Calls toy_shuffled 0) = [([1; 2], [0]); ([3; 4], [1; 1]); ([5], [0; 1])].
Proof. repeat split. Qed.
Example C133_case_framework :
  framework_pass S [(One 1, One 2); (Dict [("ids"%string, 3); ("mask"%string, 4)], One 5)] =
    Ok [(One 2, 3); (Dict [("ids"%string, 4); ("mask"%string, 5)], 6)] /\
  framework_pass S [(One 1, Dict [("y"%string, 2)])] = Err AttributeError.
Proof. split; reflexivity. Qed.

(** C134: the batches a training works with *)
Theorem C134_classifier : forall X shape output_dim n (s : source X) b r d,
  repeatable s (b :: r) -> concat (b :: r) <> [] -> different_labels (b :: r) d ->
  classifier_train shape output_dim n (new_loader s) =
  if output_dim (shape b) =? d then Ok (length (concat (b :: r)), repeat (b :: r) n) else Err ValueError.
Proof. exact (@classifier_repeatable). Qed.
Print Assumptions C134_classifier.
Example C134_case_labels : different_labels [[(10, 1); (20, 0)]; [(30, 1)]] 2.
Proof.
  exists [0; 1]. split; [repeat constructor; cbn; intuition discriminate|]. split; [|reflexivity]. intros y. split.
  - intros [<-|[<-|[]]]; [exists [(10, 1); (20, 0)], (20, 0)|exists [(30, 1)], (30, 1)]; cbn; intuition.
  - intros (b & r & [<-|[<-|[]]] & R & <-); cbn in R; intuition; subst; cbn; intuition.
Qed.
Theorem C134_regressor : forall X shape output_dim t n (s : source X) b r,
  repeatable s (b :: r) -> t <> 0 ->
  regressor_train shape output_dim t n (new_loader s) =
  if output_dim (shape b) =? 2 * t then Ok (length (concat (b :: r)), repeat (b :: r) n) else Err ValueError.
Proof. exact (@regressor_repeatable). Qed.
Print Assumptions C134_regressor.
Theorem C134_classifier_empty_raises : forall X shape output_dim n (s : source X) l,
  repeatable s l -> concat l = [] -> classifier_train shape output_dim n (new_loader s) = Err ValueError.
Proof. exact (@classifier_empty). Qed.
Print Assumptions C134_classifier_empty_raises.
Theorem C134_regressor_empty_raises : forall X shape output_dim t n (s : source X) l,
  repeatable s l -> l = [] \/ t = 0 -> regressor_train shape output_dim t n (new_loader s) = Err ValueError.
Proof. exact (@regressor_empty). Qed.
Print Assumptions C134_regressor_empty_raises.
Theorem C134_classifier_calls : forall X shape output_dim n (f : nat -> list (batch X)) d b,
  (forall k, concat (f k) <> []) -> different_labels (f 1) d -> nth_error (f 2) 0 = Some b -> output_dim (shape b) = d ->
  classifier_train shape output_dim n (new_loader (Calls f 0)) =
  Ok (length (concat (f 4)), map (fun i => f (5 + i)) (seq 0 n)).
Proof. exact (@classifier_calls). Qed.
Print Assumptions C134_classifier_calls.
Theorem C134_regressor_calls : forall X shape output_dim t n (f : nat -> list (batch X)) b,
  (forall k, f k <> []) -> t <> 0 -> nth_error (f 0) 0 = Some b -> output_dim (shape b) = 2 * t ->
  regressor_train shape output_dim t n (new_loader (Calls f 0)) =
  Ok (length (concat (f 2)), map (fun i => f (3 + i)) (seq 0 n)).
Proof. exact (@regressor_calls). Qed.
Print Assumptions C134_regressor_calls.
Theorem C134_validation : forall X shape n (s : source X) l, repeatable s l -> l <> [] ->
  map_validate shape n (new_loader s) = Ok (length (concat l), repeat l n).
Proof. exact (@validate_repeatable). Qed.
Print Assumptions C134_validation.
Theorem C134_empty_validation_raises : forall X shape n (s : source X), repeatable s [] -> n <> 0 ->
  map_validate shape n (new_loader s) = Err TypeError.
Proof. exact (@validate_empty). Qed.
Print Assumptions C134_empty_validation_raises.
Theorem C134_calibration : forall X shape (s : source X) l, repeatable s l -> l <> [] ->
  exists d, calib_step shape (Some (new_loader s)) = Some d /\
    forall os, Forall2 (answers shape l) os (fst (exec_all shape os d)).
Proof. exact (@calib_repeatable). Qed.
Print Assumptions C134_calibration.
(** a calibration loader without data is not reported, calibration is skipped *)
Theorem C134_empty_calibration_refuted : forall X shape (s : source X), repeatable s [] ->
  calib_step shape (Some (new_loader s)) = calib_step shape None.
Proof. exact (@calib_empty). Qed.
Print Assumptions C134_empty_calibration_refuted.
(** iterators never work, though loaders of them can be built *)
Theorem C134_classifier_one_shot_refuted : forall X shape output_dim n c (l : list (batch X)),
  classifier_train shape output_dim n (new_loader (OneShot c l)) = Err ValueError.
Proof. exact (@classifier_one_shot). Qed.
Print Assumptions C134_classifier_one_shot_refuted.
Theorem C134_regressor_one_shot_refuted : forall X shape output_dim t n c b (r : list (batch X)), n <> 0 -> t <> 0 -> output_dim (shape b) = 2 * t ->
  regressor_train shape output_dim t n (new_loader (OneShot c (b :: r))) =
  Err (if c then UnboundLocalErr else match r with [] => UnboundLocalErr | _ => TypeError end).
Proof. exact (@regressor_one_shot). Qed.
Print Assumptions C134_regressor_one_shot_refuted.
Theorem C134_fit_one_shot_refuted : forall X shape n c (l : list (batch X)), n <> 0 ->
  map_fit shape n (new_loader (OneShot c l)) = Err (match l with [] => UnboundLocalErr | _ => TypeError end).
Proof. exact (@fit_one_shot). Qed.
Print Assumptions C134_fit_one_shot_refuted.
Theorem C134_validation_one_shot_refuted : forall X shape n c (l : list (batch X)), n <> 0 ->
  map_validate shape n (new_loader (OneShot c l)) = Err TypeError.
Proof. exact (@validate_one_shot). Qed.
Print Assumptions C134_validation_one_shot_refuted.
(** the truth value has used the calibration data up before calibration starts *)
Theorem C134_calibration_one_shot_refuted : forall X shape c (l : list (batch X)), l <> [] ->
  exists d, calib_step shape (Some (new_loader (OneShot c l))) = Some d /\
    forall os, ~ In OLabels os -> Forall2 (answers shape []) os (fst (exec_all shape os d)).
Proof. exact (@calib_one_shot). Qed.
Print Assumptions C134_calibration_one_shot_refuted.

Example C134_case_classifier :
  classifier_train toy_shape (fun _ => 2) 2 (new_loader (Reusable toy_batches)) = Ok (5, [toy_batches; toy_batches]) /\
  classifier_train toy_shape (fun _ => 3) 2 (new_loader (Reusable toy_batches)) = Err ValueError /\
  classifier_train toy_shape (fun _ => 2) 2 (new_loader (Calls toy_shuffled 0)) = Ok (5, [rev toy_batches; toy_batches]) /\
  classifier_train toy_shape (fun _ => 2) 2 (new_loader (OneShot true toy_batches)) = Err ValueError.
Proof. repeat split. Qed.
Example C134_case_regressor :
  regressor_train toy_shape (fun _ => 2) 1 1 (new_loader (Reusable toy_batches)) = Ok (5, [toy_batches]) /\
  regressor_train toy_shape (fun _ => 2) 1 1 (new_loader (OneShot true toy_batches)) = Err UnboundLocalErr /\
  regressor_train toy_shape (fun _ => 2) 1 1 (new_loader (OneShot false toy_batches)) = Err TypeError.
Proof. repeat split. Qed.
Example C134_case_validation :
  map_validate toy_shape 2 (new_loader (Reusable toy_batches)) = Ok (5, [toy_batches; toy_batches]) /\
  map_validate toy_shape 1 (new_loader (OneShot true toy_batches)) = Err TypeError /\
  calib_step toy_shape (Some (new_loader (Reusable []))) = None /\
  calib_step toy_shape (Some (new_loader (OneShot true toy_batches))) = Some (new_loader (OneShot true [])).
Proof. repeat split. Qed.
