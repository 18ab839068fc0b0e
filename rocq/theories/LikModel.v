(** Model of fortuna/likelihood/base.py (log joint probability), fortuna/prob_model/joint,
    fortuna/model/model_manager (plain classification and regression managers),
    fortuna/output_calibrator/output_calib_manager, fortuna/prob_model/prior/gaussian.py and
    fortuna/kernel_regression. *)
From Coq Require Import List Arith ZArith QArith Bool String Reals.
From Verif Require Import Lib QuantModel ConfRegModel TempModel PredModel.
Import ListNotations.
Local Notation length := List.length.
Open Scope Q_scope.
Local Notation "a >>= f" := (bind a f) (at level 61, left associativity).

(** a Python value that is an array or a pair (array, auxiliary) *)
Inductive pyout (O M : Type) := Arr (o : O) | Tup (o : O) (m : M).
Arguments Arr {O M} o.
Arguments Tup {O M} o m.

(** ---- model managers ---- *)
(** model/model_manager/classification.py:49-99 without a model editor.  [net train m x]
    is the forward pass with mutable variables [m] and returns outputs and new mutables;
    flax returns a pair exactly when mutable collections are requested. *)
Definition class_apply {X O M} (net : bool -> option M -> X -> O * M) (train : bool) (mutable : option M) (x : X) : pyout O M :=
  let has_aux := train && match mutable with Some _ => true | None => false end in
  let raw := match mutable with None => Arr (fst (net train None x)) | Some m => Tup (fst (net train (Some m) x)) (snd (net train (Some m) x)) end in
  let raw := match raw with Tup o _ => if has_aux then raw else Arr o | Arr o => Arr o end in
  match raw with Tup o m => Tup o m | Arr o => Arr o end.

(** model/model_manager/regression.py:49-140 without a model editor: [m_mut] and [v_mut]
    are the mutable collections of the mean and of the log-variance model inside [mutable];
    an immutable FrozenDict makes the assignments of lines 67-68 raise *)
Record reg_mutable (M : Type) := { rm_model : option M; rm_lik_log_var : option M }.
Arguments rm_model {M} r.
Arguments rm_lik_log_var {M} r.
Definition reg_apply {X M} (net var : bool -> option M -> X -> list (list Q) * M) (train frozen : bool)
    (mutable : option (reg_mutable M)) (x : X) : result (pyout (list (list Q)) (reg_mutable M)) :=
  match mutable with
  | Some _ => if frozen then Err ValueError else Ok tt
  | None => Ok tt
  end >>= fun _ =>
  let m_mut := match mutable with Some r => rm_model r | None => None end in
  let v_mut := match mutable with Some r => rm_lik_log_var r | None => None end in
  let out_m := net train m_mut x in
  let out_v := var train v_mut x in
  let m_new := match m_mut with Some m => Some (if train then snd out_m else m) | None => None end in
  let v_new := match v_mut with Some m => Some (if train then snd out_v else m) | None => None end in
  if existsb (fun p => negb (length (fst p) =? length (snd p))%nat) (combine (fst out_m) (fst out_v)) then Err ValueError
  else
    let outputs := map (fun p => fst p ++ snd p) (combine (fst out_m) (fst out_v)) in
    (* lines 103-109: the log-variance entry is filled with the mean model's mutable *)
    let aux := {| rm_model := m_new; rm_lik_log_var := match v_new with Some _ => m_new | None => None end |} in
    match m_new, v_new with
    | None, None => Ok (Arr outputs)
    | _, _ => Ok (Tup outputs aux)
    end.

(** output_calibrator/output_calib_manager/base.py:26-82 for an optional calibrator *)
Definition calib_apply {O C} (calibrator : option (bool -> option C -> O -> O * C)) (params_given : bool) (mutable : option C) (calib : bool) (o : O) : result (pyout O C) :=
  match calibrator with
  | None => Ok (Arr o)
  | Some f =>
      if negb params_given then Err AttributeError
      else match mutable with
           | Some m => if calib then Ok (Tup (fst (f calib (Some m) o)) (snd (f calib (Some m) o))) else Ok (Arr (fst (f calib (Some m) o)))
           | None => Ok (Arr (fst (f calib None o)))
           end
  end.

(** ---- likelihood/base.py:173-206: checks, in the order of the code ---- *)
Definition in_aux (s : string) (return_aux : list string) : bool := existsb (String.eqb s) return_aux.
Definition supported (s : string) : bool := in_aux s ["outputs"; "mutable"; "calib_mutable"]%string.
(** sum of a non-empty list of strings raises TypeError before the comparison *)
Definition lik_checks (return_aux : list string) (train outputs_given mutable_given : bool) : result unit :=
  if negb (length (filter (fun s => negb (supported s)) return_aux) =? 0)%nat then Err TypeError
  else if train && outputs_given then Err ValueError
  else if in_aux "mutable" return_aux && outputs_given then Err ValueError
  else if negb train && in_aux "mutable" return_aux then Err ValueError
  else if in_aux "mutable" return_aux && negb mutable_given then Err ValueError
  else if negb (in_aux "mutable" return_aux) && mutable_given && train then Err ValueError
  else Ok tt.

Record lik_aux (O M C : Type) := { aux_outputs : option O; aux_mutable : option (option M); aux_calib : option (option C) }.
Arguments aux_outputs {O M C} l.
Arguments aux_mutable {O M C} l.
Arguments aux_calib {O M C} l.
(** likelihood/base.py:125-264.  [apply] is the model manager on the inputs of the batch,
    [manager] the output calibration manager ([None]: no manager; [Some None]: a manager
    without calibrator), [log_prob] the output layer.  An array operation applied to a pair
    is a TypeError.  Without a manager, unpacking [calib_mutable] is not modelled
    ([RuntimeError]). *)
Definition lik_log_joint {O M C T} (apply : bool -> option M -> pyout O M) (manager : option (option (bool -> option C -> O -> O * C)))
    (log_prob : O -> list T -> list Q) (targets : list T) (n_data : nat) (mutable : option M) (calib_params_given : bool) (calib_mutable : option (option C))
    (return_aux : list string) (train : bool) (outputs : option O) : result (Q * option (lik_aux O M C)) :=
  let want_m := in_aux "mutable" return_aux in
  let want_c := in_aux "calib_mutable" return_aux in
  lik_checks return_aux train (match outputs with Some _ => true | None => false end) (match mutable with Some _ => true | None => false end) >>= fun _ =>
  (* lines 209-221: outputs, the variable outs (if assigned) and the new mutable *)
  match outputs with
  | Some o => Ok (o, None, mutable)
  | None =>
      let outs := apply train mutable in
      if want_m then match outs with Tup o m => Ok (o, Some outs, Some m) | Arr _ => Err ValueError end
      else match outs with Arr o => Ok (o, Some outs, mutable) | Tup _ _ => Err TypeError end
  end >>= fun '((o, outs), mutable') =>
  let calib_m := match calib_mutable with Some c => c | None => None end in
  (* lines 224-249 *)
  match manager with
  | Some calibrator =>
      calib_apply calibrator calib_params_given calib_m want_c o >>= fun r =>
      match calib_m, want_c, r with
      | Some _, true, Tup o' c => Ok (o', Some (Some c))
      | Some _, true, Arr _ => Err ValueError
      | _, _, Arr o' => Ok (o', if want_c then Some None else None)
      | _, _, Tup _ _ => Err TypeError
      end
  | None =>
      match outs with
      | None => Err UnboundLocalErr
      | Some (Arr o') => match calib_m, want_c with Some _, true => Err RuntimeError | _, _ => Ok (o', if want_c then Some None else None) end
      | Some (Tup _ _) => Err TypeError
      end
  end >>= fun '(o', aux_c) =>
  let value := qsum (log_prob o' targets) * (inject_Z (Z.of_nat n_data) / inject_Z (Z.of_nat (length targets))) in
  Ok (value, if (length return_aux =? 0)%nat then None
             else Some {| aux_outputs := if in_aux "outputs" return_aux then Some o' else None;
                          aux_mutable := if want_m then Some mutable' else None; aux_calib := aux_c |}).

(** prob_model/joint/base.py:54-122 *)
Definition joint_log_prob {A} (log_prior : Q) (lik : list string -> result (Q * option A)) (return_aux : option (list string)) : result (Q * option A) :=
  lik (match return_aux with Some l => l | None => [] end) >>= fun '(v, aux) => Ok (v + log_prior, aux).
(** prob_model/joint/base.py:124-155: len(None) raises when return_aux is not given *)
Definition joint_neg_log_prob {A} (log_prior : Q) (lik : list string -> result (Q * option A)) (return_aux : option (list string)) : result (Q * option A) :=
  joint_log_prob log_prior lik return_aux >>= fun '(v, aux) =>
  match return_aux with None => Err TypeError | Some _ => Ok (- v, aux) end.

(** ---- model/model_manager/state.py:35-66: split variables into parameters and mutables ---- *)
Definition split_variables {A} (d : list (string * list (string * A))) : result (list (string * A) * option (list (string * list (string * A)))) :=
  match mapM (fun kv => match find (fun p => String.eqb (fst p) "params") (snd kv) with Some p => Ok (fst kv, snd p) | None => Err KeyError end) d with
  | Err e => Err e
  | Ok params =>
      let mutable := map (fun kv => (fst kv, filter (fun p => negb (String.eqb (fst p) "params")) (snd kv))) d in
      Ok (params, if existsb (fun kv => negb (length (snd kv) =? 0)%nat) mutable then Some mutable else None)
  end.

Open Scope R_scope.
(** ---- prob_model/prior/gaussian.py ---- *)
Definition rsquares (l : list R) : R := rsum (map (fun x => x * x) l).
Definition isotropic_log_prob (log_var : R) (params : list R) : R :=
  - / 2 * (exp (- log_var) * rsquares params + INR (length params) * (ln (2 * PI) + log_var)).
(** lines 57-61 for a log-variance per parameter *)
Definition diagonal_log_prob (log_vars params : list R) : R :=
  - / 2 * rsum (map (fun p => exp (- fst p) * (snd p * snd p) + ln (2 * PI) + fst p) (combine log_vars params)).
Definition isotropic_sample (log_var : R) (noise : list R) : list R := map (fun e => exp (/ 2 * log_var) * e) noise.
Definition diagonal_sample (log_vars noise : list R) : list R := map (fun p => exp (/ 2 * fst p) * snd p) (combine log_vars noise).

(** ---- kernel_regression/nadaraya_watson.py ---- *)
Definition rmean (l : list R) : R := rsum l / INR (length l).
Definition rstd (l : list R) : R := sqrt (rmean (map (fun x => (x - rmean l) * (x - rmean l)) l)).
Definition gaussian_kernel (x : R) : R := exp (- / 2 * (x * x)) / sqrt (2 * PI).
Record nw := { nw_inputs : list R; nw_mean : R; nw_std : R; nw_targets : list R }.
(** lines 11-44; arrays are one-dimensional.  A zero standard deviation gives NaN, not an
    error; see [nw_predict] *)
Definition nw_init (inputs targets : list R) : result nw :=
  if negb (length inputs =? length targets)%nat then Err ValueError
  else Ok {| nw_inputs := inputs; nw_mean := rmean targets; nw_std := rstd targets;
             nw_targets := map (fun y => (y - rmean targets) / rstd targets) targets |}.
Definition scaled_kernel (kernel : R -> R) (bandwidth x : R) : R := kernel (x / bandwidth) / bandwidth.
(** lines 46-75; [None] is the NaN of 0/0 *)
Definition nw_predict (kernel : R -> R) (bandwidth : R) (r : nw) (x : R) : option R :=
  let ks := map (fun xi => scaled_kernel kernel bandwidth (x - xi)) (nw_inputs r) in
  if Req_EM_T (nw_std r) 0 then None
  else if Req_EM_T (rsum ks) 0 then None
  else Some (rsum (map (fun p => fst p * snd p) (combine ks (nw_targets r))) / rsum ks * nw_std r + nw_mean r).
