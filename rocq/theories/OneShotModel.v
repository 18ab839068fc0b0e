(** Model of the one-shot multicalibrators as objects:
    fortuna/conformal/multivalid/base.py, one_shot/base.py, one_shot/multicalibrator.py,
    one_shot/classification/binary_multicalibrator.py,
    one_shot/classification/top_label_multicalibrator.py and the mixins they inherit from
    (mixins/classification/).

    Arrays hold numbers and have one or two axes; NaN does not occur.  Calibration and test
    arrays have at least one point, rows of a matrix at least one entry, and [n_buckets] is
    positive.  The arithmetic is exact.  A retrieval index beyond an axis is clamped, which is
    what jax does. *)
From Coq Require Import List Arith ZArith QArith Qabs Bool.
From Verif Require Import Lib QuantModel ConfRegModel ConfClassModel MultiModel.
Import ListNotations.
Open Scope Q_scope.

Inductive array := Vec (l : list Q) | Mat (rows : list (list Q)).
(** an array and whether its dtype is int32 or int64 *)
Record typed := { t_array : array; t_int : bool }.

(** the three classes; OneShotTopLabelMulticalibrator has [n_classes]
    (mixins/classification/top_label_multicalibrator.py:10-24) *)
Inductive kind := Plain | Binary | TopLabel (n_classes : nat).

(** base.py:20-23: attributes of a calibrator; patches per bucket and dimension *)
Record calibrator := { o_patches : option (list (list Q)); o_n_buckets : option nat }.
Definition fresh : calibrator := {| o_patches := None; o_n_buckets := None |}.

Definition outside (x : Q) : bool := Qlt_bool x 0 || Qlt_bool 1 x.
Definition entries (a : array) : list Q := match a with Vec l => l | Mat rows => concat rows end.
Definition is_vec (a : array) : bool := match a with Vec _ => true | Mat _ => false end.

(** base.py:54-59, mixins/classification/binary_multicalibrator.py:34-41,
    mixins/classification/top_label_multicalibrator.py:45-47 *)
Definition check_scores (k : kind) (t : typed) : result unit :=
  match k with
  | Plain => if negb (is_vec (t_array t)) then Err ValueError
             else if existsb outside (entries (t_array t)) then Err ValueError else Ok tt
  | Binary =>
      let l := entries (t_array t) in
      if negb (is_vec (t_array t)) then Err ValueError
      else if negb (forallb (fun y => Qeq_bool y 0 || Qeq_bool y 1) l && existsb (fun y => Qeq_bool y 0) l && existsb (fun y => Qeq_bool y 1) l) then Err ValueError
      else if negb (t_int t) then Err ValueError else Ok tt
  | TopLabel _ => Ok tt
  end.
(** base.py:41-52, mixins/classification/binary_multicalibrator.py:13-32,
    mixins/classification/top_label_multicalibrator.py:49-68 *)
Definition check_values (k : kind) (values : array) (test : option array) : result unit :=
  let wrong a := match k with TopLabel _ => is_vec a | _ => negb (is_vec a) end in
  let wrong_test a := match k with Plain => false | _ => wrong a end in
  if wrong values then Err ValueError
  else if existsb outside (entries values) then Err ValueError
  else match test with
       | None => Ok tt
       | Some a => if wrong_test a then Err ValueError else if existsb outside (entries a) then Err ValueError else Ok tt
       end.
(** mixins/classification/top_label_multicalibrator.py:31-43 and base.py:61-66: the scores as
    rows; stacking the columns of no class is an error *)
Definition get_scores (k : kind) (t : typed) : result (list (list Q)) :=
  match k with
  | TopLabel m =>
      if negb (is_vec (t_array t)) then Err ValueError
      else if negb (t_int t) then Err ValueError
      else if (m =? 0)%nat then Err ValueError
      else Ok (map (fun y => map (fun i => of_bool (Qeq_bool y (inject_Z (Z.of_nat i)))) (seq 0 m)) (entries (t_array t)))
  | _ => match t_array t with Vec l => Ok (map (fun y => [y]) l) | Mat rows => Ok rows end
  end.

(** one_shot/base.py:123-130 and
    one_shot/classification/top_label_multicalibrator.py:43-50, over the points *)
Definition get_b (n : nat) (values : array) (v : Q) (c : nat) : list bool :=
  match values with
  | Vec l => map (near n v) l
  | Mat rows => map (fun row => near n v (nth c row 0) && (argmax row =? c)%nat) rows
  end.
(** stretching of an axis of length one *)
Definition stretch {A} (n : nat) (l : list A) : list A := match l with [x] => repeat x n | _ => l end.
Definition common_length (n m : nat) : result nat :=
  if (n =? m)%nat then Ok n else if (n =? 1)%nat then Ok m else if (m =? 1)%nat then Ok n else Err TypeError.
(** one_shot/multicalibrator.py:12-26 *)
Definition get_patch (n : nat) (min_prob : Q) (scores : list Q) (values : array) (v : Q) (c : nat) : result Q :=
  let bs := get_b n values v c in
  bind (common_length (length scores) (length bs)) (fun len =>
    let filtered := zip_with (fun s b => s * of_bool b) (stretch len scores) (stretch len bs) in
    Ok (if Qlt_bool min_prob (prob_of bs) then qmean filtered / prob_of bs else v)).

Definition clamped {A} (d : A) (i : nat) (l : list A) : A := nth (Nat.min i (length l - 1)) l d.
Definition lookup (patches : list (list Q)) (j c : nat) : Q := clamped 0 c (clamped [] j patches).
(** one_shot/base.py:132-147 over the values of one axis and over a matrix; [b] is always
    computed on the original values *)
Definition patch_vec (n : nat) (patches : list (list Q)) (l : list Q) : list Q :=
  fold_left (fun acc v => zip_with (fun x y => if near n v x then lookup patches (one_shot_index n v) 0 else y) l acc) (unique_q l) l.
Definition patch_row (n : nat) (patches : list (list Q)) (v : Q) (row acc : list Q) : list Q :=
  fold_left (fun acc c => if near n v (nth c row 0) && (argmax row =? c)%nat then set_nth c (lookup patches (one_shot_index n v) c) acc else acc)
    (seq 0 (length row)) acc.
Definition patch_mat (n : nat) (patches : list (list Q)) (rows : list (list Q)) : list (list Q) :=
  fold_left (fun acc v => zip_with (patch_row n patches v) rows acc) (unique_q (concat rows)) rows.
(** one_shot/base.py:99-121; an array with the wrong number of axes is indexed along an axis it
    does not have, or by a mask with too many axes *)
Definition apply_patches (k : kind) (o : calibrator) (values : array) : result array :=
  match o_patches o, o_n_buckets o with
  | Some patches, Some n =>
      match k, values with
      | TopLabel _, Mat rows => Ok (Mat (patch_mat n patches rows))
      | TopLabel _, Vec _ => Err IndexError
      | _, Vec l => Ok (Vec (patch_vec n patches l))
      | _, Mat _ => Err IndexError
      end
  | _, _ => Ok values
  end.

(** one_shot/base.py:29-97, one_shot/classification/binary_multicalibrator.py:19-33,
    one_shot/classification/top_label_multicalibrator.py:21-35: the value returned and the
    calibrator afterwards.  The attribute [n_buckets] is assigned before the patches are
    computed. *)
Definition calibrate (k : kind) (o : calibrator) (targets : typed) (values test : option array) (n : nat) (min_prob : option Q)
  : result (option array) * calibrator :=
  match get_scores k targets with
  | Err e => (Err e, o)
  | Ok scores =>
      match values, test with
      | None, Some _ => (Err ValueError, o)
      | _, _ =>
          if match min_prob with None => false | Some p => Qlt_bool p 0 || Qlt_bool 1 p end then (Err ValueError, o)
          else match values with
          | None => (Err ValueError, o)
          | Some vs =>
              match bind (check_scores k targets) (fun _ => check_values k vs test) with
              | Err e => (Err e, o)
              | Ok _ =>
                  let dims := match k with TopLabel m => m | _ => 1%nat end in
                  let p := init_min_prob min_prob n dims in
                  match mapM (fun v => mapM (fun c => get_patch n p (column_of c scores) vs v c) (seq 0 dims)) (get_buckets n) with
                  | Err e => (Err e, {| o_patches := o_patches o; o_n_buckets := Some n |})
                  | Ok patches =>
                      let o' := {| o_patches := Some patches; o_n_buckets := Some n |} in
                      match test with
                      | None => (Ok None, o')
                      | Some a => (rmap Some (apply_patches k o' a), o')
                      end
                  end
              end
          end
      end
  end.
