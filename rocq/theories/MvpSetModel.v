(** Model of the sets of fortuna/conformal/multivalid/iterative/regression/batch_mvp.py:26-69 and
    of ConformalClassifier.is_in, fortuna/conformal/classification/base.py:19-35.

    Arrays have one or two axes and hold numbers.  The assignment sets[idx] = nested list is
    modelled as assigning one inner list per index (an object array indexed by a 32-bit index
    array).  An entry of the object array is None (the integer 0 the array starts with) or a list
    of labels. *)
From Coq Require Import List Arith ZArith QArith Bool.
From Verif Require Import Lib QuantModel ConfRegModel ConfClassModel OneShotModel.
Import ListNotations.
Open Scope Q_scope.

(** line 62: one row per point *)
Definition bools (class_scores : list (list Q)) (thresholds : list Q) : list (list bool) :=
  map (fun p => map (fun s => Qle_bool s (snd p)) (fst p)) (combine class_scores thresholds).
(** reshape(k, s) *)
Definition reshape {A} (k s : nat) (l : list A) : list (list A) := map (fun i => firstn s (skipn (i * s) l)) (seq 0 k).
(** lines 64-69 *)
Definition sets_of (bs : list (list bool)) : list (option (list nat)) :=
  let sizes := map (fun row => length (filter (fun b => b) row)) bs in
  fold_left (fun sets s =>
      let idx := filter (fun i => (nth i sizes O =? s)%nat) (seq 0 (length bs)) in
      assign idx (map Some (reshape (length idx) s (flat_map (fun i => true_columns (nth i bs [])) idx))) sets)
    (unique_nat sizes) (repeat None (length bs)).
(** lines 26-69 *)
Definition conformal_set (class_scores thresholds : array) : result (list (option (list nat))) :=
  match class_scores, thresholds with
  | Vec _, _ => Err ValueError
  | _, Mat _ => Err ValueError
  | Mat rows, Vec ths => if (length rows =? length ths)%nat then Ok (sets_of (bools rows ths)) else Err ValueError
  end.
(** classification/base.py:19-35; a label cannot be looked up in an integer *)
Definition is_in (values : list nat) (sets : list (option (list nat))) : result (list bool) :=
  mapM (fun p => match snd p with Some s => Ok (set_is_in (fst p) s) | None => Err TypeError end) (combine values sets).
