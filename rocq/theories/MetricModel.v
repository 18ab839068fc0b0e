(** Model of fortuna/metric/classification.py and fortuna/metric/regression.py.

    Numbers are rationals, except for the square roots of two metrics.  Not modelled:
    plotting and TargetsLoader arguments (an array is passed).  The mean of an empty
    array, NaN in the code, is 0 here; theorems assume non-empty data. *)
From Coq Require Import List Arith ZArith QArith Qminmax Qabs Bool Reals Qreals.
From Verif Require Import Lib QuantModel ConfRegModel ConfClassModel.
Import ListNotations.
Open Scope Q_scope.

(** ---- arrays and broadcasting ---- *)
(** one- and two-dimensional arrays of numbers (rows of a matrix have equal lengths) *)
Inductive arr := A1 (l : list Q) | A2 (rows : list (list Q)).

(** jax/numpy broadcasting along one axis: equal sizes, or one of them of size one *)
Definition bc {A B C} (f : A -> B -> result C) (l : list A) (m : list B) : result (list C) :=
  if (length l =? length m)%nat then mapM (fun p => f (fst p) (snd p)) (combine l m)
  else match l, m with
       | [x], _ => mapM (f x) m
       | _, [y] => mapM (fun x => f x y) l
       | _, _ => Err TypeError
       end.
Definition bc1 {A B C} (f : A -> B -> C) : list A -> list B -> result (list C) := bc (fun x y => Ok (f x y)).
(** a - b; a one-dimensional array becomes a row *)
Definition asub (a b : arr) : result arr :=
  match a, b with
  | A1 a, A1 b => rmap A1 (bc1 Qminus a b)
  | A1 a, A2 b => rmap A2 (bc (bc1 Qminus) [a] b)
  | A2 a, A1 b => rmap A2 (bc (bc1 Qminus) a [b])
  | A2 a, A2 b => rmap A2 (bc (bc1 Qminus) a b)
  end.
(** jnp.sum(f(a), axis=1): a one-dimensional array has no axis 1 *)
Definition sum_axis1 (f : Q -> Q) (a : arr) : result (list Q) :=
  match a with
  | A1 _ => Err ValueError
  | A2 rows => Ok (map (fun r => qsum (map f r)) rows)
  end.

(** ---- regression.py ---- *)
(** lines 30-46 *)
Definition mse (preds targets : arr) : result Q :=
  bind (asub preds targets) (fun d => rmap qmean (sum_axis1 (fun z => z * z) d)).
(** lines 78-94 *)
Definition mae (preds targets : arr) : result Q :=
  bind (asub preds targets) (fun d => rmap qmean (sum_axis1 Qabs d)).
(** lines 6-22 and 54-70 *)
Definition rmse (preds targets : arr) : result R := rmap (fun q => sqrt (Q2R q)) (mse preds targets).
Definition rmae (preds targets : arr) : result R := rmap (fun q => sqrt (Q2R q)) (mae preds targets).

(** lines 127-147: a one-dimensional array becomes a column, a matrix must have one column *)
Definition as_column (a : arr) : result (list Q) :=
  match a with
  | A1 l => Ok l
  | A2 rows => mapM (fun r => match r with [x] => Ok x | _ => Err ValueError end) rows
  end.
(** lines 102-151 *)
Definition picp (lower upper targets : arr) : result Q :=
  bind (as_column targets) (fun ts =>
  bind (as_column upper) (fun us =>
  bind (as_column lower) (fun ls =>
  bind (bc1 Qle_bool ts us) (fun su =>
  bind (bc1 (fun t l => Qle_bool l t) ts ls) (fun sl =>
  rmap (fun bs => qmean (map of_bool bs)) (bc1 andb sl su)))))).

(** ---- classification.py ---- *)
(** lines 16-40 *)
Definition accuracy (preds targets : list Z) : result Q :=
  rmap (fun bs => qmean (map of_bool bs)) (bc1 Z.eqb preds targets).

(** lines 74-77: confidences, one per data point *)
Definition confidences (probs : arr) : list Q :=
  match probs with A1 l => l | A2 rows => map qmax_list rows end.
(** line 76: len(probs) is the number of data points *)
Definition thresholds (n : nat) : list Q := linspace (1 / inject_Z (Z.of_nat n)) 1 10.
(** lines 78-82: membership of bin i *)
Definition in_bin (n i : nat) (p : Q) : bool :=
  match i with
  | O => Qle_bool p (nth 0 (thresholds n) 0)
  | S j => Qle_bool p (nth i (thresholds n) 0) && Qlt_bool (nth j (thresholds n) 0) p
  end.
(** jnp.nan_to_num(jnp.mean(l)) *)
Definition mean0 (l : list Q) : Q := match l with [] => 0 | _ => qmean l end.
Record bin := { b_count : nat; b_conf : Q; b_acc : Q }.
(** lines 83-87 on the data points of one bin: confidence, and whether the prediction
    equals the target (diff == 0) *)
Definition make_bin (l : list (Q * bool)) : bin :=
  {| b_count := length l; b_conf := mean0 (map fst l); b_acc := mean0 (map (fun p => of_bool (snd p)) l) |}.
(** lines 43-95.  Arrays of different lengths are rejected here. *)
Definition bins_of (preds : list Z) (confs : list Q) (targets : list Z) : result (list bin) :=
  if negb (length preds =? length confs)%nat || negb (length targets =? length confs)%nat then Err TypeError
  else
    let data := combine confs (zip_with (fun t p => (t - p =? 0)%Z) targets preds) in
    Ok (map (fun i => make_bin (filter (fun d => in_bin (length confs) i (fst d)) data)) (seq 0 10)).
Definition gap (b : bin) : Q := inject_Z (Z.of_nat (b_count b)) * Qabs (b_acc b - b_conf b).
(** lines 98-133 *)
Definition ece (preds : list Z) (probs : arr) (targets : list Z) : result Q :=
  rmap (fun bs => qsum (map gap bs) / inject_Z (Z.of_nat (length preds))) (bins_of preds (confidences probs) targets).
(** lines 147-181: the largest entry of counts * |accs - confs|, not divided by anything *)
Definition mce (preds : list Z) (probs : arr) (targets : list Z) : result Q :=
  rmap (fun bs => qmax_list (map gap bs)) (bins_of preds (confidences probs) targets).

(** jax.nn.one_hot: a label outside the range gives a row of zeros *)
Definition one_hot (k : nat) (y : Z) : list Q := map (fun j => of_bool (y =? Z.of_nat j)%Z) (seq 0 k).
(** lines 195-220.  probs.shape[-1] of a matrix without rows is taken to be 0. *)
Definition brier_score (probs : arr) (targets : list Z) : result Q :=
  match probs with
  | A2 rows => mse probs (A2 (map (one_hot (n_columns rows)) targets))
  | A1 l => rmap (fun d => qmean (map (fun z => z * z) d)) (bc1 Qminus l (map inject_Z targets))
  end.
