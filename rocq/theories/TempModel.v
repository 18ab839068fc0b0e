(** Model of fortuna/calibration/binary_classification/temp_scaling,
    fortuna/calibration/classification/temp_scaling/base.py and
    fortuna/output_calibrator/{classification,regression}.py.

    The checks of array dimensions and of the integer type of the targets are typing.
    Binary probabilities are rationals; logarithms and exponentials are real. *)
From Coq Require Import List Arith ZArith QArith Qminmax Bool Reals.
From Verif Require Import Lib QuantModel ConfRegModel ConfClassModel.
Import ListNotations.
Open Scope Q_scope.

(** numpy division of two numbers; None is an infinity or NaN *)
Definition np_div (a b : Q) : option Q := if Qeq_bool b 0 then None else Some (a / b).

(** bias_binary_temp_scaling.py:17-20 *)
Definition fit_bias (ps : list Q) (ys : list Z) : option Q := np_div (qmean ps) (qmean (map inject_Z ys)).
(** brier_binary_temp_scaling.py:17-20 *)
Definition fit_brier (ps : list Q) (ys : list Z) : option Q :=
  np_div (qmean (map (fun p => p * p) ps)) (qmean (zip_with (fun p y => p * inject_Z y) ps ys)).

(** base.py:38 np.clip(p / t, 0, 1) for one probability; for t = 0 numpy divides to an
    infinity, which is clipped, or to NaN (None) *)
Definition scaled (t p : Q) : option Q :=
  if Qeq_bool t 0
  then if Qeq_bool p 0 then None else Some (if Qlt_bool 0 p then 1 else 0)
  else Some (qclip 0 1 (p / t)).
(** base.py:24-38 *)
Definition predict_proba (t : Q) (ps : list Q) : list (option Q) := map (scaled t) ps.
(** base.py:40-58, f1_temp_scaling.py:44-46; a comparison with NaN is false *)
Definition predict (t threshold : Q) (ps : list Q) : list bool :=
  map (fun c => match c with Some x => Qle_bool threshold x | None => false end) (predict_proba t ps).

(** f1_temp_scaling.py:30-38; None is NaN: no positive target *)
Definition f1_loss (ps : list Q) (ys : list Z) (threshold tau : Q) : option Q :=
  let preds := map (fun p => of_bool (Qle_bool (threshold * tau) p)) ps in
  let n_pos_targets := qsum (map inject_Z ys) in
  let n_pos_preds := qsum preds in
  let n_joint := qsum (zip_with (fun y b => inject_Z y * b) ys preds) in
  let prec := if Qlt_bool 0 n_pos_preds then n_joint / n_pos_preds else 0 in
  match np_div n_joint n_pos_targets with
  | None => None
  | Some rec => if Qeq_bool (prec + rec) 0 then Some 0 else Some (- (2) * prec * rec / (prec + rec))
  end.

(** scipy.optimize.brute(loss, ranges=[(lo, hi)], Ns)[0] for one variable: the first
    grid point with the smallest loss, improved by [finish] (scipy: fmin). *)
Section Brute.
Variable N : Type.
Variable leb : N -> N -> bool.
Variable T : Type.
Fixpoint best_from (loss : T -> N) (b : T) (l : list T) : T :=
  match l with
  | [] => b
  | x :: r => if leb (loss b) (loss x) then best_from loss b r else best_from loss x r
  end.
Definition brute (loss : T -> N) (finish : (T -> N) -> T -> T) (first : T) (rest : list T) : T :=
  finish loss (best_from loss first rest).
End Brute.

(** losses that may be NaN are compared as numbers where they are numbers *)
Definition oleb (a b : option Q) : bool := match a, b with Some x, Some y => Qle_bool x y | _, _ => true end.
(** f1_temp_scaling.py:40-42; [finish] improves the grid search *)
Definition fit_f1 (finish : (Q -> option Q) -> Q -> Q) (ps : list Q) (ys : list Z) (threshold : Q) : Q :=
  let grid := linspace (qmin_list ps) (1 / threshold) 1000 in
  brute (option Q) oleb Q (f1_loss ps ys threshold) finish (hd 0 grid) (tl grid).

(** ---- real-valued part ---- *)
Open Scope R_scope.
Definition rsum (l : list R) : R := fold_right Rplus 0 l.
Definition Rleb (x y : R) : bool := if Rle_dec x y then true else false.

(** np.linspace(lo, hi, n) *)
Definition rlinspace (lo hi : R) (n : nat) : list R :=
  map (fun i => lo + INR i * ((hi - lo) / INR (n - 1))) (seq 0 n).

(** crossentropy_binary_temp_scaling.py:22-26, targets are 0 or 1 *)
Definition ce_clip (x : R) : R := Rmin (Rmax x (/ 10 ^ 9)) (1 - / 10 ^ 9).
Definition ce_loss (ps : list R) (ys : list Z) (tau : R) : R :=
  - (rsum (map (fun py => IZR (snd py) * ln (ce_clip (fst py / tau)) + (1 - IZR (snd py)) * ln (1 - ce_clip (fst py / tau))) (combine ps ys))
     / INR (length ps)).
Definition rmin_list (l : list R) : R := match l with [] => 0 | x :: r => fold_right Rmin x r end.
(** crossentropy_binary_temp_scaling.py:28-30 *)
Definition fit_ce (finish : (R -> R) -> R -> R) (ps : list R) (ys : list Z) : R :=
  let grid := rlinspace (rmin_list ps) 10 1000 in
  brute R Rleb R (ce_loss ps ys) finish (hd 0 grid) (tl grid).

(** scipy.special.softmax of a row (in exact arithmetic the maximum need not be subtracted) *)
Definition softmax (xs : list R) : list R := map (fun x => exp x / rsum (map exp xs)) xs.
Definition log_softmax (xs : list R) : list R := map (fun x => x - ln (rsum (map exp xs))) xs.
(** classification/temp_scaling/base.py:40-55 for one row; entries must be positive, as
    the logarithm of 0 is an infinity in the code *)
Definition mc_scaled (t : R) (ps : list R) : list R := softmax (map (fun p => ln p / t) ps).
(** np.argmax of a row: first index of a maximal entry *)
Fixpoint rargmax_from (best : R) (besti i : nat) (l : list R) : nat :=
  match l with
  | [] => besti
  | x :: r => if Rleb x best then rargmax_from best besti (S i) r else rargmax_from x i (S i) r
  end.
Definition rargmax (l : list R) : nat := match l with [] => O | x :: r => rargmax_from x 0 1 r end.
(** base.py:57-72: predictions are made from the uncalibrated probabilities *)
Definition mc_predict (ps : list R) : nat := rargmax ps.
(** base.py:34-36; targets index the columns *)
Definition mc_loss (rows : list (list R)) (ys : list nat) (tau : R) : R :=
  - rsum (map (fun ry => nth (snd ry) (log_softmax (map (fun p => ln p / tau) (fst ry))) 0) (combine rows ys)).
(** base.py:38 *)
Definition fit_mc (finish : (R -> R) -> R -> R) (rows : list (list R)) (ys : list nat) : R :=
  let grid := rlinspace (/ 10 ^ 6) 10 1000 in
  brute R Rleb R (mc_loss rows ys) finish (hd 0 grid) (tl grid).

(** output_calibrator/classification.py:14-17 for one row; log_temp starts at 0 *)
Definition logit_scaler (log_temp : R) (xs : list R) : list R := map (fun x => x * exp (- log_temp)) xs.
(** output_calibrator/regression.py:14-19 for one row: first half means, second half
    log-variances; jnp.split raises on an odd length *)
Definition regression_scaler (log_temp : R) (xs : list R) : result (list R) :=
  if negb (Nat.even (length xs)) then Err ValueError
  else let h := Nat.div (length xs) 2 in
       Ok (firstn h xs ++ map (fun v => v + log_temp) (skipn h xs)).
