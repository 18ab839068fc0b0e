(** The calibration losses: fortuna/loss/classification/cross_entropy.py,
    fortuna/loss/classification/focal_loss.py, fortuna/loss/regression/scaled_mse.py.
    Floating point numbers are real numbers; a result that is infinite or not a number is [None]
    (also the mean over an empty batch).  Labels are natural numbers; a negative label behaves like
    one that is too large, since [jax.nn.one_hot] gives a row of zeros for both. *)
From Coq Require Import List Arith Bool Reals.
From Verif Require Import Lib TempModel PredModel.
Import ListNotations.
Local Notation length := List.length.
Open Scope R_scope.

(** [jnp.mean] of a vector: not a number when it is empty *)
Definition mean_or_nan (l : list R) : option R := match l with [] => None | _ => Some (rmean l) end.
(** all the numbers, or [None] if one of them is not finite *)
Fixpoint all_finite (l : list (option R)) : option (list R) :=
  match l with
  | [] => Some []
  | o :: l' => match o, all_finite l' with Some x, Some xs => Some (x :: xs) | _, _ => None end
  end.

(** loss/classification/cross_entropy.py:8-28: one sample *)
Definition cross_entropy_term (outputs : list R) (y : nat) : R :=
  lse outputs - rsum (map (fun p => fst p * snd p) (combine (one_hot (length outputs) y) outputs)).
(** loss/classification/cross_entropy.py:8-28: mean over the batch *)
Definition cross_entropy (rows : list (list R)) (ys : list nat) : option R :=
  mean_or_nan (map (fun r => cross_entropy_term (fst r) (snd r)) (combine rows ys)).

(** loss/classification/focal_loss.py:10-36: softmax probability picked by the one-hot target *)
Definition target_prob (outputs : list R) (y : nat) : R :=
  rsum (map (fun p => fst p * snd p) (combine (softmax outputs) (one_hot (length outputs) y))).
(** [x ** gamma] for a non-negative base *)
Definition power (x gamma : R) : option R :=
  if Rlt_dec 0 x then Some (Rpower x gamma)
  else if Req_EM_T gamma 0 then Some 1
  else if Rlt_dec 0 gamma then Some 0 else None.
(** loss/classification/focal_loss.py:10-36: one sample, before the sign change *)
Definition focal_term (gamma : R) (outputs : list R) (y : nat) : option R :=
  let p := target_prob outputs y in
  match power (1 - p) gamma with
  | Some w => if Rlt_dec 0 p then Some (w * ln p) else None
  | None => None
  end.
(** loss/classification/focal_loss.py:10-36: minus the mean over the batch; [gamma] is 2.0 by default *)
Definition focal_loss (gamma : R) (rows : list (list R)) (ys : list nat) : option R :=
  match all_finite (map (fun r => focal_term gamma (fst r) (snd r)) (combine rows ys)) with
  | Some l => match mean_or_nan l with Some m => Some (- m) | None => None end
  | None => None
  end.

(** loss/regression/scaled_mse.py:6-26: one data point; [jnp.split] raises when the width is odd.
    Targets are as wide as the means (broadcasting of narrower targets is not modelled). *)
Definition scaled_mse_term (outputs targets : list R) : result R :=
  rmap (fun mv => rsum (map (fun q => let '(y, (m, lv)) := q in exp (- lv) * ((y - m) * (y - m)) + lv) (combine targets (combine (fst mv) (snd mv))))) (halves outputs).
(** loss/regression/scaled_mse.py:6-26: mean over the batch *)
Definition scaled_mse (rows ys : list (list R)) : result (option R) :=
  rmap mean_or_nan (mapM (fun r => scaled_mse_term (fst r) (snd r)) (combine rows ys)).
