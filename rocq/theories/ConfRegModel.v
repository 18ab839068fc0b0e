(** Model of fortuna/conformal/regression: base.py, quantile.py,
    onedim_uncertainty.py, jackknifeplus.py, jackknife_minmax.py, cvplus.py,
    enbpi.py, adaptive_conformal_regressor.py.

    Arrays are lists; two-dimensional arrays with a second dimension of size one are
    identified with one-dimensional ones (the checks that only look at ndim or at a
    trailing dimension are not modelled).  Where numpy broadcasting of arrays with
    different sizes would be needed the model raises TypeError; broadcasting of a
    size-one array is not modelled.  Numbers are rationals. *)
From Coq Require Import List Arith ZArith QArith Qround Qminmax Qabs Bool.
From Verif Require Import Lib QuantModel.
Import ListNotations.
Open Scope Q_scope.

Definition interval : Type := Q * Q.

(** base.py:9-27 *)
Definition is_in (y : Q) (i : interval) : bool := Qle_bool y (snd i) && Qle_bool (fst i) y.
Definition are_in (ys : list Q) (is : list interval) : list bool :=
  map (fun yi => is_in (fst yi) (snd yi)) (combine ys is).

(** element-wise combination of arrays of the same size *)
Definition zip_with {A B C} (f : A -> B -> C) (l : list A) (m : list B) : list C :=
  map (fun p => f (fst p) (snd p)) (combine l m).
Definition broadcast {A B C} (f : A -> B -> C) (l : list A) (m : list B) : result (list C) :=
  if (length l =? length m)%nat then Ok (zip_with f l m) else Err TypeError.

(** quantile.py:33-51 *)
Definition quantile_score1 (lo hi y : Q) : Q := Qmax (lo - y) (y - hi).
Definition quantile_score (los his ys : list Q) : result (list Q) :=
  if (length los =? length his)%nat
  then broadcast (fun b y => quantile_score1 (fst b) (snd b) y) (combine los his) ys
  else Err ValueError.

(** quantile.py:86-90 = onedim_uncertainty.py:87-90 *)
Definition split_level (n : nat) (error : Q) : Q :=
  inject_Z (Qceiling (inject_Z (Z.of_nat (n + 1)) * (1 - error))) / inject_Z (Z.of_nat n).
Definition split_quantile (scores : list Q) (error : Q) : result Q :=
  if Qlt_bool error 0 || Qlt_bool 1 error then Err ValueError
  else Ok (quantile scores (split_level (length scores) error)).

(** quantile.py:53-90 with scores not given *)
Definition quantile_quantile (los his ys : list Q) (error : Q) : result Q :=
  if Qlt_bool error 0 || Qlt_bool 1 error then Err ValueError
  else bind (quantile_score los his ys) (fun s => split_quantile s error).

(** quantile.py:92-179 *)
Definition quantile_interval1 (q lo hi : Q) : interval := (lo - q, hi + q).
Definition quantile_interval (vlo vhi tlo thi ys : list Q) (error : Q) : result (list interval) :=
  if negb (length vlo =? length vhi)%nat then Err ValueError
  else if negb (length tlo =? length thi)%nat then Err ValueError
  else bind (quantile_quantile vlo vhi ys error) (fun q => Ok (zip_with (quantile_interval1 q) tlo thi)).

(** onedim_uncertainty.py:10-52 *)
Definition uncert_score1 (mu u y : Q) : Q := Qabs (y - mu) / u.
Definition uncert_score (mus us ys : list Q) : result (list Q) :=
  if existsb (fun u => Qle_bool u 0) us then Err ValueError
  else if (length mus =? length us)%nat
  then broadcast (fun b y => uncert_score1 (fst b) (snd b) y) (combine mus us) ys
  else Err TypeError.

(** onedim_uncertainty.py:54-90 *)
Definition uncert_quantile (mus us ys : list Q) (error : Q) : result Q :=
  if Qlt_bool error 0 || Qlt_bool 1 error then Err ValueError
  else bind (uncert_score mus us ys) (fun s => split_quantile s error).

(** onedim_uncertainty.py:92-150 *)
Definition uncert_interval1 (q mu u : Q) : interval := (mu - u * q, mu + u * q).
Definition uncert_interval (vmu vu tmu tu ys : list Q) (error : Q) : result (list interval) :=
  if existsb (fun u => Qle_bool u 0) tu then Err ValueError
  else bind (uncert_quantile vmu vu ys error) (fun q =>
       broadcast (uncert_interval1 q) tmu tu).

(** column t of a matrix given by rows *)
Definition column (t : nat) (rows : list (list Q)) : list Q := map (fun r => nth t r 0) rows.
Definition n_columns (rows : list (list Q)) : nat := match rows with [] => 0%nat | r :: _ => length r end.

(** jackknifeplus.py:77-83 at one test point: mus = outputs of the leave-one-out
    models there, rs = leave-one-out residuals *)
Definition jack_plus1 (mus rs : list Q) (error : Q) : interval :=
  (quantile (zip_with Qminus mus rs) error, quantile (zip_with Qplus mus rs) (1 - error)).
Definition residuals (outputs targets : list Q) : list Q := zip_with (fun mu y => Qabs (y - mu)) outputs targets.

(** jackknifeplus.py:14-83 *)
Definition jack_plus (outputs targets : list Q) (test : list (list Q)) (error : Q) : result (list interval) :=
  if negb (length outputs =? length targets)%nat then Err ValueError
  else if negb (length test =? length outputs)%nat then Err TypeError
  else Ok (map (fun t => jack_plus1 (column t test) (residuals outputs targets) error) (seq 0 (n_columns test))).

(** jackknife_minmax.py:78-82 at one test point *)
Definition jack_minmax1 (mus rs : list Q) (error : Q) : interval :=
  (qmin_list mus - quantile rs (1 - error), qmax_list mus + quantile rs (1 - error)).

(** jackknife_minmax.py:15-82.  Here the number of leave-one-out models may differ
    from the number of residuals. *)
Definition jack_minmax (outputs targets : list Q) (test : list (list Q)) (error : Q) : result (list interval) :=
  if negb (length outputs =? length targets)%nat then Err ValueError
  else Ok (map (fun t => jack_minmax1 (column t test) (residuals outputs targets) error) (seq 0 (n_columns test))).

(** cvplus.py:58-98: fold i has outputs, targets and one row of test outputs; the
    row is repeated once per residual of the fold.  zip stops at the shortest of the
    three lists for the checks, and at the shorter of the two in the rest. *)
Definition cv_residuals (outputs targets : list (list Q)) : list (list Q) :=
  zip_with (fun mu y => residuals mu y) outputs targets.
Definition cv_pairs (t : nat) (test rs : list (list Q)) : list (Q * Q) :=
  flat_map (fun p => map (fun r => (nth t (fst p) 0, r)) (snd p)) (combine test rs).
Definition cv_plus (outputs targets test : list (list Q)) (error : Q) : result (list interval) :=
  if existsb (fun p => negb (length (fst (fst p)) =? length (snd (fst p)))%nat)
       (combine (combine outputs targets) test) then Err ValueError
  else
    let rs := cv_residuals outputs targets in
    Ok (map (fun t => let ps := cv_pairs t test rs in
                      (quantile (map (fun p => fst p - snd p) ps) error,
                       quantile (map (fun p => fst p + snd p) ps) (1 - error)))
            (seq 0 (n_columns test))).

(** ---- enbpi.py ---- *)
Section EnbPI.
(** aggregation_fun, lines 15-31; it is applied along the first axis, i.e. to each
    column separately.  Default: the mean. *)
Variable agg : list Q -> Q.

(** lines 145-146, 153: the bootstraps whose sample does not contain t *)
Definition out_of_bag (idx : list (list nat)) (t : nat) : list nat :=
  filter (fun b => negb (existsb (Nat.eqb t) (nth b idx []))) (seq 0 (length idx)).

(** lines 152-165 *)
Definition enbpi_residual (idx : list (list nat)) (train : list (list Q)) (targets : list Q) (t : nat) : Q :=
  match out_of_bag idx t with
  | [] => Qabs (nth t targets 0)
  | bs => Qabs (nth t targets 0 - agg (map (fun b => nth t (nth b train []) 0) bs))
  end.
Definition enbpi_test_row (idx : list (list nat)) (test : list (list Q)) (t u : nat) : Q :=
  match out_of_bag idx t with
  | [] => 0
  | bs => agg (map (fun b => nth u (nth b test []) 0) bs)
  end.

(** lines 84-176; n_train = number of columns of the indices *)
Definition n_train (idx : list (list nat)) : nat := match idx with [] => 0%nat | r :: _ => length r end.
Definition enbpi (idx : list (list nat)) (train test : list (list Q)) (targets : list Q) (error : Q)
    : result (list interval * list Q) :=
  let T := n_train idx in
  if existsb (existsb (fun i => (T <=? i)%nat)) idx then Err ValueError
  else if negb (length train =? length idx)%nat then Err ValueError
  else if negb (n_columns train =? T)%nat then Err ValueError
  else if negb (length test =? length idx)%nat then Err ValueError
  else if negb (length targets =? n_columns train)%nat then Err ValueError
  else
    let rs := map (enbpi_residual idx train targets) (seq 0 T) in
    let half := quantile rs (1 - error) in
    Ok (map (fun u => let c := quantile (map (fun t => enbpi_test_row idx test t u) (seq 0 T)) (1 - error) in
                      (c - half, c + half)) (seq 0 (n_columns test)), rs).

(** lines 178-286: the caller's residual array is shifted in place, then its last
    entry is assigned; assigning an array whose size is not one raises ValueError
    after the shift.  Result and the residual array afterwards. *)
Definition enbpi_update (rs : list Q) (new_train new_test : list (list Q)) (targets : list Q) (error : Q)
    : result (list interval * list Q) * list Q :=
  if negb (length new_train =? length new_test)%nat then (Err ValueError, rs)
  else if negb (length targets =? n_columns new_train)%nat then (Err ValueError, rs)
  else
    match rs with
    | [] => (Err IndexError, rs)
    | r0 :: rest =>
        match targets with
        | [y] =>
            let rs' := rest ++ [Qabs (y - agg (column 0 new_train))] in
            let half := quantile rs' (1 - error) in
            (Ok (map (fun u => let c := agg (column u new_test) in (c - half, c + half))
                   (seq 0 (n_columns new_test)), rs'), rs')
        | _ => (Err ValueError, rest ++ [last rs 0])
        end
    end.
End EnbPI.

(** ---- adaptive_conformal_regressor.py:27-123 ---- *)
Definition sorted_weights (ws : list Q) : bool :=
  forallb (fun p => Qle_bool (fst p) (snd p)) (combine ws (tl ws)).
(** jnp.allclose(sum, 1.0): |sum - 1| <= 1e-8 + 1e-5 *)
Definition weights_ok (ws : list Q) : bool :=
  sorted_weights ws && forallb (fun w => Qle_bool 0 w && Qle_bool w 1) ws
  && Qle_bool (Qabs (qsum ws - 1)) (1001 # 100000000).

Definition clip_error (e : Q) : Q :=
  let e := if Qlt_bool 1 e then 1 else e in
  if Qlt_bool e 0 then 0 else e.

Definition of_bool (b : bool) : Q := if b then 1 else 0.
Definition dot (l m : list Q) : Q := qsum (zip_with Qmult l m).

(** history: weights and were_in, given together or not at all; were_in may hold any
    numbers *)
Definition update_error_from (covered : bool) (error target_error gamma : Q)
    (weights were_in : option (list Q)) : result Q :=
  if Qle_bool gamma 0 then Err ValueError
  else match weights, were_in with
  | Some _, None => Err ValueError
  | None, Some _ => Err ValueError
  | None, None => Ok (clip_error (error + gamma * (target_error - 1 + of_bool covered)))
  | Some ws, Some hs =>
      if negb (weights_ok ws) then Err ValueError
      else if existsb (fun h => negb (Qeq_bool h 0) && negb (Qeq_bool h 1)) hs then Err ValueError
      else if negb (Z.of_nat (length hs) =? Z.of_nat (length ws) - 1)%Z then Err ValueError
      else Ok (clip_error (error + gamma * (target_error -
             dot ws (map (fun h => 1 - h) (hs ++ [of_bool covered])))))
  end.

Definition update_error (i : interval) (error y target_error gamma : Q) (weights were_in : option (list Q)) : result Q :=
  update_error_from (is_in y i) error target_error gamma weights were_in.

(** a run of the adaptive procedure without weights: the outcomes are whether each
    target was covered *)
Fixpoint adaptive_run (error target_error gamma : Q) (outcomes : list bool) : result (list Q) :=
  match outcomes with
  | [] => Ok [error]
  | c :: r => bind (update_error_from c error target_error gamma None None) (fun e =>
              bind (adaptive_run e target_error gamma r) (fun es => Ok (error :: es)))
  end.
