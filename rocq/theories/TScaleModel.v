(** Model of the temperature scaling calibrators as objects:
    fortuna/calibration/binary_classification/temp_scaling/{base,bias_binary_temp_scaling,
    brier_binary_temp_scaling,crossentropy_binary_temp_scaling,f1_temp_scaling}.py and
    fortuna/calibration/classification/temp_scaling/base.py.  The formulas are those of
    TempModel.v; here are the checks, the state and what happens without data, without positive
    targets and with arrays of different lengths.

    Probabilities are numbers in an array of one or two axes.  In the searches by scipy's brute
    an array of length one against a longer one (stretched by numpy) is left out.  The
    arithmetic is exact; there is no negative zero.  The threshold of F1 is a python float. *)
From Coq Require Import List Arith ZArith QArith Bool Reals.
From Verif Require Import Lib QuantModel ConfRegModel ConfClassModel OneShotModel TempModel.
Import ListNotations.
Open Scope Q_scope.

(** numpy numbers *)
Inductive num := Fin (q : Q) | Inf (positive : bool) | NaN.
Definition ndiv (a b : num) : num :=
  match a, b with
  | Fin x, Fin y => if Qeq_bool y 0 then if Qeq_bool x 0 then NaN else Inf (Qlt_bool 0 x) else Fin (x / y)
  | Fin _, Inf _ => Fin 0
  | _, _ => NaN
  end.
(** np.mean; nan for an empty array *)
Definition nmean (l : list Q) : num := match l with [] => NaN | _ => Fin (qmean l) end.

Inductive dtype := Int64 | Int32 | Boolean | Float.
(** targets; [y_values] are the entries *)
Record targets := { y_axes : nat; y_dtype : dtype; y_values : list Z }.

(** binary base.py:64-67 *)
Definition check_probs (ps : array) : result (list Q) := match ps with Vec l => Ok l | Mat _ => Err ValueError end.
(** binary base.py:69-74, multi-class base.py:83-88; int is np.int64 *)
Definition check_targets (t : targets) : result (list Z) :=
  if negb (y_axes t =? 1)%nat then Err ValueError
  else match y_dtype t with Int64 => Ok (y_values t) | _ => Err ValueError end.

Inductive scaling := Bias | Brier | CrossEntropy | F1.
(** base.py:7-8, f1_temp_scaling.py:18-21 *)
Record scaler := { s_temp : option num; s_threshold : option Q }.
Definition fresh : scaler := {| s_temp := None; s_threshold := None |}.
Definition with_temp (t : num) (o : scaler) : scaler := {| s_temp := Some t; s_threshold := s_threshold o |}.
Definition with_threshold (th : Q) (o : scaler) : scaler := {| s_temp := s_temp o; s_threshold := Some th |}.

(** elementwise product of two arrays of one axis: equal lengths, or one of length one *)
Definition stretch {A B} (xs : list A) (ys : list B) : result (list (A * B)) :=
  if (length xs =? length ys)%nat then Ok (combine xs ys)
  else match xs, ys with
       | _, [y] => Ok (map (fun x => (x, y)) xs)
       | [x], _ => Ok (map (fun y => (x, y)) ys)
       | _, _ => Err ValueError
       end.

Section Binary.
(** the minimiser of the cross entropy found by scipy (TempModel.fit_ce), and the improvement of
    the best grid point in the search for F1 *)
Variable ce : list Q -> list Z -> Q.
Variable finish : (Q -> option Q) -> Q -> Q.

(** bias_binary_temp_scaling.py:20, brier_binary_temp_scaling.py:20,
    crossentropy_binary_temp_scaling.py:22-30 (np.min of an empty array raises),
    f1_temp_scaling.py:28-42 *)
Definition temperature_of (m : scaling) (ps : list Q) (ys : list Z) (threshold : Q) : result num :=
  match m with
  | Bias => Ok (ndiv (nmean ps) (nmean (map inject_Z ys)))
  | Brier => bind (stretch ps ys) (fun l => Ok (ndiv (nmean (map (fun p => p * p) ps)) (nmean (map (fun py => fst py * inject_Z (snd py)) l))))
  | CrossEntropy =>
      match ps with
      | [] => Err ValueError
      | _ => if (length ps =? length ys)%nat then Ok (Fin (ce ps ys)) else Err ValueError
      end
  | F1 =>
      match ps with
      | [] => Err ValueError
      | _ => if Qeq_bool threshold 0 then Err ZeroDivisionError
             else if (length ps =? length ys)%nat then Ok (Fin (fit_f1 finish ps ys threshold)) else Err ValueError
      end
  end.
(** fit; only F1 has a threshold, stored before the search *)
Definition bfit (m : scaling) (o : scaler) (probs : array) (t : targets) (threshold : Q) : result unit * scaler :=
  match bind (check_probs probs) (fun ps => bind (check_targets t) (fun ys => Ok (ps, ys))) with
  | Err e => (Err e, o)
  | Ok (ps, ys) =>
      let o1 := match m with F1 => with_threshold threshold o | _ => o end in
      match temperature_of m ps ys threshold with
      | Err e => (Err e, o1)
      | Ok t => (Ok tt, with_temp t o1)
      end
  end.
End Binary.

(** base.py:38 for one probability; None is NaN *)
Definition nscaled (t : num) (p : Q) : option Q :=
  match t with Fin q => scaled q p | Inf _ => Some 0 | NaN => None end.
(** base.py:24-38; an array cannot be divided by None *)
Definition bproba (o : scaler) (probs : array) : result (list (option Q)) :=
  bind (check_probs probs) (fun ps => match s_temp o with None => Err TypeError | Some t => Ok (map (nscaled t) ps) end).
Definition decide (threshold : Q) (c : option Q) : bool := match c with Some x => Qle_bool threshold x | None => false end.
(** base.py:40-58, f1_temp_scaling.py:44-46; [threshold] is the argument of predict (0.5 when not
    given), which F1 does not have *)
Definition bpredict (m : scaling) (o : scaler) (probs : array) (threshold : option Q) : result (list bool) :=
  bind (bproba o probs) (fun cs =>
  match m with
  | F1 => match s_threshold o with None => Err TypeError | Some th => Ok (map (decide th) cs) end
  | _ => Ok (map (decide (match threshold with Some th => th | None => 1 # 2 end)) cs)
  end).

(** ---- multi-class: classification/temp_scaling/base.py ---- *)
Record table := { p_axes : nat; p_rows : list (list R); p_width : nat }.
(** lines 78-81 *)
Definition check_table (p : table) : result unit := if (p_axes p =? 2)%nat then Ok tt else Err ValueError.
(** line 32, np.eye(n)[y]: the row of y, counted from the end when y is negative *)
Definition eye_row (n : nat) (y : Z) : result nat :=
  if ((0 <=? y) && (y <? Z.of_nat n))%Z then Ok (Z.to_nat y)
  else if ((- Z.of_nat n <=? y) && (y <? 0))%Z then Ok (Z.to_nat (Z.of_nat n + y))
  else Err IndexError.
Section Multi.
Variable mfinish : (R -> R) -> R -> R.
(** lines 18-38: the object is its temperature *)
Definition mfit (o : option R) (p : table) (t : targets) : result unit * option R :=
  match bind (check_table p) (fun _ => bind (check_targets t) (fun ys => bind (mapM (eye_row (p_width p)) ys) (fun cs =>
          if (length (p_rows p) =? length cs)%nat then Ok cs else Err ValueError))) with
  | Err e => (Err e, o)
  | Ok cs => (Ok tt, Some (fit_mc mfinish (p_rows p) cs))
  end.
End Multi.
(** lines 40-55 *)
Definition mproba (o : option R) (p : table) : result (list (list R)) :=
  bind (check_table p) (fun _ => match o with None => Err TypeError | Some t => Ok (map (mc_scaled t) (p_rows p)) end).
(** lines 57-72 *)
Definition mpredict (o : option R) (p : table) : result (list nat) := bind (check_table p) (fun _ => Ok (map mc_predict (p_rows p))).
