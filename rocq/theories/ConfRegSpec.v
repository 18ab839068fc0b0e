(** Vocabulary used to state the properties of conformal regression. *)
From Coq Require Import List Arith ZArith QArith Qround Qabs Bool.
From Verif Require Import Lib QuantModel QuantSpec ConfRegModel.
Import ListNotations.
Open Scope Q_scope.

(** the number of covered calibration points split conformal prediction aims at:
    the ceiling of (n+1)(1-error) *)
Definition split_k (n : nat) (error : Q) : nat := Z.to_nat (Qceiling (inject_Z (Z.of_nat (n + 1)) * (1 - error))).
(** the slack of the linearly interpolated quantile: the ceiling of error (n-1) *)
Definition slack (n : nat) (error : Q) : nat := Z.to_nat (Qceiling (error * (inject_Z (Z.of_nat n) - 1))).

(** interval a contains interval b *)
Definition contains (a b : interval) : Prop := fst a <= fst b /\ snd b <= snd a.
Definition ordered (i : interval) : Prop := fst i <= snd i.

(** ---- every point held out in turn, the others being the calibration set ---- *)
(** bounds (lo, hi) and target of each point *)
Definition holdout_quantile (data : list (Q * Q * Q)) (error : Q) (i : nat) : bool :=
  let lo := map (fun d => fst (fst d)) in let hi := map (fun d => snd (fst d)) in let y := map (fun d => snd d) in
  let rest := without i data in let point := firstn 1 (skipn i data) in
  match quantile_interval (lo rest) (hi rest) (lo point) (hi point) (y rest) error with
  | Ok is => forallb (fun b => b) (are_in (y point) is)
  | Err _ => false
  end.
(** mean, uncertainty and target of each point *)
Definition holdout_uncert (data : list (Q * Q * Q)) (error : Q) (i : nat) : bool :=
  let mu := map (fun d => fst (fst d)) in let u := map (fun d => snd (fst d)) in let y := map (fun d => snd d) in
  let rest := without i data in let point := firstn 1 (skipn i data) in
  match uncert_interval (mu rest) (u rest) (mu point) (u point) (y rest) error with
  | Ok is => forallb (fun b => b) (are_in (y point) is)
  | Err _ => false
  end.

(** [pred i j]: prediction at point i of the model trained on all points but i and j *)
Definition others (N i : nat) : list nat := filter (fun j => negb (j =? i)%nat) (seq 0 N).
Definition holdout_jack (method : list Q -> list Q -> list (list Q) -> Q -> result (list interval))
    (y : nat -> Q) (pred : nat -> nat -> Q) (N : nat) (error : Q) (i : nat) : bool :=
  match method (map (fun j => pred j i) (others N i)) (map y (others N i))
          (map (fun j => [pred i j]) (others N i)) error with
  | Ok is => forallb (fun b => b) (are_in [y i] is)
  | Err _ => false
  end.

(** ---- adaptive runs ---- *)
(** the updated error level before clipping *)
Definition raw (e t g : Q) (c : bool) : Q := e + g * (t - 1 + of_bool c).
Definition misses (outs : list bool) : Q := inject_Z (Z.of_nat (count negb outs)).
Definition no_clip_below (t g : Q) (outs : list bool) (es : list Q) : Prop :=
  forall i, (i < length outs)%nat -> 0 <= raw (nth i es 0) t g (nth i outs true).
Definition no_clip_above (t g : Q) (outs : list bool) (es : list Q) : Prop :=
  forall i, (i < length outs)%nat -> raw (nth i es 0) t g (nth i outs true) <= 1.
(** miss, hit, miss, hit ... *)
Fixpoint alternate (n : nat) : list bool := match n with O => [] | S n => false :: true :: alternate n end.

(** EnbPI residuals after a stream of single points (train outputs, test outputs, target) *)
Fixpoint enbpi_stream (agg : list Q -> Q) (rs : list Q) (error : Q) (steps : list (list (list Q) * list (list Q) * Q)) : list Q :=
  match steps with
  | [] => rs
  | (tr, te, y) :: r => enbpi_stream agg (snd (enbpi_update agg rs tr te [y] error)) error r
  end.
