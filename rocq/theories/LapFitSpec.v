(** Vocabulary for whole fits of Laplace posteriors: coordinates, partial derivatives. *)
From Coq Require Import List Arith Reals.
From Verif Require Import Lib TempSpec PredSpec CalibModel WholeModel LapModel TuneModel LapFitModel.
Import ListNotations.
Local Open Scope R_scope.

(** the vector moved by t along coordinate c *)
Definition bump (p : list R) (c : nat) (t : R) : list R := map (fun i => if (i =? c)%nat then nth i p 0 + t else nth i p 0) (seq 0 (length p)).
(** jac F v o i is the partial derivative of output o of F along coordinate i at v, wherever there is one *)
Definition differentiates (jac : (list R -> list R) -> list R -> nat -> nat -> R) : Prop :=
  forall F v o i l, (i < length v)%nat -> derivable_pt_lim (fun t => nth o (F (bump v i t)) 0) 0 l -> jac F v o i = l.
(** coordinates that are not frozen; None: no freeze function *)
Definition trainable (which : option (list nat)) (c : nat) : Prop := match which with None => True | Some w => In c w end.
(** a selection among n coordinates *)
Definition selects (which : option (list nat)) (n : nat) : Prop := match which with None => True | Some w => NoDup w /\ Forall (fun c => (c < n)%nat) w end.
(** how many coordinates before c have a curvature *)
Definition rank (l : list slot) (c : nat) : nat := length (filter (fun s => match s with Paired _ _ => true | Plain _ => false end) (firstn c l)).
Definition n_paired (l : list slot) : nat := rank l (length l).
(** the Gaussian log-density of a vector: one variance, or one for each coordinate *)
Definition gaussian_log_density (v : log_var) (q : list R) : R :=
  match v with
  | Scalar v => rtotal (map (fun x => normal_log_density x 0 (exp v)) q)
  | Vector vs => rtotal (map (fun vx => normal_log_density (snd vx) 0 (exp (fst vx))) (combine vs q))
  end.
(** the point where a state stands: parameters, or means of parameters, with the variables *)
Definition stands_at {M C CM} (s : stored M C CM) (m : member (list R) M C CM) : Prop :=
  match s with
  | MapSt m' => m = m'
  | LapSt s => mb_params m = map (fun sl => match sl with Plain x | Paired x _ => x end) (ls_slots s)
               /\ mb_mutable m = ls_mutable s /\ mb_calib m = ls_calib s /\ mb_calib_mutable m = ls_calib_mutable s
  | OtherSt => False
  end.
(** outputs of a model with given variables at parameters q *)
Definition outputs_at {M X C CM} (row : list R -> option M -> X -> list R) (has_calibrator : bool) (cal_row : C -> option CM -> list R -> list R)
    (mutable : option M) (calib : C) (calib_mutable : option (option (cmut CM))) (q : list R) (x : X) : list R :=
  let y := row q mutable x in
  if has_calibrator then cal_row calib (match calib_mutable with Some (Some (Frozen c)) => Some c | _ => None end) y else y.
