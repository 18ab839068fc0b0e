(** Words for the properties of several calibrations. *)
From Coq Require Import List Arith ZArith QArith Bool.
From Verif Require Import Lib QuantModel TrainModel TrainSpec CalibModel DescSpec CalRunModel RecalModel.
Import ListNotations.
Open Scope list_scope.

(** outputs calibrated in training mode, without mutable variables *)
Definition calibrated_outputs {P C O} (calibrator : option (P -> bool -> option C -> O -> O * C)) (p : P) (ensemble : list O) : list O :=
  map (fun o => match calibrator with None => o | Some f => fst (f p true None o) end) ensemble.
(** minus the logarithm of the likelihood averaged over the ensemble, for [n] data points *)
Definition averaged_loss {O T} (log_prob : O -> list T -> list Q) (log_mean_exp : list Q -> Q) (n : nat) (ensemble : list O) (ys : list T) : Q :=
  (- log_mean_exp (map (fun o => total_of (log_prob o ys) * (inject_Z (Z.of_nat n) / inject_Z (Z.of_nat (length ys)))) ensemble))%Q.

Section Words.
Context {P X C O T G OS Pr U : Type}.
Variable diff : (P -> Q) -> P -> G.
Variable calibrator : option (P -> bool -> option C -> O -> O * C).
Variable log_prob : O -> list T -> list Q.
Variable log_mean_exp : list Q -> Q.
Notation call := (pm_call P X O T G OS Pr U).
Definition call_step (k : call) (x : P * OS) (b : X * list T * list O) : P * OS :=
  o_step (p_opt k) (diff (fun q => averaged_loss log_prob log_mean_exp (p_size k) (calibrated_outputs calibrator q (snd b)) (snd (fst b))) (fst x)) (snd x) (fst x).
Definition call_pairs (k : call) : list (X * list T * list O) := combine (p_data k) (p_outs k).
(** each call goes down from the parameters of the call before, with a new state of its own optimizer *)
Fixpoint stages (l : list call) (epochs : list nat) (p : P) : P :=
  match l, epochs with
  | k :: r, n :: ns => stages r ns (fst (descend (fun _ => call_step k) 0 (passes n (call_pairs k)) (p, o_init (p_opt k) p)))
  | _, _ => p
  end.
(** the call for [n] epochs *)
Definition for_epochs (k : call) (n : nat) : call :=
  {| p_opt := p_opt k;
     p_cfg := {| c_epochs := n; c_eval_every := c_eval_every (p_cfg k); c_save_dir := c_save_dir (p_cfg k); c_save_every := c_save_every (p_cfg k); c_stop := c_stop (p_cfg k) |};
     p_monitor := p_monitor k; p_data := p_data k; p_outs := p_outs k; p_val := p_val k; p_size := p_size k; p_val_size := p_val_size k;
     p_metrics := p_metrics k; p_training_metrics := p_training_metrics k |}.
End Words.
(** the optimizer has no state to lose *)
Definition no_memory {P G OS} (o : optimizer P G OS) : Prop := (forall p q, o_init o p = o_init o q) /\ forall g os p, snd (o_step o g os p) = os.
(** no mutable variables *)
Definition plain {C} (m : option (option (cmut C))) : Prop := m = None \/ m = Some None.
