(** Properties of whole calibrations of outputs (C155). *)
From Coq Require Import List Arith ZArith QArith Bool String.
From Verif Require Import Lib QuantModel TrainModel TrainSpec TrainProofs4 CalibModel CalibSpec DescSpec CalRunModel CalRunProofs2 CalRunCases.
Import ListNotations.
Open Scope list_scope.
Local Notation length := List.length.

(** C155: a calibration of given outputs is gradient descent on the loss of the calibrated outputs,
    one step per epoch, and its reports are of the states it went through *)
Theorem C155_full : forall (P M O T G OS Pr Un : Type) (predict : O -> Pr) (uncertainty : O -> Un) (diff : (P -> Q) -> P -> G) (opt : G -> OS -> P -> P * OS)
    (calibrator : option (P -> bool -> option M -> O -> O * M)) (loss_fn : O -> T -> Q) (metrics : option (list (Pr -> Un -> T -> Q))) training_metrics
    monitor cfg targets outputs val (s s' : tstate P OS G (option (option (cmut M)))) ms mvs,
  (forall f g p, (forall q, f q = g q) -> diff f p = diff g p) -> mutable s = Some None ->
  cal_run_full P (option (cmut M)) T O O T G OS Pr Un predict uncertainty (fun t => t) diff opt (oc_setting calibrator loss_fn metrics training_metrics) monitor cfg targets outputs val s = Ok (s', ms, mvs) ->
  let calibrated := fun train p o => match calibrator with None => o | Some f => fst (f p train None o) end in
  let descent := fun x => opt (diff (fun q => loss_fn (calibrated true q outputs) targets) (fst x)) (snd x) (fst x) in
  let at_ := fun e => times e descent (params s, opt_state s) in
  let row := fun (on : bool) o y => loss_fn o y :: match metrics with Some fs => if on then map (fun f => f (predict o) (uncertainty o) y) fs else [] | None => [] end in
  (length ms <= c_epochs cfg)%nat /\ (is_active (c_stop cfg) = false -> length ms = c_epochs cfg)
  /\ (params s', opt_state s') = at_ (length ms) /\ mutable s' = Some None /\ step s' = (step s + length ms)%nat
  /\ (forall e, (e < length ms)%nat -> Forall2 Qeq (row training_metrics (calibrated true (fst (at_ e)) outputs) targets) (nth e ms []))
  /\ match val with
     | None => mvs = []
     | Some (vt, vo) => Forall2 (fun e m => Forall2 Qeq (row true (calibrated false (fst (at_ (S e))) vo) vt) m) (validation_epochs (c_eval_every cfg) (length ms)) mvs
     end.
Proof. exact (@full_calibration). Qed.
Print Assumptions C155_full.

(** C155: a calibration of a posterior is stochastic gradient descent on minus the logarithm of the
    likelihood averaged over the ensemble of calibrated outputs *)
Theorem C155_ensemble : forall (P X C O T G OS Pr Un : Type) (predict : O -> Pr) (uncertainty : O -> Un) (diff : (P -> Q) -> P -> G) (opt : G -> OS -> P -> P * OS)
    (calibrator : option (P -> bool -> option C -> O -> O * C)) (log_prob : O -> list T -> list Q) log_mean_exp mean_outputs mean_mutable n_calib n_val
    (metrics : option (list (Pr -> Un -> list T -> Q))) training_metrics
    monitor cfg (data : list (X * list T)) outs val (s s' : tstate P OS G (option (option (cmut C)))) ms mvs,
  (forall f g p, (forall q, f q = g q) -> diff f p = diff g p) -> mutable s = None \/ mutable s = Some None ->
  cal_run P (option (cmut C)) (X * list T) (list O) O (list T) G OS Pr Un predict uncertainty snd diff opt
    (pm_setting calibrator log_prob log_mean_exp mean_outputs mean_mutable n_calib n_val metrics training_metrics) monitor cfg data outs val s = Ok (s', ms, mvs) ->
  let pairs := combine data outs in
  let calibrated := fun train p (ensemble : list O) => map (fun o => match calibrator with None => o | Some f => fst (f p train None o) end) ensemble in
  let objective := fun n ensemble (ys : list T) =>
    (- log_mean_exp (map (fun o => total_of (log_prob o ys) * (inject_Z (Z.of_nat n) / inject_Z (Z.of_nat (length ys)))) ensemble))%Q in
  let descent := fun (_ : nat) x (b : X * list T * list O) => opt (diff (fun q => objective n_calib (calibrated true q (snd b)) (snd (fst b))) (fst x)) (snd x) (fst x) in
  let at_ := fun e i => descend descent (step s) (before e i pairs) (params s, opt_state s) in
  let row := fun (on : bool) n ensemble ys => objective n ensemble ys ::
    match metrics with Some fs => if on then map (fun f => f (predict (mean_outputs ensemble)) (uncertainty (mean_outputs ensemble)) ys) fs else [] | None => [] end in
  (length ms <= c_epochs cfg)%nat /\ (is_active (c_stop cfg) = false -> length ms = c_epochs cfg)
  /\ (params s', opt_state s') = at_ (length ms) 0%nat /\ (mutable s' = None \/ mutable s' = Some None) /\ step s' = (step s + length ms * length pairs)%nat
  /\ (forall e, (e < length ms)%nat ->
        is_mean_of (map (fun ib => row training_metrics n_calib (calibrated true (fst (at_ e (fst ib))) (snd (snd ib))) (snd (fst (snd ib)))) (combine (seq 0 (length pairs)) pairs)) (nth e ms []))
  /\ match val with
     | None => mvs = []
     | Some (vb, vo) => Forall2 (fun e m => is_mean_of (map (fun b => row true n_val (calibrated false (fst (at_ (S e) 0%nat)) (snd b)) (snd (fst b))) (combine vb vo)) m) (validation_epochs (c_eval_every cfg) (length ms)) mvs
     end.
Proof. exact (@ensemble_calibration). Qed.
Print Assumptions C155_ensemble.

(** C155: both end for calibrators without mutable variables *)
Theorem C155_succeeds : forall (P M X C O T G OS Pr Un : Type) (predict : O -> Pr) (uncertainty : O -> Un) (diff : (P -> Q) -> P -> G) (opt : G -> OS -> P -> P * OS) monitor cfg,
  (is_active (c_stop cfg) = true -> forall m, monitor m <> None) ->
  (forall calibrator (loss_fn : O -> T -> Q) (metrics : option (list (Pr -> Un -> T -> Q))) training_metrics targets outputs val (s : tstate P OS G (option (option (cmut M)))),
     mutable s = Some None ->
     exists r, cal_run_full P (option (cmut M)) T O O T G OS Pr Un predict uncertainty (fun t => t) diff opt (oc_setting calibrator loss_fn metrics training_metrics) monitor cfg targets outputs val s = Ok r)
  /\ (forall calibrator (log_prob : O -> list T -> list Q) log_mean_exp mean_outputs mean_mutable n_calib n_val (metrics : option (list (Pr -> Un -> list T -> Q))) training_metrics
        (data : list (X * list T)) outs val (s : tstate P OS G (option (option (cmut C)))),
     mutable s = None \/ mutable s = Some None -> data <> [] -> outs <> [] -> (forall vb vo, val = Some (vb, vo) -> vb <> [] /\ vo <> []) ->
     exists r, cal_run P (option (cmut C)) (X * list T) (list O) O (list T) G OS Pr Un predict uncertainty snd diff opt
       (pm_setting calibrator log_prob log_mean_exp mean_outputs mean_mutable n_calib n_val metrics training_metrics) monitor cfg data outs val s = Ok r).
Proof. exact (@calibrations_succeed). Qed.
Print Assumptions C155_succeeds.

(** C155: a calibrator with mutable variables cannot be fitted for more than one epoch *)
Theorem C155_mutable_refuted : forall (P M O T G OS Pr Un : Type) (predict : O -> Pr) (uncertainty : O -> Un) (diff : (P -> Q) -> P -> G) (opt : G -> OS -> P -> P * OS)
    (f : P -> bool -> option M -> O -> O * M) (loss_fn : O -> T -> Q) (metrics : option (list (Pr -> Un -> T -> Q))) training_metrics
    monitor cfg targets outputs val (s : tstate P OS G (option (option (cmut M)))) m,
  mutable s = Some (Some (Frozen m)) -> (2 <= c_epochs cfg)%nat -> is_active (c_stop cfg) = false ->
  cal_run_full P (option (cmut M)) T O O T G OS Pr Un predict uncertainty (fun t => t) diff opt (oc_setting (Some f) loss_fn metrics training_metrics) monitor cfg targets outputs val s = Err AttributeError.
Proof. exact (@mutable_calibration_fails). Qed.
Print Assumptions C155_mutable_refuted.

(** C155: nor can a posterior be calibrated with such a calibrator on more than one batch *)
Theorem C155_ensemble_mutable_refuted : forall (P X C O T G OS Pr Un : Type) (predict : O -> Pr) (uncertainty : O -> Un) (diff : (P -> Q) -> P -> G) (opt : G -> OS -> P -> P * OS)
    (f : P -> bool -> option C -> O -> O * C) (log_prob : O -> list T -> list Q) log_mean_exp mean_outputs mean_mutable n_calib n_val
    (metrics : option (list (Pr -> Un -> list T -> Q))) training_metrics monitor cfg (data : list (X * list T)) outs val (s : tstate P OS G (option (option (cmut C)))) m,
  mutable s = Some (Some (Frozen m)) -> Forall (fun ensemble => ensemble <> []) outs -> (2 <= c_epochs cfg * length (combine data outs))%nat ->
  (forall vb vo, val = Some (vb, vo) -> vb <> [] /\ vo <> []) -> is_active (c_stop cfg) = false ->
  cal_run P (option (cmut C)) (X * list T) (list O) O (list T) G OS Pr Un predict uncertainty snd diff opt
    (pm_setting (Some f) log_prob log_mean_exp mean_outputs mean_mutable n_calib n_val metrics training_metrics) monitor cfg data outs val s = Err AttributeError.
Proof. exact (@mutable_ensemble_fails). Qed.
Print Assumptions C155_ensemble_mutable_refuted.

(** one example of a full calibration, with target 3 for output 1, then the ensemble of two
    members and two batches *)
Example C155_case : k_out (k_full 2 (Some None))
  = Ok (27 # 25, 2%nat, [[9; -3]; [144 # 25; (-9) # 5]], [[49 # 25; 19 # 5]; [6889 # 625; 191 # 25]])%Q.
Proof. vm_compute. reflexivity. Qed.
Example C155_case_ensemble : match k_out (k_ens 2 (Some None)) with Ok (p, n, ms, _) => n = 4%nat /\ ms = [[29 # 25; 1 # 10]; [6101 # 625; 1 # 10]]%Q /\ (p == 224 # 125)%Q | Err _ => False end.
Proof. vm_compute. repeat split. Qed.
Example C155_case_mutable : k_out (k_full 2 (Some (Some (Frozen 1%nat)))) = Err AttributeError.
Proof. vm_compute. reflexivity. Qed.
Example C155_case_ensemble_mutable : k_out (k_ens 1 (Some (Some (Frozen 1%nat)))) = Err AttributeError.
Proof. vm_compute. reflexivity. Qed.
