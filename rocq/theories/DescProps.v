(** Properties of whole fits of parameters (C154). *)
From Coq Require Import List Arith ZArith QArith Qabs Bool String.
From Verif Require Import Lib QuantModel TrainModel TrainSpec TrainProofs4 DescModel DescSpec DescProofs3 DescProofs4 DescCases.
Import ListNotations.
Open Scope list_scope.
Local Notation length := List.length.

(** C154: a fit of a MAP posterior, or of a member of an ensemble, is stochastic gradient descent
    on minus the log joint probability, over all batches of all epochs *)
Theorem C154_map : forall (P M X T O K G OS Pr Un C : Type) (predict : O -> Pr) (fold_in : nat -> K) (diff : (P -> Q) -> P -> G)
    gadd gdiv zeros_like clip_by (opt : G -> OS -> P -> P * OS) (net : P -> option K -> bool -> option M -> X -> O * M) (log_prior : P -> Q)
    (calibrator : option (bool -> option C -> O -> O * C)) calib_mutable (log_prob : O -> list T -> list Q) n_train n_val
    (metrics : option (list (Pr -> option Un -> list T -> Q))) training_metrics r h monitor cfg bs vs (s s' : tstate P OS G (option M)) ms mvs,
  (forall f g p, (forall q, f q = g q) -> diff f p = diff g p) ->
  r = FitMAP \/ r = FitMember -> (forall a, h_accumulation h = Some a -> (a <= 1)%nat) ->
  fit P M X T O K G OS Pr Un predict fold_in diff gadd gdiv zeros_like clip_by opt r h
    (map_setting P M X T O K Pr Un net log_prior calibrator calib_mutable log_prob n_train n_val metrics training_metrics) monitor cfg bs vs s = Ok (s', ms, mvs) ->
  let outputs := fun key train p m x => let o := fst (net p key train m x) in
    match calibrator with None => o | Some f => fst (f false (match calib_mutable with Some c => c | None => None end) o) end in
  let objective := fun n o (ys : list T) p => (- (total_of (log_prob o ys) * (inject_Z (Z.of_nat n) / inject_Z (Z.of_nat (length ys))) + log_prior p))%Q in
  let clip := fun g => match h_norm h with Some b => if Qlt_le_dec 0 b then clip_by b g else g | None => g end in
  let update := gradient_update diff clip opt fold_in
    (fun key p m (b : X * list T) => objective n_train (outputs (Some key) true p m (fst b)) (snd b) p)
    (fun key p m b => match m with Some _ => Some (snd (net p (Some key) true m (fst b))) | None => None end) in
  let at_ := fun e i => descend update (step s) (before e i bs) (params s, opt_state s, mutable s) in
  (length ms <= n_epochs cfg)%nat /\ (is_active (stop_config cfg) = false -> length ms = n_epochs cfg)
  /\ (params s', opt_state s', mutable s') = at_ (length ms) 0%nat /\ step s' = (step s + length ms * length bs)%nat
  /\ (forall e, (e < length ms)%nat ->
        is_mean_of (map (fun ib => let '(p, _, m) := at_ e (fst ib) in
            let o := outputs (Some (fold_in (step s + e * length bs + fst ib)%nat)) true p m (fst (snd ib)) in let ys := snd (snd ib) in
            objective n_train o ys p :: match metrics with Some fs => if training_metrics then map (fun f => f (predict o) None ys) fs else [] | None => [] end)
          (combine (seq 0 (length bs)) bs)) (nth e ms []))
  /\ match vs with
     | None => mvs = []
     | Some v => Forall2 (fun e row => is_mean_of (map (fun b => let '(p, _, m) := at_ (S e) 0%nat in
            let o := outputs None false p m (fst b) in
            objective n_val o (snd b) p :: match metrics with Some fs => map (fun f => f (predict o) None (snd b)) fs | None => [] end) v) row)
          (validation_epochs (eval_every cfg) (length ms)) mvs
     end.
Proof. exact (@map_fit). Qed.
Print Assumptions C154_map.

(** C154: a fit of a calibration model is stochastic gradient descent on its loss *)
Theorem C154_calibration : forall (P M X T O K G OS Pr Un : Type) (predict : O -> Pr) (fold_in : nat -> K) (diff : (P -> Q) -> P -> G)
    gadd gdiv zeros_like clip_by (opt : G -> OS -> P -> P * OS) (net : P -> option K -> bool -> option M -> X -> O * M) (loss_fn : O -> list T -> Q) n_train n_val
    (metrics : option (list (Pr -> option Un -> list T -> Q))) training_metrics uncertainty_fn default h monitor cfg bs vs (s s' : tstate P OS G (option M)) ms mvs,
  (forall f g p, (forall q, f q = g q) -> diff f p = diff g p) -> mutable s = None ->
  fit P M X T O K G OS Pr Un predict fold_in diff gadd gdiv zeros_like clip_by opt CalibrateModel h
    (calib_setting P M X T O K Pr Un net loss_fn n_train n_val metrics training_metrics uncertainty_fn default) monitor cfg bs vs s = Ok (s', ms, mvs) ->
  let outputs := fun key train p x => fst (net p key train None x) in
  let uncertainty := match uncertainty_fn with Some u => u | None => default end in
  let update := gradient_update diff (fun g => g) opt fold_in
    (fun key p (_ : unit) (b : X * list T) => loss_fn (outputs (Some key) true p (fst b)) (snd b)) (fun _ _ _ _ => tt) in
  let at_ := fun e i => fst (descend update (step s) (before e i bs) (params s, opt_state s, tt)) in
  (length ms <= n_epochs cfg)%nat /\ (is_active (stop_config cfg) = false -> length ms = n_epochs cfg)
  /\ (params s', opt_state s') = at_ (length ms) 0%nat /\ mutable s' = None /\ step s' = (step s + length ms * length bs)%nat
  /\ (forall e, (e < length ms)%nat ->
        is_mean_of (map (fun ib => let o := outputs (Some (fold_in (step s + e * length bs + fst ib)%nat)) true (fst (at_ e (fst ib))) (fst (snd ib)) in let ys := snd (snd ib) in
            loss_fn o ys :: match metrics with Some fs => if training_metrics then map (fun f => f (predict o) (Some (uncertainty o)) ys) fs else [] | None => [] end)
          (combine (seq 0 (length bs)) bs)) (nth e ms []))
  /\ match vs with
     | None => mvs = []
     | Some v => Forall2 (fun e row => is_mean_of (map (fun b => let o := outputs None false (fst (at_ (S e) 0%nat)) (fst b) in
            loss_fn o (snd b) :: match metrics with Some fs => map (fun f => f (predict o) (Some (uncertainty o)) (snd b)) fs | None => [] end) v) row)
          (validation_epochs (eval_every cfg) (length ms)) mvs
     end.
Proof. exact (@calib_fit). Qed.
Print Assumptions C154_calibration.

(** C154: with some batch, nonempty validation data and a known monitor they succeed *)
Theorem C154_succeeds : forall (P M X T O K G OS Pr Un : Type) (predict : O -> Pr) (fold_in : nat -> K) (diff : (P -> Q) -> P -> G)
    (gadd : G -> G -> G) (gdiv : G -> nat -> G) (zeros_like : G -> G) (clip_by : Q -> G -> G) (opt : G -> OS -> P -> P * OS)
    C (net : P -> option K -> bool -> option M -> X -> O * M) log_prior (calibrator : option (bool -> option C -> O -> O * C)) calib_mutable log_prob loss_fn n_train n_val metrics training_metrics uncertainty_fn default
    h monitor cfg (bs : list (X * list T)) vs (s : tstate P OS G (option M)),
  bs <> [] -> (forall v, vs = Some v -> v <> []) -> (is_active (stop_config cfg) = true -> forall row, monitor row <> None) ->
  (forall r, r = FitMAP \/ r = FitMember -> (forall a, h_accumulation h = Some a -> (a <= length bs)%nat) ->
     exists res, fit P M X T O K G OS Pr Un predict fold_in diff gadd gdiv zeros_like clip_by opt r h (map_setting P M X T O K Pr Un net log_prior calibrator calib_mutable log_prob n_train n_val metrics training_metrics) monitor cfg bs vs s = Ok res)
  /\ (mutable s = None -> exists res, fit P M X T O K G OS Pr Un predict fold_in diff gadd gdiv zeros_like clip_by opt CalibrateModel h (calib_setting P M X T O K Pr Un net loss_fn n_train n_val metrics training_metrics uncertainty_fn default) monitor cfg bs vs s = Ok res).
Proof. exact (@fits_succeed). Qed.
Print Assumptions C154_succeeds.

(** C154: with mutable variables no calibration model can be fitted *)
Theorem C154_mutable_refuted : forall (P M X T O K G OS Pr Un : Type) (predict : O -> Pr) (fold_in : nat -> K) (diff : (P -> Q) -> P -> G)
    (gadd : G -> G -> G) (gdiv : G -> nat -> G) (zeros_like : G -> G) (clip_by : Q -> G -> G) (opt : G -> OS -> P -> P * OS)
    (net : P -> option K -> bool -> option M -> X -> O * M) loss_fn n_train n_val metrics training_metrics uncertainty_fn default
    h monitor cfg (bs : list (X * list T)) vs (s : tstate P OS G (option M)) m,
  mutable s = Some m -> bs <> [] -> (0 < n_epochs cfg)%nat ->
  let run := fit P M X T O K G OS Pr Un predict fold_in diff gadd gdiv zeros_like clip_by opt CalibrateModel h (calib_setting P M X T O K Pr Un net loss_fn n_train n_val metrics training_metrics uncertainty_fn default) monitor cfg bs vs s in
  (forall r, run <> Ok r) /\
  (is_active (stop_config cfg) = false -> (forall v, vs = Some v -> v <> []) -> run = Err TypeError).
Proof. exact (@mutable_fails). Qed.
Print Assumptions C154_mutable_refuted.

(** C154: hyperparameters have no effect on SWAG and on calibration models *)
Theorem C154_hyperparameters_refuted : forall (P M X T O K G OS Pr Un : Type) (predict : O -> Pr) (fold_in : nat -> K) (diff : (P -> Q) -> P -> G)
    (gadd : G -> G -> G) (gdiv : G -> nat -> G) (zeros_like : G -> G) (clip_by : Q -> G -> G) (opt : G -> OS -> P -> P * OS)
    r h h' (c : setting P M X T O K Pr Un) monitor cfg bs vs s,
  r = CalibrateModel \/ r = FitSWAG -> fit P M X T O K G OS Pr Un predict fold_in diff gadd gdiv zeros_like clip_by opt r h c monitor cfg bs vs s = fit P M X T O K G OS Pr Un predict fold_in diff gadd gdiv zeros_like clip_by opt r h' c monitor cfg bs vs s.
Proof. exact (@ignored_hyperparameters). Qed.
Print Assumptions C154_hyperparameters_refuted.

Example C154_case_map :
  let bs := [(1%Q, [2%Q]); (2%Q, [4%Q])] in
  let r := t_fit FitMAP no_h t_map (t_cfg 2) bs (Some [(1%Q, [2%Q])]) (t_state (Some 0%nat)) in
  t_final r = Ok ((1088 # 625)%Q, Some 4%nat, 4%nat)
  /\ t_reports r = ([[(252 # 25)%Q; (-11 # 5)%Q]; [(84028 # 15625)%Q; (13 # 125)%Q]],
                    [[(4488 # 625)%Q; (14 # 25)%Q]; [(1236232 # 390625)%Q; (-162 # 625)%Q]]).
Proof. vm_compute. repeat split. Qed.
Example C154_case_hyperparameters :
  let bs := [(1%Q, [2%Q]); (2%Q, [4%Q])] in
  t_final (t_fit FitMAP clip_h t_map (t_cfg 2) bs None (t_state None)) = Ok ((2 # 5)%Q, None, 4%nat)
  /\ t_final (t_fit FitMAP no_h t_map (t_cfg 2) bs None (t_state None)) = Ok ((1088 # 625)%Q, None, 4%nat)
  /\ t_final (t_fit FitSWAG clip_h t_map (t_cfg 2) bs None (t_state None)) = Ok ((1088 # 625)%Q, None, 4%nat)
  /\ t_final (t_fit FitMember {| h_norm := None; h_accumulation := Some 2%nat |} t_map (t_cfg 2) bs None (t_state None)) = Ok ((8 # 5)%Q, None, 4%nat).
Proof. vm_compute. repeat split. Qed.
Example C154_case_calibration :
  let bs := [(1%Q, [2%Q]); (2%Q, [4%Q])] in
  let r := t_fit CalibrateModel clip_h t_cal (t_cfg 1) bs (Some [(1%Q, [2%Q])]) (t_state None) in
  t_final r = Ok ((42 # 25)%Q, None, 2%nat)
  /\ t_reports r = ([[(178 # 25)%Q; (6 # 5)%Q]], [[(64 # 625)%Q; (126 # 25)%Q]])
  /\ t_final (t_fit CalibrateModel clip_h t_cal (t_cfg 1) bs None (t_state (Some 0%nat))) = Err TypeError.
Proof. vm_compute. repeat split. Qed.
