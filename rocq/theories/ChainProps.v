(** Properties of whole fits of stochastic gradient samplers (C158). *)
From Coq Require Import List Arith ZArith QArith Bool String Sorted Reals.
From Verif Require Import Lib QuantModel MetricSpec TrainModel TrainSpec TrainProofs4 McmcModel McmcSpec DescModel DescSpec DescCases SwagCases ChainModel ChainSpec ChainProofs3 ChainProofs4 ChainProofs5 ChainCases.
Import ListNotations.
Open Scope list_scope.
Local Notation length := List.length.

(** C158: a fit of SGHMC follows the gradient of the log joint probability of the batches, unclipped; sample j
    is the state after update burnin + (j+1) thinning, and all samples are kept unless it is stopped early *)
Theorem C158_sghmc : forall (P M X T O K G OS Pr Un C : Type) (predict : O -> Pr) (fold_in : nat -> K) (diff : (P -> Q) -> P -> G)
    gadd gdiv zeros_like clip_by (opt : G -> OS -> P -> P * OS) (net : P -> option K -> bool -> option M -> X -> O * M) (log_prior : P -> Q)
    (calibrator : option (bool -> option C -> O -> O * C)) calib_mutable (log_prob : O -> list T -> list Q) n_train n_val
    (metrics : option (list (Pr -> option Un -> list T -> Q))) training_metrics n thin burnin monitor cfg bs vs (s s' : tstate P OS G (option M)) kept ms mvs,
  (forall f g p, (forall q, f q = g q) -> diff f p = diff g p) -> (0 < thin)%nat ->
  sghmc_fit P M X T O K G OS Pr Un predict fold_in diff gadd gdiv zeros_like clip_by opt n thin burnin
    (chain_setting P M X T O K Pr Un net log_prior calibrator calib_mutable log_prob n_train n_val metrics training_metrics) monitor cfg bs vs s = Ok (s', kept, ms, mvs) ->
  let outputs := fun key p m x => let o := fst (net p (Some key) true m x) in
    match calibrator with None => o | Some f => fst (f false (match calib_mutable with Some c => c | None => None end) o) end in
  let update := gradient_update diff (fun g => g) opt fold_in
    (fun key p m (b : X * list T) => (total_of (log_prob (outputs key p m (fst b)) (snd b)) * (inject_Z (Z.of_nat n_train) / inject_Z (Z.of_nat (length (snd b)))) + log_prior p)%Q)
    (fun key p m b => match m with Some _ => Some (snd (net p (Some key) true m (fst b))) | None => None end) in
  let at_ := after update (step s) (length ms) bs (params s, opt_state s, mutable s) in
  (length ms <= n_epochs cfg)%nat /\ (is_active (stop_config cfg) = false -> length ms = n_epochs cfg)
  /\ (params s', opt_state s', mutable s') = at_ (length ms * length bs)%nat
  /\ length kept = Nat.min n ((length ms * length bs - burnin) / thin)
  /\ (length ms = n_epochs cfg -> length kept = n)
  /\ forall j, (j < length kept)%nat -> exists st, nth_error kept j = Some (j, st) /\ (params st, opt_state st, mutable st) = at_ (due_step burnin thin j).
Proof. exact (@sghmc_spec). Qed.
Print Assumptions C158_sghmc.

(** C158: a fit of cyclical SGLD likewise; its samples are the states after the first due updates *)
Theorem C158_cyclical : forall (P M X T O K G OS Pr Un C : Type) (predict : O -> Pr) (fold_in : nat -> K) (diff : (P -> Q) -> P -> G)
    gadd gdiv zeros_like clip_by (opt : G -> OS -> P -> P * OS) (net : P -> option K -> bool -> option M -> X -> O * M) (log_prior : P -> Q)
    (calibrator : option (bool -> option C -> O -> O * C)) calib_mutable (log_prob : O -> list T -> list Q) n_train n_val
    (metrics : option (list (Pr -> option Un -> list T -> Q))) training_metrics n thin L ratio monitor cfg bs vs (s s' : tstate P OS G (option M)) kept ms mvs,
  (forall f g p, (forall q, f q = g q) -> diff f p = diff g p) -> (0 < thin)%nat -> (0 < L)%nat ->
  cyclical_fit P M X T O K G OS Pr Un predict fold_in diff gadd gdiv zeros_like clip_by opt n thin L ratio
    (chain_setting P M X T O K Pr Un net log_prior calibrator calib_mutable log_prob n_train n_val metrics training_metrics) monitor cfg bs vs s = Ok (s', kept, ms, mvs) ->
  let outputs := fun key p m x => let o := fst (net p (Some key) true m x) in
    match calibrator with None => o | Some f => fst (f false (match calib_mutable with Some c => c | None => None end) o) end in
  let update := gradient_update diff (fun g => g) opt fold_in
    (fun key p m (b : X * list T) => (total_of (log_prob (outputs key p m (fst b)) (snd b)) * (inject_Z (Z.of_nat n_train) / inject_Z (Z.of_nat (length (snd b)))) + log_prior p)%Q)
    (fun key p m b => match m with Some _ => Some (snd (net p (Some key) true m (fst b))) | None => None end) in
  let at_ := after update (step s) (length ms) bs (params s, opt_state s, mutable s) in
  (length ms <= n_epochs cfg)%nat /\ (is_active (stop_config cfg) = false -> length ms = n_epochs cfg)
  /\ (params s', opt_state s', mutable s') = at_ (length ms * length bs)%nat
  /\ (length ms = n_epochs cfg -> length kept = n)
  /\ exists steps, length kept = length steps /\ StronglySorted lt steps /\ (length steps <= n)%nat
     /\ (forall k, In k steps -> (1 <= k <= length ms * length bs)%nat /\ cyclical_due L thin ratio k)
     /\ (forall k, (1 <= k <= length ms * length bs)%nat -> cyclical_due L thin ratio k -> In k steps \/ (length steps = n /\ forall k', In k' steps -> (k' < k)%nat))
     /\ forall j k, nth_error steps j = Some k -> exists st, nth_error kept j = Some (j, st) /\ (params st, opt_state st, mutable st) = at_ k.
Proof. exact (@cyclical_spec). Qed.
Print Assumptions C158_cyclical.

(** C158: the losses reported are means of log joint probabilities *)
Theorem C158_reports : forall (P M X T O K G OS Pr Un C : Type) (predict : O -> Pr) (fold_in : nat -> K) (diff : (P -> Q) -> P -> G)
    gadd gdiv zeros_like clip_by (opt : G -> OS -> P -> P * OS) (net : P -> option K -> bool -> option M -> X -> O * M) (log_prior : P -> Q)
    (calibrator : option (bool -> option C -> O -> O * C)) calib_mutable (log_prob : O -> list T -> list Q) n_train n_val
    (metrics : option (list (Pr -> option Un -> list T -> Q))) training_metrics do n monitor cfg bs vs (s s' : tstate P OS G (option M)) kept ms mvs,
  (forall f g p, (forall q, f q = g q) -> diff f p = diff g p) ->
  chain_run P M X T O K G OS Pr Un predict fold_in diff gadd gdiv zeros_like clip_by opt do n
    (chain_setting P M X T O K Pr Un net log_prior calibrator calib_mutable log_prob n_train n_val metrics training_metrics) monitor cfg bs vs s = Ok (s', kept, ms, mvs) ->
  let outputs := fun key train p m x => let o := fst (net p key train m x) in
    match calibrator with None => o | Some f => fst (f false (match calib_mutable with Some c => c | None => None end) o) end in
  let log_joint := fun n o (ys : list T) p => (total_of (log_prob o ys) * (inject_Z (Z.of_nat n) / inject_Z (Z.of_nat (length ys))) + log_prior p)%Q in
  let update := gradient_update diff (fun g => g) opt fold_in
    (fun key p m (b : X * list T) => log_joint n_train (outputs (Some key) true p m (fst b)) (snd b) p)
    (fun key p m b => match m with Some _ => Some (snd (net p (Some key) true m (fst b))) | None => None end) in
  let at_ := after update (step s) (length ms) bs (params s, opt_state s, mutable s) in
  (forall e, (e < length ms)%nat ->
        is_mean_of (map (fun ib => let '(p, _, m) := at_ (e * length bs + fst ib)%nat in
            let o := outputs (Some (fold_in (step s + e * length bs + fst ib)%nat)) true p m (fst (snd ib)) in let ys := snd (snd ib) in
            log_joint n_train o ys p :: match metrics with Some fs => if training_metrics then map (fun f => f (predict o) None ys) fs else [] | None => [] end)
          (combine (seq 0 (length bs)) bs)) (nth e ms []))
  /\ match vs with
     | None => mvs = []
     | Some v => Forall2 (fun e row => is_mean_of (map (fun b => let '(p, _, m) := at_ (S e * length bs)%nat in
            let o := outputs None false p m (fst b) in
            log_joint n_val o (snd b) p :: match metrics with Some fs => map (fun f => f (predict o) None (snd b)) fs | None => [] end) v) row)
          (validation_epochs (eval_every cfg) (length ms)) mvs
     end.
Proof. exact (@reports). Qed.
Print Assumptions C158_reports.

Local Open Scope R_scope.
(** C158: with the integrator of SGHMC these updates are those of underdamped Langevin dynamics with the
    scheduled step sizes: momentum, preconditioned noise from a new key at every update *)
Theorem C158_sghmc_dynamics : forall (Co K2 M X T K : Type) (split : K2 -> K2 * K2) (normal : Co -> K2 -> R) (pc : preconditioner)
    (fold_in : nat -> K) (diff : ((Co -> R) -> Q) -> (Co -> R) -> Co -> R) (objective : K -> (Co -> R) -> option M -> X * list T -> Q)
    (change : K -> (Co -> R) -> option M -> X * list T -> option M) decay schedule j n bs key p0 m0,
  let update := gradient_update diff (fun g => g) (sghmc_opt Co K2 split normal pc decay schedule) fold_in objective change in
  let at_ := after update j n bs (p0, integrator_init Co K2 pc key p0, m0) in
  let p := fun k => fst (fst (at_ k)) in
  exists (mom : nat -> Co -> R) (prec : nat -> Co -> pc_state pc),
    (forall c, mom 0%nat c = 0 /\ prec 0%nat c = pc_init pc)
    /\ forall k b, (k < n * length bs)%nat -> nth_error bs (k mod length bs) = Some b -> forall c,
       let g := diff (fun q => objective (fold_in (j + k)%nat) q (snd (at_ k)) b) (p k) c in
       let noise := pc_sqrt pc (normal c (fst (split (chain_key split k key)))) (prec (S k) c) in
       prec (S k) c = pc_update pc g (prec k c)
       /\ mom (S k) c = decay * mom k c + g * sqrt (schedule k) + noise * sqrt (2 * (1 - decay))
       /\ p (S k) c = p k c + pc_inv pc (mom (S k) c) (prec (S k) c) * sqrt (schedule k).
Proof. exact (@sghmc_dynamics). Qed.
Print Assumptions C158_sghmc_dynamics.

(** C158: with that of cyclical SGLD they are gradient ascent in the exploration phase of a cycle, Langevin
    dynamics in the rest *)
Theorem C158_cyclical_dynamics : forall (Co K2 M X T K : Type) (split : K2 -> K2 * K2) (normal : Co -> K2 -> R) (pc : preconditioner)
    (fold_in : nat -> K) (diff : ((Co -> R) -> Q) -> (Co -> R) -> Co -> R) (objective : K -> (Co -> R) -> option M -> X * list T -> Q)
    (change : K -> (Co -> R) -> option M -> X * list T -> option M) L ratio schedule j n bs key p0 m0, (0 < L)%nat ->
  let update := gradient_update diff (fun g => g) (cyclical_opt Co K2 split normal pc L ratio schedule) fold_in objective change in
  let at_ := after update j n bs (p0, integrator_init Co K2 pc key p0, m0) in
  let p := fun k => fst (fst (at_ k)) in
  exists (keys : nat -> K2) (prec : nat -> Co -> pc_state pc),
    keys 0%nat = key /\ (forall c, prec 0%nat c = pc_init pc)
    /\ forall k b, (k < n * length bs)%nat -> nth_error bs (k mod length bs) = Some b ->
       (keys (S k) = if Qlt_le_dec (nQ (k mod L)) (ratio * nQ L) then keys k else snd (split (keys k)))
       /\ forall c,
       let g := diff (fun q => objective (fold_in (j + k)%nat) q (snd (at_ k)) b) (p k) c in
       let noise := pc_sqrt pc (normal c (fst (split (keys k)))) (prec (S k) c) in
       prec (S k) c = pc_update pc g (prec k c)
       /\ p (S k) c = p k c + if Qlt_le_dec (nQ (k mod L)) (ratio * nQ L) then pc_inv pc (schedule k * g) (prec (S k) c)
                             else pc_inv pc (g * sqrt (schedule k) + noise * sqrt 2) (prec (S k) c) * sqrt (schedule k).
Proof. exact (@cyclical_dynamics). Qed.
Print Assumptions C158_cyclical_dynamics.

Local Close Scope R_scope.
(** C158: early stopping waits for lower log joint probabilities: a run that improves at every epoch is stopped
    and samples are missing *)
Theorem C158_stopping_refuted : exists s' kept ms mvs,
  n_sghmc 5 1 0 (n_cfg 5 (Some 2%Z)) w_batch (Some w_batch) (t_state None) = Ok (s', kept, ms, mvs)
  /\ (forall e v w, nth_error mvs e = Some [v] -> nth_error mvs (S e) = Some [w] -> (v < w)%Q)
  /\ List.length mvs = 4%nat /\ (List.length ms < 5)%nat /\ (List.length kept < 5)%nat.
Proof. exact (@stopping_refuted). Qed.
Print Assumptions C158_stopping_refuted.

Example C158_case_sghmc :
  n_view (n_sghmc 2 2 1 (n_cfg 3 None) w_batches None (t_state None))
  = Ok ((10668 # 15625)%Q, [(0%nat, (99 # 125)%Q, 3%nat); (1%nat, (2667 # 3125)%Q, 5%nat)], [[(-92 # 25)%Q]; [(-42488 # 15625)%Q]; [(-25054232 # 9765625)%Q]], [])
  /\ n_view (n_sghmc 2 2 1 (n_cfg 2 None) w_batches None (t_state None)) = Err ValueError.
Proof. vm_compute. repeat split. Qed.
Example C158_case_cyclical :
  n_view (n_cyclical 2 1 4 (1 # 2) (n_cfg 3 None) w_batches None (t_state None))
  = Ok ((10668 # 15625)%Q, [(0%nat, (12 # 25)%Q, 2%nat); (1%nat, (99 # 125)%Q, 3%nat)], [[(-92 # 25)%Q]; [(-42488 # 15625)%Q]; [(-25054232 # 9765625)%Q]], []).
Proof. vm_compute. repeat split. Qed.
(** gradient 1, noise 1, step size 1, decay 1/2: momenta 2 and 3 *)
Example C158_case_dynamics :
  fst (fst (after (gradient_update (fun _ _ (_ : unit) => 1%R) (fun g => g) (sghmc_opt unit nat (fun k => (k, S k)) (fun _ _ => 1%R) identity_pc (/ 2)%R (fun _ => 1%R)) (fun j => j)
      (fun _ _ (_ : option unit) (_ : unit * list unit) => 0%Q) (fun _ _ m _ => m)) 0 2 [(tt, [tt])] (fun _ => 0%R, integrator_init unit nat identity_pc 0%nat (fun _ => 0%R), None) 2)) tt = 5%R.
Proof.
  cbn -[Rplus Rmult Rinv Rminus sqrt IZR]. replace (2 * (1 - / 2))%R with 1%R by field. rewrite sqrt_1. field.
Qed.
