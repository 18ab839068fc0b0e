(** Fits of stochastic gradient samplers that continue earlier ones (C171). *)
From Coq Require Import List Arith ZArith QArith Bool String Sorted.
From Verif Require Import Lib QuantModel TrainModel TrainSpec TrainProofs4 McmcModel McmcSpec DescModel DescSpec DescCases SwagCases ChainModel ChainSpec ChainCases ChainContModel ChainContSpec ChainContProofs ChainContCases ChainContProofs2.
Import ListNotations.
Open Scope list_scope.
Local Notation length := List.length.

(** After any number of fits of SGHMC, the samples and the end of the chain are those of the last fit alone: from
    the parameters and mutable variables of the end of the chain before it (from a checkpoint) or of the last
    sample before it (from the current state), with a new state of the integrator, from step zero, and with a
    new burn-in. *)
Theorem C171_last_sghmc {P M X T O K G OS Pr Un C : Type} (predict : O -> Pr) (diff : (P -> Q) -> P -> G) gadd gdiv zeros_like clip_by (net : P -> option K -> bool -> option M -> X -> O * M) (log_prior : P -> Q)
    (calibrator : option (bool -> option C -> O -> O * C)) calib_mutable (log_prob : O -> list T -> list Q) n_train n_val
    (metrics : option (list (Pr -> option Un -> list T -> Q))) training_metrics n thin burnin (l : list (chain_args P M X T O K G OS Pr Un)) (a : chain_args P M X T O K G OS Pr Un) (k k' : kept_chain P M G OS) :
  (forall f g p, (forall q, f q = g q) -> diff f p = diff g p) -> (0 < thin)%nat ->
  ca_setting a = chain_setting P M X T O K Pr Un net log_prior calibrator calib_mutable log_prob n_train n_val metrics training_metrics ->
  chain_fits P M X T O K G OS Pr Un predict diff gadd gdiv zeros_like clip_by (Sghmc n thin burnin) (l ++ [a]) k = Ok k' ->
  exists k1 s1 epochs, chain_fits P M X T O K G OS Pr Un predict diff gadd gdiv zeros_like clip_by (Sghmc n thin burnin) l k = Ok k1 /\ start_of n (ca_file a) k1 s1 /\
  let outputs := fun key p m x => let o := fst (net p (Some key) true m x) in
    match calibrator with None => o | Some f => fst (f false (match calib_mutable with Some c => c | None => None end) o) end in
  let update := gradient_update diff (fun g => g) (ca_opt a) (ca_keys a)
    (fun key p m (b : X * list T) => (total_of (log_prob (outputs key p m (fst b)) (snd b)) * (inject_Z (Z.of_nat n_train) / inject_Z (Z.of_nat (length (snd b)))) + log_prior p)%Q)
    (fun key p m b => match m with Some _ => Some (snd (net p (Some key) true m (fst b))) | None => None end) in
  let B := length (ca_batches a) in
  let at_ := after update 0 epochs (ca_batches a) (params s1, ca_init a (params s1), mutable s1) in
  let s' := kc_end k' in let kept := kc_samples k' in
  (epochs <= n_epochs (ca_cfg a))%nat /\ (is_active (stop_config (ca_cfg a)) = false -> epochs = n_epochs (ca_cfg a))
  /\ (params s', opt_state s', mutable s') = at_ (epochs * B)%nat
  /\ length kept = Nat.min n ((epochs * B - burnin) / thin)
  /\ (epochs = n_epochs (ca_cfg a) -> length kept = n)
  /\ forall j, (j < length kept)%nat -> exists st, nth_error kept j = Some (j, st) /\ (params st, opt_state st, mutable st) = at_ (due_step burnin thin j).
Proof. exact (last_sghmc predict diff gadd gdiv zeros_like clip_by net log_prior calibrator calib_mutable log_prob n_train n_val metrics training_metrics n thin burnin l a k k'). Qed.
Print Assumptions C171_last_sghmc.
Example C171_case_hypotheses : (forall f g p, (forall q, f q = g q) -> t_diff f p = t_diff g p) /\
  ca_setting (h_args 2 None None true) = chain_setting Q nat Q Q Q nat Q Q t_net (fun p => (- p * p)%Q) (@None (bool -> option nat -> Q -> Q * nat)) None t_log_prob 2 2 None true.
Proof. split; [|reflexivity]. intros f g p H. unfold t_diff. now rewrite !H. Qed.
Example C171_case_sghmc : h_view (h_fits (Sghmc 2 1 1) [h_args 2 None None true; h_args 2 None None true] h_start) =
  Ok ((272844 # 390625)%Q, 4%nat, 4%nat, [(0%nat, (10668 # 15625)%Q, 2%nat); (1%nat, (68211 # 78125)%Q, 3%nat)]).
Proof. vm_compute. reflexivity. Qed.

(** The same for cyclical SGLD: its cycles start anew with every fit. *)
Theorem C171_last_cyclical {P M X T O K G OS Pr Un C : Type} (predict : O -> Pr) (diff : (P -> Q) -> P -> G) gadd gdiv zeros_like clip_by (net : P -> option K -> bool -> option M -> X -> O * M) (log_prior : P -> Q)
    (calibrator : option (bool -> option C -> O -> O * C)) calib_mutable (log_prob : O -> list T -> list Q) n_train n_val
    (metrics : option (list (Pr -> option Un -> list T -> Q))) training_metrics n thin L ratio (l : list (chain_args P M X T O K G OS Pr Un)) (a : chain_args P M X T O K G OS Pr Un) (k k' : kept_chain P M G OS) :
  (forall f g p, (forall q, f q = g q) -> diff f p = diff g p) -> (0 < thin)%nat -> (0 < L)%nat ->
  ca_setting a = chain_setting P M X T O K Pr Un net log_prior calibrator calib_mutable log_prob n_train n_val metrics training_metrics ->
  chain_fits P M X T O K G OS Pr Un predict diff gadd gdiv zeros_like clip_by (Cyclical n thin L ratio) (l ++ [a]) k = Ok k' ->
  exists k1 s1 epochs, chain_fits P M X T O K G OS Pr Un predict diff gadd gdiv zeros_like clip_by (Cyclical n thin L ratio) l k = Ok k1 /\ start_of n (ca_file a) k1 s1 /\
  let outputs := fun key p m x => let o := fst (net p (Some key) true m x) in
    match calibrator with None => o | Some f => fst (f false (match calib_mutable with Some c => c | None => None end) o) end in
  let update := gradient_update diff (fun g => g) (ca_opt a) (ca_keys a)
    (fun key p m (b : X * list T) => (total_of (log_prob (outputs key p m (fst b)) (snd b)) * (inject_Z (Z.of_nat n_train) / inject_Z (Z.of_nat (length (snd b)))) + log_prior p)%Q)
    (fun key p m b => match m with Some _ => Some (snd (net p (Some key) true m (fst b))) | None => None end) in
  let B := length (ca_batches a) in
  let at_ := after update 0 epochs (ca_batches a) (params s1, ca_init a (params s1), mutable s1) in
  let s' := kc_end k' in let kept := kc_samples k' in
  (epochs <= n_epochs (ca_cfg a))%nat /\ (is_active (stop_config (ca_cfg a)) = false -> epochs = n_epochs (ca_cfg a))
  /\ (params s', opt_state s', mutable s') = at_ (epochs * B)%nat
  /\ (epochs = n_epochs (ca_cfg a) -> length kept = n)
  /\ exists steps, length kept = length steps /\ StronglySorted lt steps /\ (length steps <= n)%nat
     /\ (forall i, In i steps -> (1 <= i <= epochs * B)%nat /\ cyclical_due L thin ratio i)
     /\ (forall i, (1 <= i <= epochs * B)%nat -> cyclical_due L thin ratio i -> In i steps \/ (length steps = n /\ forall i', In i' steps -> (i' < i)%nat))
     /\ forall j i, nth_error steps j = Some i -> exists st, nth_error kept j = Some (j, st) /\ (params st, opt_state st, mutable st) = at_ i.
Proof. exact (last_cyclical predict diff gadd gdiv zeros_like clip_by net log_prior calibrator calib_mutable log_prob n_train n_val metrics training_metrics n thin L ratio l a k k'). Qed.
Print Assumptions C171_last_cyclical.
Example C171_case_cyclical : h_view (h_fits (Cyclical 2 1 2 (1 # 2)) [h_args 3 None None true; h_args 3 None None false] h_start) =
  Ok ((1384188 # 1953125)%Q, 6%nat, 6%nat, [(0%nat, (573 # 625)%Q, 1%nat); (1%nat, (13959 # 15625)%Q, 3%nat)]).
Proof. vm_compute. reflexivity. Qed.

(** When burn-in and samples use up all updates of a fit that is not stopped early, it makes no difference whether
    the next one starts from the checkpoint or from the current state. *)
Theorem C171_same_storage {P M X T O K G OS Pr Un C : Type} (predict : O -> Pr) (diff : (P -> Q) -> P -> G) gadd gdiv zeros_like clip_by (net : P -> option K -> bool -> option M -> X -> O * M) (log_prior : P -> Q)
    (calibrator : option (bool -> option C -> O -> O * C)) calib_mutable (log_prob : O -> list T -> list Q) n_train n_val
    (metrics : option (list (Pr -> option Un -> list T -> Q))) training_metrics n thin burnin (l : list (chain_args P M X T O K G OS Pr Un)) (a b : chain_args P M X T O K G OS Pr Un) (k : kept_chain P M G OS) :
  (forall f g p, (forall q, f q = g q) -> diff f p = diff g p) -> (0 < thin)%nat -> (0 < n)%nat ->
  ca_setting a = chain_setting P M X T O K Pr Un net log_prior calibrator calib_mutable log_prob n_train n_val metrics training_metrics ->
  is_active (stop_config (ca_cfg a)) = false -> (burnin + n * thin = n_epochs (ca_cfg a) * length (ca_batches a))%nat ->
  chain_fits P M X T O K G OS Pr Un predict diff gadd gdiv zeros_like clip_by (Sghmc n thin burnin) (l ++ [a; starting false b]) k = chain_fits P M X T O K G OS Pr Un predict diff gadd gdiv zeros_like clip_by (Sghmc n thin burnin) (l ++ [a; starting true b]) k.
Proof. exact (same_storage predict diff gadd gdiv zeros_like clip_by net log_prior calibrator calib_mutable log_prob n_train n_val metrics training_metrics n thin burnin l a b k). Qed.
Print Assumptions C171_same_storage.
Example C171_case_same_storage : is_active (stop_config (ca_cfg (h_args 2 None None true))) = false /\ (2 + 2 * 1 = 2 * length w_batches)%nat /\
  h_view (h_fits (Sghmc 2 1 2) [h_args 2 None None true; h_args 2 None None false] h_start) =
  Ok ((272844 # 390625)%Q, 4%nat, 4%nat, [(0%nat, (68211 # 78125)%Q, 3%nat); (1%nat, (272844 # 390625)%Q, 4%nat)]).
Proof. repeat split; vm_compute; reflexivity. Qed.

(** In general it does: the updates after the last sample are lost when continuing from the current state. *)
Theorem C171_storage_refuted : exists k1 k2, h_fits (Sghmc 2 1 1) [h_args 2 None None true; h_args 2 None None false] h_start = Ok k1 /\
  h_fits (Sghmc 2 1 1) [h_args 2 None None true; h_args 2 None None true] h_start = Ok k2 /\
  map fst (kc_samples k1) = map fst (kc_samples k2) /\ ~ (params (kc_end k1) == params (kc_end k2))%Q.
Proof. exact storage_differs. Qed.
Print Assumptions C171_storage_refuted.

(** After a fit stopped before all samples were kept, fitting from the current state raises ValueError. *)
Theorem C171_stopped {P M X T O K G OS Pr Un C : Type} (predict : O -> Pr) (diff : (P -> Q) -> P -> G) gadd gdiv zeros_like clip_by (net : P -> option K -> bool -> option M -> X -> O * M) (log_prior : P -> Q)
    (calibrator : option (bool -> option C -> O -> O * C)) calib_mutable (log_prob : O -> list T -> list Q) n_train n_val
    (metrics : option (list (Pr -> option Un -> list T -> Q))) training_metrics n thin burnin (l : list (chain_args P M X T O K G OS Pr Un)) (a b : chain_args P M X T O K G OS Pr Un) (k k' : kept_chain P M G OS) :
  (forall f g p, (forall q, f q = g q) -> diff f p = diff g p) -> (0 < thin)%nat ->
  ca_setting a = chain_setting P M X T O K Pr Un net log_prior calibrator calib_mutable log_prob n_train n_val metrics training_metrics ->
  chain_fits P M X T O K G OS Pr Un predict diff gadd gdiv zeros_like clip_by (Sghmc n thin burnin) (l ++ [a]) k = Ok k' -> (length (kc_samples k') < n)%nat ->
  chain_fits P M X T O K G OS Pr Un predict diff gadd gdiv zeros_like clip_by (Sghmc n thin burnin) (l ++ [a; starting false b]) k = Err ValueError.
Proof. exact (stopped_early predict diff gadd gdiv zeros_like clip_by net log_prior calibrator calib_mutable log_prob n_train n_val metrics training_metrics n thin burnin l a b k k'). Qed.
Print Assumptions C171_stopped.
Example C171_case_stopped : h_view (h_fits (Sghmc 2 3 2) [h_args 4 (Some 1%Z) (Some w_batches) true] h_start) =
    Ok ((10668 # 15625)%Q, 6%nat, 6%nat, [(0%nat, (2667 # 3125)%Q, 5%nat)]) /\
  h_view (h_fits (Sghmc 2 3 2) [h_args 4 (Some 1%Z) (Some w_batches) true; h_args 4 None None false] h_start) = Err ValueError /\
  is_ok (h_fits (Sghmc 2 3 2) [h_args 4 (Some 1%Z) (Some w_batches) true; h_args 4 None None true] h_start) = true.
Proof. repeat split; vm_compute; reflexivity. Qed.

(** Of what is stored, a fit only sees parameters and mutable variables, neither momenta nor steps. *)
Theorem C171_only_parameters {P M X T O K G OS Pr Un : Type} (predict : O -> Pr) (diff : (P -> Q) -> P -> G) gadd gdiv zeros_like clip_by sm (l : list (chain_args P M X T O K G OS Pr Un)) (a : chain_args P M X T O K G OS Pr Un) (k1 k2 : kept_chain P M G OS) :
  params (kc_end k1) = params (kc_end k2) -> mutable (kc_end k1) = mutable (kc_end k2) ->
  map (fun it => (fst it, params (snd it), mutable (snd it))) (kc_samples k1) = map (fun it => (fst it, params (snd it), mutable (snd it))) (kc_samples k2) ->
  chain_fits P M X T O K G OS Pr Un predict diff gadd gdiv zeros_like clip_by sm (a :: l) k1 = chain_fits P M X T O K G OS Pr Un predict diff gadd gdiv zeros_like clip_by sm (a :: l) k2.
Proof. exact (only_parameters predict diff gadd gdiv zeros_like clip_by sm l a k1 k2). Qed.
Print Assumptions C171_only_parameters.
Example C171_case_only_parameters : let other := {| kc_end := h_state 0; kc_samples := map (fun p => (fst p, {| params := snd p; opt_state := 0%nat; step := 0; mutable := Some 0%nat; acc := Some 1%Q |})) [(0%nat, 2%Q); (1%nat, 1%Q)] |} in
  h_fits (Sghmc 2 1 1) [h_args 2 None None false] h_start = h_fits (Sghmc 2 1 1) [h_args 2 None None false] other /\
  h_view (h_fits (Sghmc 2 1 1) [h_args 2 None None false] other) = Ok ((92 # 125)%Q, 4%nat, 4%nat, [(0%nat, (4 # 5)%Q, 2%nat); (1%nat, (23 # 25)%Q, 3%nat)]).
Proof. split; vm_compute; reflexivity. Qed.
