(** Properties of whole fits of ADVI (C159). *)
From Coq Require Import List Arith ZArith QArith Bool String.
From Verif Require Import Lib NestedModel NestedSpec FreezeSpec LapModel FlatModel QuantModel TrainModel TrainSpec TrainProofs4 DescModel DescSpec DescCases FlowModel FlowSpec FlowProofs2 FlowProofs3 FlowCases.
From Verif Require Import Lit.
Import ListNotations.
Open Scope list_scope.
Local Notation length := List.length.

(** C159: training of a flow is stochastic gradient descent on the average of minus the log joint probability over
    points drawn from the flow, minus the average of the log determinants; points and networks use parts of the key of
    the step; mutable variables come from the last point; validation uses the key of the run at every epoch *)
Theorem C159_training : forall (P M X T O K G OS Pr Un C : Type) (ex : Q -> Q) (split : K -> K * K) (normal : K -> nat -> nat -> list (list Q)) (predict : O -> Pr) (fold_in : nat -> K)
    (diff : (flow -> Q) -> flow -> G) gadd gdiv zeros_like clip_by (opt : G -> OS -> flow -> flow * OS) lb d n_samples (unravel : list Q -> P) run_key
    (net : P -> option K -> bool -> option M -> X -> O * M) (log_prior : P -> Q)
    (calibrator : option (bool -> option C -> O -> O * C)) calib_mutable (log_prob : O -> list T -> list Q) n_train n_val
    (metrics : option (list (Pr -> option Un -> list T -> Q))) training_metrics h monitor cfg bs vs (s s' : tstate flow OS G (option M)) ms mvs,
  (forall f g p, (forall q, f q = g q) -> diff f p = diff g p) -> (forall a, h_accumulation h = Some a -> (a <= 1)%nat) ->
  (forall key, length (normal key n_samples d) = n_samples) ->
  advi_run M X T O K G OS Pr Un predict fold_in diff gadd gdiv zeros_like clip_by opt h
    (flow_setting P M X T O K Pr Un ex split normal lb d n_samples unravel run_key net log_prior calibrator calib_mutable log_prob n_train n_val metrics training_metrics) monitor cfg bs vs s = Ok (s', ms, mvs) ->
  let draws := fun key f => map (fun z => unravel (placed ex lb (fl_mean f) (fl_log_std f) z)) (normal (snd (split (snd (split key)))) n_samples d) in
  let outputs := fun key train p m x => let o := fst (net p (Some key) train m x) in
    match calibrator with None => o | Some f => fst (f false (match calib_mutable with Some c => c | None => None end) o) end in
  let negative_log_joint := fun n o (ys : list T) p => (- (total_of (log_prob o ys) * (inject_Z (Z.of_nat n) / inject_Z (Z.of_nat (length ys))) + log_prior p))%Q in
  let objective := fun n train key f m (b : X * list T) =>
    (average_of (map (fun p => negative_log_joint n (outputs (fst (split key)) train p m (fst b)) (snd b) p) (draws key f)) - average_of (map (fun _ => total_of (fl_log_std f)) (draws key f)))%Q in
  let measured := fun train key f m (b : X * list T) fs => map (fun g : Pr -> option Un -> list T -> Q =>
    average_of (map (fun p => g (predict (outputs (fst (split key)) train p m (fst b))) None (snd b)) (draws key f))) fs in
  let clip := fun g => match h_norm h with Some b => if Qlt_le_dec 0 b then clip_by b g else g | None => g end in
  let update := gradient_update diff clip opt fold_in (objective n_train true)
    (fun key f m b => match m with
                      | Some _ => option_map (fun p => snd (net p (Some (fst (split key))) true m (fst b))) (nth_error (draws key f) (n_samples - 1))
                      | None => None end) in
  let at_ := fun e i => descend update (step s) (before e i bs) (params s, opt_state s, mutable s) in
  (length ms <= n_epochs cfg)%nat /\ (is_active (stop_config cfg) = false -> length ms = n_epochs cfg)
  /\ (params s', opt_state s', mutable s') = at_ (length ms) 0%nat /\ step s' = (step s + length ms * length bs)%nat
  /\ (forall e, (e < length ms)%nat ->
        is_mean_of (map (fun ib => let '(f, _, m) := at_ e (fst ib) in let key := fold_in (step s + e * length bs + fst ib)%nat in
            objective n_train true key f m (snd ib) :: match metrics with Some fs => if training_metrics then measured true key f m (snd ib) fs else [] | None => [] end)
          (combine (seq 0 (length bs)) bs)) (nth e ms []))
  /\ match vs with
     | None => mvs = []
     | Some v => Forall2 (fun e row => is_mean_of (map (fun b => let '(f, _, m) := at_ (S e) 0%nat in
            objective n_val false run_key f m b :: match metrics with Some fs => measured false run_key f m b fs | None => [] end) v) row)
          (validation_epochs (eval_every cfg) (length ms)) mvs
     end.
Proof. exact (@flow_fit). Qed.
Print Assumptions C159_training.

(** C159: with a positive number of points the second average is the sum of the logarithms of the standard deviations *)
Theorem C159_determinant : forall A (draws : list A) c, draws <> [] -> (average_of (map (fun _ => c) draws) == c)%Q.
Proof. exact average_const. Qed.
Print Assumptions C159_determinant.

(** C159: a whole fit of ADVI starts at the initial parameters, stores the means and standard deviations at which
    the descent ends, and the posterior then draws from the Gaussian whose loss was minimised *)
Theorem C159_fit_and_draws : forall (M X T O K G OS Pr Un C : Type) (ex : Q -> Q) (split : K -> K * K) (normal : K -> nat -> nat -> list (list Q)) (predict : O -> Pr) (fold_in : nat -> K)
    (diff : (flow -> Q) -> flow -> G) gadd gdiv zeros_like clip_by (opt : G -> OS -> flow -> flow * OS) (opt_init : flow -> OS) std lb n_samples normals run_key
    (init : list (string * tree (list Q))) (m m' : option M) (net : tree (list Q) -> option K -> bool -> option M -> X -> O * M) (log_prior : tree (list Q) -> Q)
    (calibrator : option (bool -> option C -> O -> O * C)) calib_mutable (log_prob : O -> list T -> list Q) n_train n_val
    (metrics : option (list (Pr -> option Un -> list T -> Q))) training_metrics h monitor cfg bs vs state ms mvs,
  let d := length (ravel (wrap init)) in
  (forall f g p, (forall q, f q = g q) -> diff f p = diff g p) -> (forall a, h_accumulation h = Some a -> (a <= 1)%nat) ->
  (forall key n, length (normal key n d) = n /\ Forall (fun z => length z = d) (normal key n d)) -> length (normals d) = d ->
  (forall g o f, length (fl_mean (fst (opt g o f))) = length (fl_mean f) /\ length (fl_log_std (fst (opt g o f))) = length (fl_log_std f)) ->
  unique_keys (Dict init) ->
  advi_fit M X T O K G OS Pr Un ex split normal predict fold_in diff gadd gdiv zeros_like clip_by opt opt_init std lb n_samples normals run_key init m
    net log_prior calibrator calib_mutable log_prob n_train n_val metrics training_metrics h monitor cfg bs vs = Ok (state, m', ms, mvs) ->
  exists arranged, (forall v, length v = d -> same_structure (wrap init) (arranged v) /\ ravel (arranged v) = v) /\
  let draws := fun key f => map (fun z => arranged (placed ex lb (fl_mean f) (fl_log_std f) z)) (normal (snd (split (snd (split key)))) n_samples d) in
  let outputs := fun key p m x => let o := fst (net p (Some key) true m x) in
    match calibrator with None => o | Some f => fst (f false (match calib_mutable with Some c => c | None => None end) o) end in
  let negative_log_joint := fun o (ys : list T) p => (- (total_of (log_prob o ys) * (inject_Z (Z.of_nat n_train) / inject_Z (Z.of_nat (length ys))) + log_prior p))%Q in
  let objective := fun key f m (b : X * list T) =>
    (average_of (map (fun p => negative_log_joint (outputs (fst (split key)) p m (fst b)) (snd b) p) (draws key f)) - average_of (map (fun _ => total_of (fl_log_std f)) (draws key f)))%Q in
  let clip := fun g => match h_norm h with Some b => if Qlt_le_dec 0 b then clip_by b g else g | None => g end in
  let update := gradient_update diff clip opt fold_in objective
    (fun key f m b => match m with
                      | Some _ => option_map (fun p => snd (net p (Some (fst (split key))) true m (fst b))) (nth_error (draws key f) (n_samples - 1))
                      | None => None end) in
  let f0 := {| fl_mean := ravel (wrap init); fl_log_std := map (fun z => (std * z)%Q) (normals d) |} in
  let '(f, _, mu) := descend update 0 (passes (length ms) bs) (f0, opt_init f0, m) in
  (length ms <= n_epochs cfg)%nat /\ (is_active (stop_config cfg) = false -> length ms = n_epochs cfg)
  /\ same_structure (wrap init) (wrap (first_components state)) /\ ravel (wrap (first_components state)) = fl_mean f
  /\ same_structure (wrap init) (wrap (second_components state)) /\ ravel (wrap (second_components state)) = fl_log_std f
  /\ m' = mu
  /\ forall key, exists z, normal (snd (split key)) 1%nat d = [z] /\ advi_draw K ex split normal lb init state key = Ok (arranged (placed ex lb (fl_mean f) (fl_log_std f) z)).
Proof. exact (@advi_whole). Qed.
Print Assumptions C159_fit_and_draws.
Example C159_case_unique : unique_keys (Dict w_init) /\ length (ravel (wrap w_init)) = 2%nat.
Proof. split; [uniq|reflexivity]. Qed.

Example C159_case :
  w_view (w_fit 2 (t_cfg 1) [(1%Q, [2%Q])] (Some [(2%Q, [3%Q])]) (Some 0%nat))
  = Ok ([9 # 5; 4 # 5]%Q, [1 # 10; 1 # 10]%Q, Some 1%nat, [[1; 1]]%Q, [[117 # 100; 2 # 5]]%Q)
  /\ w_drawn (w_fit 2 (t_cfg 1) [(1%Q, [2%Q])] (Some [(2%Q, [3%Q])]) (Some 0%nat)) = Ok [29 # 10; - 3 # 10]%Q
  /\ w_view (w_fit 1 (t_cfg 2) [(1%Q, [2%Q])] None None)
  = Ok ([44 # 25; 19 # 25]%Q, [- 1 # 25; 11 # 25]%Q, None, [[1; 1]; [- 4 # 25; 1 # 5]]%Q, []).
Proof. vm_compute. repeat split. Qed.
