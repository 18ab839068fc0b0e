(** Properties of whole fits of SWAG (C157). *)
From Coq Require Import List Arith ZArith QArith Bool String.
From Verif Require Import Lib QuantModel TrainModel TrainSpec TrainProofs4 McmcModel DescModel DescSpec DescCases SwagModel SwagSpec SwagProofs2 SwagProofs3 SwagProofs4 SwagProofs5 SwagProofs6 SwagCases.
Import ListNotations.
Open Scope list_scope.
Local Notation length := List.length.

(** C157: a fit of SWAG is gradient descent on minus the log joint probability for exactly the requested
    epochs, without clipping; coordinate by coordinate, mean and second moment of the fitted state are
    weighted averages of the iterates after each update, iterate i of epoch e having weight
    e^(B-1-i) (e+1)^i out of E^B, and the columns of deviations are those of the last [rank] updates *)
Theorem C157_fit : forall (P M X T O K G OS Pr Un C : Type) (predict : O -> Pr) (fold_in : nat -> K) (diff : (P -> Q) -> P -> G)
    gadd gdiv zeros_like clip_by (opt : G -> OS -> P -> P * OS) (ravel : P -> list Q) (net : P -> option K -> bool -> option M -> X -> O * M) (log_prior : P -> Q)
    (calibrator : option (bool -> option C -> O -> O * C)) calib_mutable (log_prob : O -> list T -> list Q) n_train n_val
    (metrics : option (list (Pr -> option Un -> list T -> Q))) training_metrics rank h monitor cfg bs vs (s s' : tstate P OS G (option M)) stats ms mvs d,
  (forall f g p, (forall q, f q = g q) -> diff f p = diff g p) -> (forall p, length (ravel p) = d) ->
  swag_fit P M X T O K G OS Pr Un predict fold_in diff gadd gdiv zeros_like clip_by opt ravel rank h
    (map_setting P M X T O K Pr Un net log_prior calibrator calib_mutable log_prob n_train n_val metrics training_metrics) monitor cfg bs vs s = Ok (s', stats, ms, mvs) ->
  let outputs := fun key p m x => let o := fst (net p (Some key) true m x) in
    match calibrator with None => o | Some f => fst (f false (match calib_mutable with Some c => c | None => None end) o) end in
  let update := gradient_update diff (fun g => g) opt fold_in
    (fun key p m (b : X * list T) => (- (total_of (log_prob (outputs key p m (fst b)) (snd b)) * (inject_Z (Z.of_nat n_train) / inject_Z (Z.of_nat (length (snd b)))) + log_prior p))%Q)
    (fun key p m b => match m with Some _ => Some (snd (net p (Some key) true m (fst b))) | None => None end) in
  let at_ := fun e i => descend update (step s) (before e i bs) (params s, opt_state s, mutable s) in
  let E := n_epochs cfg in let B := length bs in
  (2 <= rank < E)%nat /\ (0 < B)%nat /\ length ms = E
  /\ (params s', opt_state s', mutable s') = at_ E 0%nat /\ step s' = (step s + E * B)%nat
  /\ length stats = d
  /\ forall j, (j < d)%nat ->
     let x := fun e i => nth j (ravel (fst (fst (at_ e (S i))))) 0%Q in
     exists w, nth_error stats j = Some (Some w)
     /\ (sw_mean w * natq (E ^ B) == weighted B E x)%Q
     /\ ((swag_var w + sw_mean w * sw_mean w) * natq (E ^ B) == weighted B E (fun e i => x e i * x e i))%Q
     /\ length (sw_dev w) = rank
     /\ (forall l, (l < rank)%nat -> exists m, let q := (E * B - rank + l)%nat in let e := (q / B)%nat in let i := (q mod B)%nat in
           nth l (sw_dev w) 0%Q = (x e i - m)%Q /\ (0 < e)%nat
           /\ (m * natq (e ^ (B - 1 - i) * (e + 1) ^ S i) == weighted B e x + sum_below (S i) (fun k => swag_weight B e k * x e k))%Q).
Proof. exact (@swag_fit_spec). Qed.
Print Assumptions C157_fit.

(** C157: after a preliminary fit of MAP, SWAG starts from the parameters MAP ends with, a new state of the
    optimizer and step zero *)
Theorem C157_after_map : forall (P M X T O K G OS1 OS Pr Un C : Type) (predict : O -> Pr) (diff : (P -> Q) -> P -> G)
    gadd gdiv zeros_like clip_by (ravel : P -> list Q) rank (fold_in1 fold_in2 : nat -> K) (opt1 : G -> OS1 -> P -> P * OS1) (opt2 : G -> OS -> P -> P * OS) opt_init
    (net : P -> option K -> bool -> option M -> X -> O * M) (log_prior : P -> Q)
    (calibrator : option (bool -> option C -> O -> O * C)) calib_mutable (log_prob : O -> list T -> list Q) n_train n_val
    (metrics1 metrics2 : option (list (Pr -> option Un -> list T -> Q))) training1 training2 h1 h2 monitor1 monitor2 cfg1 cfg2 bs vs (s : tstate P OS1 G (option M)) (s' : tstate P OS G (option M)) stats ms mvs d,
  (forall f g p, (forall q, f q = g q) -> diff f p = diff g p) -> (forall p, length (ravel p) = d) -> (forall a, h_accumulation h1 = Some a -> (a <= 1)%nat) ->
  swag_after_map P M X T O K G OS1 OS Pr Un predict diff gadd gdiv zeros_like clip_by ravel rank fold_in1 fold_in2 opt1 opt2 opt_init h1 h2
    (map_setting P M X T O K Pr Un net log_prior calibrator calib_mutable log_prob n_train n_val metrics1 training1)
    (map_setting P M X T O K Pr Un net log_prior calibrator calib_mutable log_prob n_train n_val metrics2 training2) monitor1 monitor2 cfg1 cfg2 bs vs s = Ok (s', stats, ms, mvs) ->
  let outputs := fun key p m x => let o := fst (net p (Some key) true m x) in
    match calibrator with None => o | Some f => fst (f false (match calib_mutable with Some c => c | None => None end) o) end in
  let objective := fun key p m (b : X * list T) => (- (total_of (log_prob (outputs key p m (fst b)) (snd b)) * (inject_Z (Z.of_nat n_train) / inject_Z (Z.of_nat (length (snd b)))) + log_prior p))%Q in
  let next := fun key p m (b : X * list T) => match m with Some _ => Some (snd (net p (Some key) true m (fst b))) | None => None end in
  let clip1 := fun g => match h_norm h1 with Some b => if Qlt_le_dec 0 b then clip_by b g else g | None => g end in
  let E := n_epochs cfg2 in let B := length bs in
  exists E1, let '(p1, _, m1) := descend (gradient_update diff clip1 opt1 fold_in1 objective next) (step s) (before E1 0 bs) (params s, opt_state s, mutable s) in
    let at2 := fun e i => descend (gradient_update diff (fun g => g) opt2 fold_in2 objective next) 0 (before e i bs) (p1, opt_init p1, m1) in
    (E1 <= n_epochs cfg1)%nat /\ (is_active (stop_config cfg1) = false -> E1 = n_epochs cfg1)
    /\ (params s', opt_state s', mutable s') = at2 E 0%nat /\ length stats = d
    /\ forall j, (j < d)%nat ->
       let x := fun e i => nth j (ravel (fst (fst (at2 e (S i))))) 0%Q in
       exists w, nth_error stats j = Some (Some w)
       /\ (sw_mean w * natq (E ^ B) == weighted B E x)%Q
       /\ ((swag_var w + sw_mean w * sw_mean w) * natq (E ^ B) == weighted B E (fun e i => x e i * x e i))%Q.
Proof. exact (@swag_after_map_spec). Qed.
Print Assumptions C157_after_map.

(** C157: apart from the statistics, a fit of SWAG is a fit of MAP without early stopping, clipping and
    accumulation, whatever the configuration says about them *)
Theorem C157_is_map : forall (P M X T O K G OS Pr Un : Type) (predict : O -> Pr) (fold_in : nat -> K) (diff : (P -> Q) -> P -> G)
    gadd gdiv zeros_like clip_by (opt : G -> OS -> P -> P * OS) (ravel : P -> list Q) rank h (c : setting P M X T O K Pr Un) monitor cfg bs vs s,
  (2 <= rank < n_epochs cfg)%nat ->
  rmap (fun r => let '(s', _, ms, mvs) := r in (s', ms, mvs))
    (swag_fit P M X T O K G OS Pr Un predict fold_in diff gadd gdiv zeros_like clip_by opt ravel rank h c monitor cfg bs vs s)
  = fit P M X T O K G OS Pr Un predict fold_in diff gadd gdiv zeros_like clip_by opt FitMAP {| h_norm := None; h_accumulation := None |} c monitor
      {| accumulation := accumulation cfg; n_epochs := n_epochs cfg; eval_every := eval_every cfg; save_dir := save_dir cfg; save_every := save_every cfg;
         stop_config := {| patience := Some 0%Z; mode := Some "min"%string; min_delta := 0 |} |} bs vs s.
Proof. exact (@swag_is_map). Qed.
Print Assumptions C157_is_map.

(** C157: the weights of one epoch and of all epochs before an epoch *)
Theorem C157_weights_of_epochs : forall B e, (0 < B)%nat ->
  (sum_below B (swag_weight B e) == natq ((e + 1) ^ B) - natq (e ^ B))%Q
  /\ (sum_below e (fun e => sum_below B (swag_weight B e)) == natq (e ^ B))%Q.
Proof. exact (@weights_of_epochs). Qed.
Print Assumptions C157_weights_of_epochs.

(** C157: of the first epoch only the last iterate counts *)
Theorem C157_first_epoch : forall B i, (i < B)%nat -> (swag_weight B 0 i == if Nat.eqb (S i) B then 1 else 0)%Q.
Proof. exact (@weights_first_epoch). Qed.
Print Assumptions C157_first_epoch.

(** C157: with one batch per epoch the weights are equal *)
Theorem C157_one_batch : forall E x, (weighted 1 E x == sum_below E (fun e => x e 0%nat))%Q /\ (natq (E ^ 1) == natq E)%Q.
Proof. exact (@one_batch). Qed.
Print Assumptions C157_one_batch.

(** C157: with more batches the mean need not be the average of the iterates *)
Theorem C157_average_refuted : exists s' w ms mvs,
  w_fit 2 no_h (t_cfg 3) w_batches None (t_state None) = Ok (s', [Some w], ms, mvs)
  /\ let at_ := fun e i => descend (gradient_update t_diff (fun g => g) t_opt (fun j => j)
        (fun key p m (b : Q * list Q) => (- (total_of (t_log_prob (fst (t_net p (Some key) true m (fst b))) (snd b)) * (inject_Z 2 / inject_Z (Z.of_nat (List.length (snd b)))) + - p * p))%Q)
        (fun key p m b => match m with Some _ => Some (snd (t_net p (Some key) true m (fst b))) | None => None end)) 0 (before e i w_batches) (0%Q, 0%nat, None) in
     let x := fun e i => fst (fst (at_ e (S i))) in
     (params s' == x 2%nat 1%nat)%Q /\ (sw_mean w * natq (3 ^ 2) == weighted 2 3 x)%Q /\ ~ (sw_mean w * natq (3 * 2) == sum_below 3 (fun e => sum_below 2 (x e)))%Q.
Proof. exact (@average_refuted). Qed.
Print Assumptions C157_average_refuted.

Example C157_case_fit :
  w_view (w_fit 2 no_h (t_cfg 3) w_batch None (t_state None)) = Ok ((117 # 125)%Q, 3%nat, [Some ((99 # 125)%Q, (312 # 15625)%Q, [(3 # 25)%Q; (18 # 125)%Q])])
  /\ w_view (w_fit 2 clip_h (t_cfg 3) w_batches None (t_state None)) = Ok ((10668 # 15625)%Q, 6%nat, [Some ((32783 # 46875)%Q, (27748658 # 2197265625)%Q, [(911 # 6250)%Q; (-779 # 46875)%Q])])
  /\ t_final (t_fit FitMAP no_h t_map (t_cfg 3) w_batches None (t_state None)) = Ok ((10668 # 15625)%Q, None, 6%nat).
Proof. vm_compute. repeat split. Qed.
Example C157_case_rank :
  w_view (w_fit 2 no_h (t_cfg 2) w_batches None (t_state None)) = Err ValueError
  /\ w_view (w_fit 1 no_h (t_cfg 3) w_batches None (t_state None)) = Err ValueError.
Proof. vm_compute. repeat split. Qed.
Example C157_case_after_map :
  w_view (w_after 2 clip_h (t_cfg 1) (t_cfg 3) w_batches (t_state (Some 0%nat)))
  = Ok ((267724 # 390625)%Q, 6%nat, [Some ((2484757 # 3515625)%Q, (143329963778 # 12359619140625)%Q, [(65269 # 468750)%Q; (-75241 # 3515625)%Q])]).
Proof. vm_compute. repeat split. Qed.
(** ten batches per epoch, three epochs: less than two percent of the weight is on the first two *)
Example C157_case_share : (sum_below 2 (fun e => sum_below 10 (swag_weight 10 e)) == 1024)%Q /\ (natq (3 ^ 10) == 59049)%Q.
Proof. vm_compute. repeat split. Qed.
