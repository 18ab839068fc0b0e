(** Properties C49 to C52 and C74 to C76: stochastic gradient MCMC and SWAG.  Proofs are in McmcProofs*.v. *)
From Coq Require Import List Arith ZArith QArith Bool Reals Sorting.Sorted.
From Verif Require Import Lib ConfRegModel MetricSpec TempModel PredModel PredSpec McmcModel McmcSpec McmcProofs McmcProofs2 McmcProofs3 McmcProofs4 McmcProofs5.
Import ListNotations.
Open Scope Q_scope.

(** C49: SGHMC and SGLD sampling *)
Theorem C49_stored : forall (S : Type) n thin burnin (states : list S), (0 < thin)%nat ->
  exists puts, sampling_run (do_sample_sghmc n thin burnin) 0 0 states = Ok puts /\
    length puts = Nat.min n ((length states - burnin) / thin) /\
    forall j, (j < length puts)%nat -> exists s, nth_error puts j = Some (j, s) /\ nth_error states (due_step burnin thin j - 1) = Some s.
Proof. exact (@sghmc_stores). Qed.
Print Assumptions C49_stored.
Theorem C49_accepted : forall n thin burnin n_epochs n_steps, (0 < thin)%nat ->
  make_callback (do_sample_sghmc n thin burnin) n n_epochs n_steps =
    if (n <=? (n_epochs * n_steps - burnin) / thin)%nat then Ok (do_sample_sghmc n thin burnin) else Err ValueError.
Proof. exact (@sghmc_accepts). Qed.
Print Assumptions C49_accepted.
Theorem C49_complete : forall (S : Type) n thin burnin n_epochs n_steps do (states : list S), (0 < thin)%nat ->
  make_callback (do_sample_sghmc n thin burnin) n n_epochs n_steps = Ok do -> length states = (n_epochs * n_steps)%nat ->
  exists puts, sampling_run do 0 0 states = Ok puts /\ map fst puts = seq 0 n /\
    forall j, (j < n)%nat -> exists s, nth_error puts j = Some (j, s) /\ nth_error states (due_step burnin thin j - 1) = Some s.
Proof. exact (@sghmc_complete). Qed.
Print Assumptions C49_complete.
Theorem C49_zero_thinning : forall n burnin n_epochs n_steps, (0 < n)%nat -> 
  make_callback (do_sample_sghmc n 0 burnin) n n_epochs n_steps = if (burnin <? n_epochs * n_steps)%nat then Err ZeroDivisionError else Err ValueError.
Proof. exact (@sghmc_zero_thinning). Qed.
Print Assumptions C49_zero_thinning.
Theorem C49_early_stop_refuted : exists n thin burnin E T do (states : list nat) puts, make_callback (do_sample_sghmc n thin burnin) n E T = Ok do /\
  (length states < E * T)%nat /\ sampling_run do 0 0 states = Ok puts /\ (length puts < n)%nat.
Proof. exact (@sghmc_stopped_refuted). Qed.
Print Assumptions C49_early_stop_refuted.
Example C49_case : sampling_run (do_sample_sghmc 3 2 1) 0 0 [10; 11; 12; 13; 14; 15; 16; 17; 18]%nat = Ok [(0, 12); (1, 14); (2, 16)]%nat
  /\ make_callback (do_sample_sghmc 3 2 1) 3 3 2 = Err ValueError /\ make_callback (do_sample_sghmc 3 2 1) 3 7 1 = Ok (do_sample_sghmc 3 2 1).
Proof. repeat split. Qed.
(** C50: cyclical SGLD sampling *)
Theorem C50_stored : forall (S : Type) n thin L ratio (states : list S), (0 < thin)%nat -> (0 < L)%nat ->
  exists puts steps, sampling_run (do_sample_cyclical n thin L ratio) 0 0 states = Ok puts /\
    stored_from steps states puts /\ StronglySorted lt steps /\ (length steps <= n)%nat /\
    (forall s, In s steps -> cyclical_due L thin ratio s) /\
    (forall s, (1 <= s <= length states)%nat -> cyclical_due L thin ratio s -> In s steps \/ (length steps = n /\ forall s', In s' steps -> (s' < s)%nat)).
Proof. exact (@cyclical_stores). Qed.
Print Assumptions C50_stored.
Theorem C50_complete : forall n thin L ratio n_epochs n_steps do, (0 < thin)%nat -> (0 < L)%nat -> 
  make_callback (do_sample_cyclical n thin L ratio) n n_epochs n_steps = Ok do ->
  do = do_sample_cyclical n thin L ratio /\
  forall (S : Type) (states : list S), length states = (n_epochs * n_steps)%nat -> exists puts, sampling_run do 0 0 states = Ok puts /\ map fst puts = seq 0 n.
Proof. exact (@cyclical_accepts). Qed.
Print Assumptions C50_complete.
Theorem C50_rejected : forall n thin L ratio n_epochs n_steps, (0 < thin)%nat -> (0 < L)%nat ->
  (make_callback (do_sample_cyclical n thin L ratio) n n_epochs n_steps = Err ValueError <->
   forall steps, NoDup steps -> (forall s, In s steps -> (1 <= s <= n_epochs * n_steps)%nat /\ cyclical_due L thin ratio s) -> (length steps < n)%nat).
Proof. exact (@cyclical_rejects). Qed.
Print Assumptions C50_rejected.
Theorem C50_first_sample_refuted : exists n thin L ratio step, do_sample_cyclical n thin L ratio step 0 = Ok true /\
  forall P K split normal normal' schedule g st, sg_count P K st = (step - 1)%nat ->
    cyclical_update P K split normal L ratio schedule g st = cyclical_update P K split normal' L ratio schedule g st.
Proof. exact (@first_sample_refuted). Qed.
Print Assumptions C50_first_sample_refuted.
Example C50_case : sampling_run (do_sample_cyclical 4 1 4 (1 # 2)) 0 0 [10; 11; 12; 13; 14; 15; 16; 17; 18; 19; 20]%nat = Ok [(0, 11); (1, 12); (2, 15); (3, 16)]%nat.
Proof. reflexivity. Qed.
(** C51: SWAG moments *)
Theorem C51_moments : forall rank ps, ps <> [] -> exists s, swag_run rank (combine (seq 0 (length ps)) ps) = Some s /\
  sw_mean s == mean_of ps /\ sw_mean_sq s == mean_square ps /\ swag_var s == variance_of ps.
Proof. exact (@swag_moments). Qed.
Print Assumptions C51_moments.
Theorem C51_bounds : forall rank steps lo hi s, (forall ep, In ep steps -> lo <= snd ep <= hi) -> swag_run rank steps = Some s ->
  lo <= sw_mean s <= hi /\ sw_mean s * sw_mean s <= sw_mean_sq s /\ swag_var s == sw_mean_sq s - sw_mean s * sw_mean s.
Proof. exact (@swag_bounds). Qed.
Print Assumptions C51_bounds.
Theorem C51_columns : forall rank steps s, (2 <= rank)%nat -> (rank < length steps)%nat -> swag_run rank steps = Some s ->
  length (sw_dev s) = rank /\
  forall j, (j < rank)%nat -> exists ep si,
    let i := (length steps - rank + j)%nat in
    nth_error steps i = Some ep /\ swag_run rank (firstn (Datatypes.S i) steps) = Some si /\ nth j (sw_dev s) 0 = snd ep - sw_mean si.
Proof. exact (@swag_columns). Qed.
Print Assumptions C51_columns.
Theorem C51_accepted : forall rank n_epochs, swag_checks rank n_epochs = Ok tt <-> (2 <= rank < n_epochs)%nat.
Proof. exact (@swag_accepted). Qed.
Print Assumptions C51_accepted.
Theorem C51_first_epoch : forall rank steps p s, swag_run rank (map (fun q => (0%nat, q)) steps ++ [(0%nat, p)]) = Some s -> sw_mean s == p /\ sw_mean_sq s == p * p.
Proof. exact (@swag_epoch0). Qed.
Print Assumptions C51_first_epoch.
Theorem C51_average_refuted : exists rank steps s, (2 <= rank)%nat /\ swag_run rank steps = Some s /\ ~ sw_mean s == mean_of (map snd steps).
Proof. exact (@swag_average_refuted). Qed.
Print Assumptions C51_average_refuted.
Theorem C51_rank_one : forall steps s, swag_run 1 steps = Some s -> length (sw_dev s) = length steps.
Proof. exact (@swag_rank_one). Qed.
Print Assumptions C51_rank_one.
Example C51_case : option_map (fun s => (Qred (sw_mean s), Qred (swag_var s), map Qred (sw_dev s))) (swag_run 2 [(0%nat, 1); (1%nat, 3); (2%nat, 8)]) = Some (4, (26 # 3), [1; 4]).
Proof. reflexivity. Qed.
(** C75: effective sample size *)
Theorem C75_range : forall xs t, 0 <= t <= 1 -> ~ auto_cov xs 0 == 0 -> exists e, chain_ess xs (Some t) = Some e /\ 0 < e <= nQ (length xs).
Proof. exact (@ess_range). Qed.
Print Assumptions C75_range.
Theorem C75_unfiltered_refuted : forall xs, chain_ess xs None = None.
Proof. exact (@ess_unfiltered). Qed.
Print Assumptions C75_unfiltered_refuted.
Theorem C75_high_threshold : forall xs t, 1 < t -> ~ auto_cov xs 0 == 0 -> exists e, chain_ess xs (Some t) = Some e /\ e == - nQ (length xs).
Proof. exact (@ess_high_threshold). Qed.
Print Assumptions C75_high_threshold.
Theorem C75_constant_chain : forall x n t, chain_ess (repeat x n) t = None.
Proof. exact (@ess_constant). Qed.
Print Assumptions C75_constant_chain.
Example C75_case : option_map Qred (chain_ess [1; 2; 3; 4] (Some 0)) = Some (8 # 3) /\ option_map Qred (chain_ess [1; -1; 1; -1] (Some 0)) = Some 4 /\ chain_ess [1; 2; 4] None = None.
Proof. repeat split. Qed.

Open Scope R_scope.
(** C51: samples *)
Theorem C51_sample : forall mean std dev z1 z2, length z2 = length dev -> dev <> [] ->
  exists coefs, length coefs = Datatypes.S (length dev) /\
    swag_sample mean std dev z1 z2 = mean + rdot coefs (z1 :: z2) /\
    rdot coefs coefs = std * std / 2 + rdot dev dev / (2 * INR (length dev)).
Proof. exact (@swag_sample_normal). Qed.
Print Assumptions C51_sample.
(** C52: preconditioners and step schedules *)
Theorem C52_rmsprop_range : forall factor eps gs G e, 0 <= factor <= 1 -> (forall g, In g gs -> - G <= g <= G) -> 0 <= e <= G * G ->
  0 <= fold_left (fun e g => pc_update (rmsprop factor eps) g e) gs e <= G * G.
Proof. exact (@rmsprop_range). Qed.
Print Assumptions C52_rmsprop_range.
Theorem C52_rmsprop_inverse : forall factor eps v (e : R), 0 < eps ->
  pc_sqrt (rmsprop factor eps) (pc_sqrt_inv (rmsprop factor eps) v e) e = v /\
  pc_sqrt_inv (rmsprop factor eps) (pc_sqrt (rmsprop factor eps) v e) e = v /\
  pc_sqrt_inv (rmsprop factor eps) (pc_sqrt_inv (rmsprop factor eps) v e) e = pc_inv (rmsprop factor eps) v e /\
  pc_inv (rmsprop factor eps) (pc_sqrt (rmsprop factor eps) (pc_sqrt (rmsprop factor eps) v e) e) e = v.
Proof. exact (@rmsprop_inverse). Qed.
Print Assumptions C52_rmsprop_inverse.
Theorem C52_rmsprop_constant : forall factor eps g n,
  fold_left (fun e g => pc_update (rmsprop factor eps) g e) (repeat g n) (pc_init (rmsprop factor eps)) = g * g * (1 - factor ^ n).
Proof. exact (@rmsprop_constant). Qed.
Print Assumptions C52_rmsprop_constant.
Theorem C52_constant : forall init, (forall f, constant_schedule init = Ok f -> forall step, f step = init /\ 0 <= f step) /\ (init < 0 -> constant_schedule init = Err ValueError).
Proof. exact (@constant_step). Qed.
Print Assumptions C52_constant.
Theorem C52_cosine : forall init total f, cosine_schedule init total = Ok f ->
  f 0%nat = init /\ f total = 0 /\ (forall step, 0 <= f step <= init) /\
  (forall s s', (s <= s' <= total)%nat -> f s' <= f s).
Proof. exact (@cosine_step). Qed.
Print Assumptions C52_cosine.
Theorem C52_cosine_restarts : forall init total f, cosine_schedule init total = Ok f -> f (2 * total)%nat = init.
Proof. exact (@cosine_restarts). Qed.
Print Assumptions C52_cosine_restarts.
Theorem C52_polynomial : forall a b gamma, (polynomial_schedule a b gamma = Err ValueError <-> gamma <= / 2 \/ 1 < gamma) /\
  forall f, polynomial_schedule a b gamma = Ok f -> 0 < a -> 0 < b -> forall s, 0 < f (Datatypes.S s) < f s.
Proof. exact (@polynomial_step). Qed.
Print Assumptions C52_polynomial.
Theorem C52_burnin : forall init final burnin f, (0 < burnin)%nat -> cosine_burnin_schedule init final burnin = Ok f ->
  f 0%nat = init /\ (forall s, (burnin <= s)%nat -> f s = final) /\ (forall s, Rmin init final <= f s <= Rmax init final) /\
  (init <= final -> forall s, f s <= f (Datatypes.S s)) /\ (final <= init -> forall s, f (Datatypes.S s) <= f s).
Proof. exact (@burnin_step). Qed.
Print Assumptions C52_burnin.
Theorem C52_cyclical : forall init burnin cycle f, (0 < cycle)%nat -> cyclical_schedule init burnin cycle = Ok f ->
  (forall s, 0 <= f s <= init) /\ (forall s, (s <= burnin + 1)%nat -> f s = init) /\
  (forall s, (burnin < s)%nat -> f (s + cycle)%nat = f s) /\
  (forall k j, (j + 1 < cycle)%nat -> let s := (burnin + 1 + k * cycle + j)%nat in 0 < init -> f (Datatypes.S s) < f s) /\
  (forall k, f (burnin + 1 + k * cycle)%nat = init).
Proof. exact (@cyclical_step). Qed.
Print Assumptions C52_cyclical.
Theorem C52_cyclical_offset : forall init cycle f k s, (2 <= cycle)%nat -> 0 < init -> cyclical_schedule init 0 cycle = Ok f ->
  (1 <= k)%nat -> phase cycle (k * cycle) == 0%Q /\ ((s mod cycle <> 0)%nat -> f (k * cycle)%nat < f s).
Proof. exact (@cyclical_offset). Qed.
Print Assumptions C52_cyclical_offset.
Example C52_case : exists f, cosine_schedule (/ 10) 4 = Ok f /\ f 2%nat = / 20 /\ cosine_schedule (/ 10) 0 = Err ValueError.
Proof. exact cosine_case. Qed.
(** C74: integrators *)
Theorem C74_counts : forall P K split normal decay resample cycle ratio schedule gs key,
  sg_count P K (snd (integrate P K (sghmc_update P K split normal decay resample schedule) gs (sghmc_init P K key))) = length gs /\
  sg_count P K (snd (integrate P K (cyclical_update P K split normal cycle ratio schedule) gs (sghmc_init P K key))) = length gs.
Proof. exact (@integrator_counts). Qed.
Print Assumptions C74_counts.
Theorem C74_sgld : forall K split normal schedule g st, 0 <= schedule (sg_count identity_pc K st) ->
  let step := schedule (sg_count identity_pc K st) in
  fst (sghmc_update identity_pc K split normal 0 None schedule g st) = step * g + sqrt (2 * step) * normal (fst (split (sg_key _ _ st))).
Proof. exact (@sgld_identity). Qed.
Print Assumptions C74_sgld.
Theorem C74_sgld_rmsprop : forall K split normal factor eps schedule g st, 0 < eps -> 0 <= schedule (sg_count (rmsprop factor eps) K st) ->
  let step := schedule (sg_count (rmsprop factor eps) K st) in
  let e := sg_pc (rmsprop factor eps) K st * factor + g * g * (1 - factor) in
  let M := eps + sqrt e in
  fst (sghmc_update (rmsprop factor eps) K split normal 0 None schedule g st) = step * (g / M) + sqrt (2 * step) * (normal (fst (split (sg_key _ _ st))) / sqrt M).
Proof. exact (@sgld_rmsprop). Qed.
Print Assumptions C74_sgld_rmsprop.
Theorem C74_sgld_rmsprop_run : forall K split normal factor eps schedule gs key n g, 0 < eps -> 0 <= schedule n -> nth_error gs n = Some g ->
  let M := eps + sqrt ((1 - factor) * sum_f_R0 (fun i => factor ^ (n - i) * (nth i gs 0 * nth i gs 0)) n) in
  nth_error (fst (integrate (rmsprop factor eps) K (sghmc_update (rmsprop factor eps) K split normal 0 None schedule) gs (sghmc_init (rmsprop factor eps) K key))) n =
  Some (schedule n * (g / M) + sqrt (2 * schedule n) * (normal (fst (split (Nat.iter n (fun k => snd (split k)) key))) / sqrt M)).
Proof. exact (@sgld_rmsprop_run). Qed.
Print Assumptions C74_sgld_rmsprop_run.
Example C74_case_sgld_run :
  nth_error (fst (integrate (rmsprop (3 / 4) 3) nat (sghmc_update (rmsprop (3 / 4) 3) nat (fun k => (k, Datatypes.S k)) INR 0 None (fun _ => 1 / 2)) [0; 2] (sghmc_init _ nat 5%nat))) 1 = Some (13 / 4).
Proof. exact sgld_run_case. Qed.
Theorem C74_sghmc_run : forall K split normal decay schedule gs key n, (n < length gs)%nat ->
  nth_error (fst (integrate identity_pc K (sghmc_update identity_pc K split normal decay None schedule) gs (sghmc_init identity_pc K key))) n =
  Some (sqrt (schedule n) * sum_f_R0 (fun i => decay ^ (n - i) * (sqrt (schedule i) * nth i gs 0 + sqrt (2 * (1 - decay)) * normal (fst (split (Nat.iter i (fun k => snd (split k)) key))))) n).
Proof. exact (@sghmc_run). Qed.
Print Assumptions C74_sghmc_run.
Example C74_case_sghmc_run :
  nth_error (fst (integrate identity_pc nat (sghmc_update identity_pc nat (fun k => (k, Datatypes.S k)) INR (1 / 2) None (fun _ => 4)) [1; 3] (sghmc_init _ nat 5%nat))) 1 = Some 31.
Proof. exact sghmc_run_case. Qed.
Theorem C74_sghmc : forall K split normal decay schedule g st,
  let step := schedule (sg_count identity_pc K st) in
  let m := decay * sg_momentum _ _ st + sqrt step * g + sqrt (2 * (1 - decay)) * normal (fst (split (sg_key _ _ st))) in
  sghmc_update identity_pc K split normal decay None schedule g st =
    (sqrt step * m, {| sg_count := Datatypes.S (sg_count _ _ st); sg_key := snd (split (sg_key _ _ st)); sg_momentum := m; sg_pc := sg_pc _ _ st |}).
Proof. exact (@sghmc_identity). Qed.
Print Assumptions C74_sghmc.
Theorem C74_momentum_forgotten : forall P K split normal decay k schedule g st st',
  (sg_count P K st mod k = 0)%nat -> sg_count P K st = sg_count P K st' -> sg_key P K st = sg_key P K st' -> sg_pc P K st = sg_pc P K st' ->
  sghmc_update P K split normal decay (Some k) schedule g st = sghmc_update P K split normal decay (Some k) schedule g st'.
Proof. exact (@momentum_forgotten). Qed.
Print Assumptions C74_momentum_forgotten.
Theorem C74_exploration : forall P K split normal cycle ratio schedule g st, (Qle_bool ratio (phase cycle (sg_count P K st)) = false) ->
  let r := cyclical_update P K split normal cycle ratio schedule g st in
  fst r = pc_inv P (schedule (sg_count P K st) * g) (pc_update P g (sg_pc P K st)) /\ sg_key P K (snd r) = sg_key P K st /\
  sg_momentum P K (snd r) = sg_momentum P K st /\ sg_pc P K (snd r) = pc_update P g (sg_pc P K st).
Proof. exact (@exploration_no_noise). Qed.
Print Assumptions C74_exploration.
Theorem C74_sampling : forall P K split normal cycle ratio schedule g st, (Qle_bool ratio (phase cycle (sg_count P K st)) = true) ->
  cyclical_update P K split normal cycle ratio schedule g st = sghmc_update P K split normal 0 None schedule g st.
Proof. exact (@sampling_is_sgld). Qed.
Print Assumptions C74_sampling.
Theorem C74_keys : forall P K split normal decay resample schedule gs st,
  sg_key P K (snd (integrate P K (sghmc_update P K split normal decay resample schedule) gs st)) = chain_key split (length gs) (sg_key P K st).
Proof. exact (@sghmc_keys). Qed.
Print Assumptions C74_keys.
Example C74_case : fst (integrate identity_pc nat (cyclical_update identity_pc nat (fun k => (k, Datatypes.S k)) INR 2 (1 # 2) (fun _ => / 2)) [1; 2; 3] (sghmc_init identity_pc nat 5%nat)) = [/ 2; 6; 3 / 2].
Proof. exact integrator_case. Qed.
(** C76: kernel Stein discrepancy *)
Theorem C76_symmetric : forall c beta x y gx gy, length x = length y -> stein_kernel c beta x y gx gy = stein_kernel c beta y x gy gx.
Proof. exact (@stein_symmetric). Qed.
Print Assumptions C76_symmetric.
Theorem C76_single : forall x g, ksd None None [x] [g] = Ok (sqrt (rdot g g + INR (length x))).
Proof. exact (@ksd_single). Qed.
Print Assumptions C76_single.
Theorem C76_translation : forall c beta (a : R) x y gx gy, length x = length y ->
  stein_kernel c beta (map (Rplus a) x) (map (Rplus a) y) gx gy = stein_kernel c beta x y gx gy.
Proof. exact (@ksd_shift). Qed.
Print Assumptions C76_translation.
Theorem C76_arguments : forall c beta samples grads v, ksd c beta samples grads = Ok v -> c = None /\ beta = None /\ 0 <= v.
Proof. exact (@ksd_arguments). Qed.
Print Assumptions C76_arguments.
Example C76_case : ksd None None [[5; 1]] [[3; 4]] = Ok (sqrt 27).
Proof. exact ksd_case. Qed.
