(** Model of fortuna/prob_model/posterior/sgmcmc (sampling callbacks, step schedules,
    preconditioners, integrators, diagnostics) and fortuna/prob_model/posterior/swag. *)
From Coq Require Import List Arith ZArith QArith Qminmax Bool Reals.
From Verif Require Import Lib QuantModel ConfRegModel ConfClassModel TempModel PredModel.
Import ListNotations.
Open Scope Q_scope.

(** ---- sampling callbacks ---- *)
(** sghmc_callback.py:49-53.  Python's [and] stops at the first false operand, so the
    modulo is reached only for steps after the burn-in; it raises on n_thinning = 0. *)
Definition do_sample_sghmc (n_samples n_thinning burnin step count : nat) : result bool :=
  if negb (count <? n_samples)%nat then Ok false
  else if negb (burnin <? step)%nat then Ok false
  else if (n_thinning =? 0)%nat then Err ZeroDivisionError
  else Ok (((step - burnin) mod n_thinning) =? 0)%nat.
(** cyclical_sgld_callback.py:55-59 *)
Definition phase (cycle_length step : nat) : Q := inject_Z (Z.of_nat (step mod cycle_length)) / inject_Z (Z.of_nat cycle_length).
Definition do_sample_cyclical (n_samples n_thinning cycle_length : nat) (ratio : Q) (step count : nat) : result bool :=
  if negb (count <? n_samples)%nat then Ok false
  else if (cycle_length =? 0)%nat then Err ZeroDivisionError
  else if negb (Qle_bool ratio (phase cycle_length step)) then Ok false
  else if (n_thinning =? 0)%nat then Err ZeroDivisionError
  else Ok (((step mod cycle_length) mod n_thinning) =? 0)%nat.
(** sghmc_callback.py:55-64, cyclical_sgld_callback.py:61-70: the constructor counts the
    steps that would be sampled and rejects configurations with too few of them *)
Fixpoint count_samples (do : nat -> nat -> result bool) (steps : list nat) : result nat :=
  match steps with
  | [] => Ok O
  | s :: r => bind (do s O) (fun b => bind (count_samples do r) (fun c => Ok ((if b then 1 else 0) + c)%nat))
  end.
Definition make_callback (do : nat -> nat -> result bool) (n_samples n_epochs n_training_steps : nat) : result (nat -> nat -> result bool) :=
  bind (count_samples do (seq 1 (n_epochs * n_training_steps))) (fun total =>
  if (total <? n_samples)%nat then Err ValueError else Ok do).
(** sgmcmc_sampling_callback.py:30-47 applied to the states at the ends of successive
    training steps; the result is the calls of the repository's put, in order *)
Section Run.
Variables (S : Type) (do : nat -> nat -> result bool).
Fixpoint sampling_run (current_step samples_count : nat) (states : list S) : result (list (nat * S)) :=
  match states with
  | [] => Ok []
  | s :: r =>
      let current_step := Datatypes.S current_step in
      bind (do current_step samples_count) (fun b =>
        if b then rmap (cons (samples_count, s)) (sampling_run current_step (Datatypes.S samples_count) r)
        else sampling_run current_step samples_count r)
  end.
End Run.
Arguments sampling_run {S} do current_step samples_count states.

(** ---- SWAG moments, swag_trainer.py:41-105, for one parameter coordinate ---- *)
Record swag := { sw_mean : Q; sw_mean_sq : Q; sw_dev : list Q }.
(** dev[:, -rank+1:] for rank >= 1 (rank 1 gives the slice -0:, that is everything) *)
Definition last_columns (rank : nat) (dev : list Q) : list Q :=
  if (rank =? 1)%nat then dev else skipn (length dev - (rank - 1)) dev.
Definition swag_step (rank : nat) (st : option swag) (epoch : nat) (p : Q) : option swag :=
  let e := inject_Z (Z.of_nat epoch) in
  match st with
  | None => Some {| sw_mean := p; sw_mean_sq := p * p; sw_dev := [0] |}
  | Some s =>
      let m := (sw_mean s * e + p) / (e + 1) in
      Some {| sw_mean := m; sw_mean_sq := (sw_mean_sq s * e + p * p) / (e + 1);
              sw_dev := last_columns rank (sw_dev s) ++ [p - m] |}
  end.
(** a run is the list of (epoch, parameters after the update) of all training steps *)
Definition swag_run (rank : nat) (steps : list (nat * Q)) : option swag :=
  fold_left (fun st ep => swag_step rank st (fst ep) (snd ep)) steps None.
(** lines 42-43 *)
Definition swag_var (s : swag) : Q := Qmax 0 (sw_mean_sq s - sw_mean s * sw_mean s).
(** swag_posterior.py:75-83 *)
Definition swag_checks (rank n_epochs : nat) : result unit :=
  if (rank <? 2)%nat then Err ValueError else if (n_epochs <=? rank)%nat then Err ValueError else Ok tt.

(** ---- effective sample size, sgmcmc_diagnostic.py:73-140, for one coordinate ---- *)
(** _autocorr: the FFT of the zero-padded sequence gives the linear autocorrelation *)
Definition centred (xs : list Q) : list Q := map (fun x => x - qsum xs / inject_Z (Z.of_nat (length xs))) xs.
Definition lag_sum (xs : list Q) (k : nat) : Q := dot xs (skipn k xs).
Definition auto_cov (xs : list Q) (k : nat) : Q := lag_sum (centred xs) k / inject_Z (Z.of_nat (length xs - k)).
Definition auto_corr (xs : list Q) (k : nat) : Q := auto_cov xs k / auto_cov xs 0.
Definition ess_weight (n k : nat) : Q := inject_Z (Z.of_nat (n - k)) / inject_Z (Z.of_nat n).
(** lines 133-137: cumulative count of values below the threshold, clipped *)
Fixpoint ess_mask (threshold : Q) (below : nat) (corrs : list Q) : list Q :=
  match corrs with
  | [] => []
  | c :: r => let below := ((if Qlt_bool c threshold then 1 else 0) + below)%nat in
              Qmax (1 - inject_Z (Z.of_nat below)) 0 :: ess_mask threshold below r
  end.
Definition ess_denominator (xs : list Q) (threshold : option Q) : Q :=
  let corrs := map (auto_corr xs) (seq 0 (length xs)) in
  let weighted := map (fun k => ess_weight (length xs) k * auto_corr xs k) (seq 0 (length xs)) in
  -1 + 2 * qsum (match threshold with None => weighted | Some t => zip_with Qmult weighted (ess_mask t 0 corrs) end).
(** None stands for the infinity or NaN of a division by zero *)
Definition chain_ess (xs : list Q) (threshold : option Q) : option Q :=
  if Qeq_bool (auto_cov xs 0) 0 then None
  else if Qeq_bool (ess_denominator xs threshold) 0 then None
  else Some (inject_Z (Z.of_nat (length xs)) / ess_denominator xs threshold).

(** ---- step schedules, sgmcmc_step_schedule.py ---- *)
Open Scope R_scope.
Definition constant_schedule (init : R) : result (nat -> R) :=
  if negb (Rleb 0 init) then Err ValueError else Ok (fun _ => init).
Definition cosine_schedule (init : R) (total_steps : nat) : result (nat -> R) :=
  if negb (Rleb 0 init) then Err ValueError
  else if negb (0 <? total_steps)%nat then Err ValueError
  else Ok (fun step => let t := INR step / INR total_steps in / 2 * init * (1 + cos (t * PI))).
Definition polynomial_schedule (a b gamma : R) : result (nat -> R) :=
  if Rleb gamma (/ 2) || negb (Rleb gamma 1) then Err ValueError
  else Ok (fun step => a * Rpower (b + INR step) (- gamma)).
(** burnin_steps = 0 divides by zero: step 0 gives 0/0, later ones are clipped to 1; only
    positive burnin_steps are modelled *)
Definition cosine_burnin_schedule (init final : R) (burnin_steps : nat) : result (nat -> R) :=
  if negb (Rleb 0 init) then Err ValueError
  else if negb (Rleb 0 final) then Err ValueError
  else Ok (fun step =>
    let t := Rmin (INR step / INR burnin_steps) 1 in
    let coef := (1 + cos (t * PI)) * / 2 in
    coef * init + (1 - coef) * final).
(** cycle_length = 0 passes the check and yields NaN; only positive ones are modelled *)
Definition cyclical_schedule (init : R) (burnin_steps cycle_length : nat) : result (nat -> R) :=
  if negb (Rleb 0 init) then Err ValueError
  else Ok (fun step =>
    let t := INR ((step - burnin_steps - 1) mod cycle_length) / INR cycle_length in
    / 2 * init * (1 + cos (t * PI))).

(** ---- preconditioners, sgmcmc_preconditioner.py, for one coordinate ---- *)
Record preconditioner := { pc_state : Type; pc_init : pc_state; pc_update : R -> pc_state -> pc_state;
  pc_sqrt : R -> pc_state -> R; pc_inv : R -> pc_state -> R; pc_sqrt_inv : R -> pc_state -> R }.
Definition rmsprop (factor eps : R) : preconditioner := {|
  pc_state := R; pc_init := 0;
  pc_update := fun g e => e * factor + g * g * (1 - factor);
  pc_sqrt := fun v e => v * sqrt (eps + sqrt e);
  pc_inv := fun v e => v / (eps + sqrt e);
  pc_sqrt_inv := fun v e => v / sqrt (eps + sqrt e) |}.
Definition identity_pc : preconditioner := {|
  pc_state := unit; pc_init := tt; pc_update := fun _ e => e;
  pc_sqrt := fun v _ => v; pc_inv := fun v _ => v; pc_sqrt_inv := fun v _ => v |}.

(** ---- integrators, for one coordinate ---- *)
Section Integrator.
Variables (P : preconditioner) (K : Type) (split : K -> K * K) (normal : K -> R).
Record sghmc_state := { sg_count : nat; sg_key : K; sg_momentum : R; sg_pc : pc_state P }.
Definition sghmc_init (key : K) : sghmc_state := {| sg_count := O; sg_key := key; sg_momentum := 0; sg_pc := pc_init P |}.
(** sghmc_integrator.py:59-92 *)
Definition sghmc_update (decay : R) (resample : option nat) (schedule : nat -> R) (gradient : R) (st : sghmc_state) : R * sghmc_state :=
  let step_size := schedule (sg_count st) in
  let pc := pc_update P gradient (sg_pc st) in
  let key := fst (split (sg_key st)) in
  let new_key := snd (split (sg_key st)) in
  let noise := pc_sqrt P (normal key) pc in
  let m0 := match resample with
            | Some k => if (sg_count st mod k =? 0)%nat then 0 else sg_momentum st
            | None => sg_momentum st end in
  let m := decay * m0 + gradient * sqrt step_size + noise * sqrt (2 * (1 - decay)) in
  let update := pc_inv P m pc * sqrt step_size in
  (update, {| sg_count := Datatypes.S (sg_count st); sg_key := new_key; sg_momentum := m; sg_pc := pc |}).
(** cyclical_sgld_integrator.py:64-100; optax.sgd with learning rate 1 negates its input *)
Definition sgd_update (schedule : nat -> R) (gradient : R) (st : sghmc_state) : R * sghmc_state :=
  let step_size := schedule (sg_count st) in
  let pc := pc_update P gradient (sg_pc st) in
  let rescaled := -1 * step_size * gradient in
  let update := pc_inv P (- (1 * rescaled)) pc in
  (update, {| sg_count := Datatypes.S (sg_count st); sg_key := sg_key st; sg_momentum := sg_momentum st; sg_pc := pc |}).
Definition cyclical_update (cycle_length : nat) (ratio : Q) (schedule : nat -> R) (gradient : R) (st : sghmc_state) : R * sghmc_state :=
  if Qle_bool ratio (phase cycle_length (sg_count st)) then sghmc_update 0 None schedule gradient st
  else sgd_update schedule gradient st.
(** successive updates along a list of gradients *)
Fixpoint integrate (update : R -> sghmc_state -> R * sghmc_state) (gradients : list R) (st : sghmc_state) : list R * sghmc_state :=
  match gradients with
  | [] => ([], st)
  | g :: r => let '(u, st') := update g st in let '(us, st'') := integrate update r st' in (u :: us, st'')
  end.
End Integrator.

(** ---- SWAG samples, swag_posterior.py:212-229 and 291-292, one coordinate ---- *)
Definition swag_sample (mean std : R) (dev : list R) (z1 : R) (z2 : list R) : R :=
  let coeff1 := 1 / sqrt 2 in
  let coeff2 := coeff1 / sqrt (INR (length dev)) in
  mean + coeff1 * std * z1 + coeff2 * rsum (map (fun p => fst p * snd p) (combine dev z2)).

(** ---- kernel Stein discrepancy, sgmcmc_diagnostic.py:51-70 ---- *)
Definition rdot (a b : list R) : R := rsum (map (fun p => fst p * snd p) (combine a b)).
Definition rminus (a b : list R) : list R := map (fun p => fst p - snd p) (combine a b).
Definition stein_kernel (c beta : R) (x y gx gy : list R) : R :=
  let dim := INR (length x) in
  let diff := rminus x y in
  let base := c * c + rdot diff diff in
  rdot gx gy * Rpower base beta
  + -2 * beta * rdot gx diff * Rpower base (beta - 1)
  + 2 * beta * rdot gy diff * Rpower base (beta - 1)
  + -2 * dim * beta * Rpower base (beta - 1)
  + -4 * beta * (beta - 1) * Rpower base (beta - 2) * rdot diff diff.
(** lines 16-22, 43-46 and 64-70.  The function is jitted without static arguments: a
    bandwidth or exponent passed by the caller is traced and the checks on it raise a
    TypeError (tracer to bool conversion); the defaults are not traced and pass. *)
Definition ksd (c beta : option R) (samples grads : list (list R)) : result R :=
  match c, beta with
  | None, None =>
      let points := combine samples grads in
      let c := 1 in let beta := - / 2 in
      Ok (sqrt (rsum (map (fun xg => rsum (map (fun yh => stein_kernel c beta (fst xg) (fst yh) (snd xg) (snd yh)) points)) points))
          / INR (length samples))
  | _, _ => Err TypeError
  end.
