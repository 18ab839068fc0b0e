(** Model of a whole fit of a Laplace posterior and of what is drawn and predicted afterwards:
    fortuna/prob_model/posterior/laplace/laplace_posterior.py:99-384 with laplace_state.py:41-95 and
    posterior/run_preliminary_map.py.  The preliminary fit is that of WholeModel.v, the choice of the starting state
    and the curvature those of LapModel.v, draws and tuning those of TuneModel.v, predictions those of DrawModel.v.

    Parameters are one flat vector, in the order of ravel_pytree; FlatModel.v models their trees, and that paths come
    back from a state in another order.  [fl] turns a real number into the number that training records.
    Automatic differentiation ([diff], [jac], [hessian]) and the eigendecomposition are parameters.  Not modelled:
    GPUs, the files of checkpoints (RepoModel.v, SerModel.v), frozen parameters of the preliminary fit
    (FreezeModel.v). *)
From Coq Require Import List Arith ZArith QArith Bool String Reals.
From Verif Require Import Lib QuantModel ConfClassModel PredModel TempModel LikModel CalibModel TrainModel DescModel CalRunModel DrawModel WholeModel LapModel TuneModel.
Import ListNotations.
Open Scope list_scope.
Local Notation length := List.length.
Local Notation "a >>= f" := (bind a f) (at level 61, left associativity).

(** ---- the parameters of a state, coordinate by coordinate ---- *)
(** laplace_state.py:69-85: a number, or a mean with its curvature *)
Inductive slot := Plain (m : R) | Paired (m h : R).
Definition slot_mean (s : slot) : R := match s with Plain m | Paired m _ => m end.
(** the components "mean" and "hess_lik_diag" of the paired coordinates, laplace_posterior.py:327-363 *)
Definition paired_means (l : list slot) : list R := flat_map (fun s => match s with Plain _ => [] | Paired m _ => [m] end) l.
Definition paired_hess (l : list slot) : list R := flat_map (fun s => match s with Plain _ => [] | Paired _ h => [h] end) l.
(** lines 341-358: new values for the paired coordinates, the others stay *)
Fixpoint fill (l : list slot) (vs : list R) : list R :=
  match l with
  | [] => []
  | Plain m :: r => m :: fill r vs
  | Paired _ _ :: r => match vs with v :: vs => v :: fill r vs | [] => [] end
  end.
(** [which]: the trainable coordinates, None without freeze function.  Line 138-156: an empty tuple counts as none *)
Definition rav (which : option (list nat)) (p : list R) : list R :=
  match which with Some (c :: w) => map (fun c => nth c p 0%R) (c :: w) | _ => p end.
Definition params_from_rav (which : option (list nat)) (p v : list R) : list R :=
  match which with
  | Some (c :: w) => fold_left (fun p cv => set_nth (fst cv) (snd cv) p) (combine (c :: w) v) p
  | _ => v
  end.
(** laplace_state.py:69-85.  With an empty tuple the curvature is a dictionary, which nested_pair refuses. *)
Definition pair_slots (which : option (list nat)) (p hess : list R) : result (list slot) :=
  match which with
  | None => Ok (map (fun mh => Paired (fst mh) (snd mh)) (combine p hess))
  | Some [] => Err TypeError
  | Some w => Ok (fold_left (fun l ch => set_nth (fst ch) (Paired (nth (fst ch) p 0%R) (snd ch)) l) (combine w hess) (map Plain p))
  end.
(** prior/gaussian.py *)
Definition prior_log_prob (prior : log_var) (p : list R) : R :=
  match prior with Scalar v => isotropic_log_prob v p | Vector vs => diagonal_log_prob vs p end.

Section LapFit.
Variables M X T K G OS Pr Un C CM : Type.
Notation P := (list R).
Notation Y := (list R).
Notation mbr := (member P M C CM).
Variable row : P -> option M -> X -> Y.
Variable net_train : P -> option K -> option M -> list X -> list Y * M.
Variable net_mutable : P -> option M -> list X -> M.
Variable has_calibrator : bool.
Variable cal_row : C -> option CM -> Y -> Y.
Variable cal_train : C -> option CM -> list Y -> list Y * CM.
Variable cal_mutable : C -> option CM -> list Y -> CM.
Variable predict : list Y -> Pr.
Variable fold_in : nat -> nat -> K.
Variable diff : (P -> Q) -> P -> G.
Variable gadd : G -> G -> G.
Variable gdiv : G -> nat -> G.
Variable zeros_like : G -> G.
Variable clip_by : Q -> G -> G.
Variable opt : G -> OS -> P -> P * OS.
Variable opt_init : P -> OS.
Variable metrics : option (list (Pr -> option Un -> list T -> Q)).
Variable training_metrics : bool.
Variable h : hyper.
Variable monitor : list Q -> option Q.
Variable cfg : config.
Variable fl : R -> Q.
Variable prior : log_var.                       (* joint.prior.log_var *)
Variable log_density : Y -> T -> R.             (* prob_output_layer.log_prob of one row *)
Variable jac : (P -> Y) -> P -> nat -> nat -> R.         (* vjp: output, coordinate *)
Variable hessian : (Y -> R) -> Y -> nat -> nat -> R.     (* jax.hessian *)
Variable eigh : nat -> (nat -> nat -> R) -> (nat -> R) * (nat -> nat -> R).    (* jnp.linalg.eigh *)
Variable label : nat -> nat.
Variable noise : key -> nat -> R.

(** ---- the curvature: laplace_posterior.py:99-221 ---- *)
Definition with_params (m : mbr) (p : P) : mbr :=
  {| mb_params := p; mb_mutable := mb_mutable m; mb_calib := mb_calib m; mb_calib_mutable := mb_calib_mutable m |}.
(** apply_calib_model_manager, lines 158-175, row by row *)
Definition apply_row (m : mbr) (p : P) (x : X) : Y := calibrated_row P M X Y C CM row has_calibrator cal_row (with_params m p) x.
(** lines 177-200 for one data point and coordinate *)
Definition curvature_point (m : mbr) (which : option (list nat)) (xt : X * T) (i : nat) : R :=
  let o := apply_row m (mb_params m) (fst xt) in
  let '(lam, z) := eigh (length o) (hessian (fun o => log_density o (snd xt)) o) in
  ggn_point (length o) lam z (jac (fun v => apply_row m (params_from_rav which (mb_params m) v) (fst xt)) (rav which (mb_params m))) i.
Definition rows_of (b : list X * list T) : list (X * T) := combine (fst b) (snd b).
Definition curvature (m : mbr) (which : option (list nat)) (train : list (list X * list T)) : list R :=
  map (ggn_loader (curvature_point m which) (map rows_of train)) (seq 0 (length (rav which (mb_params m)))).

(** ---- states ---- *)
Record lap_state := { ls_slots : list slot; ls_mutable : option M; ls_calib : C; ls_calib_mutable : option (option (cmut CM)); ls_log_var : log_var }.
Inductive stored := MapSt (m : mbr) | LapSt (s : lap_state) | OtherSt.
Definition kind_of (s : stored) : state_kind := match s with MapSt _ => MapKind | LapSt _ => LaplaceKind | OtherSt => OtherKind end.
(** lines 386-421; other states do not get here *)
Definition lap_member (s : lap_state) (p : P) : mbr :=
  {| mb_params := p; mb_mutable := ls_mutable s; mb_calib := ls_calib s; mb_calib_mutable := ls_calib_mutable s |}.
Definition init_map_state (s : stored) : result mbr :=
  match s with MapSt m => Ok m | LapSt s => Ok (lap_member s (map slot_mean (ls_slots s))) | OtherSt => Err ValueError end.

(** ---- fit: lines 228-314 ---- *)
(** lines 245-253, run_preliminary_map.py:17-38 *)
Definition preliminary (init : mbr) train val : result (mbr * (list (list Q) * list (list Q))) :=
  fit_member P M X T Y K G OS Pr Un C CM row net_train net_mutable has_calibrator cal_row cal_train cal_mutable predict fold_in diff gadd gdiv zeros_like clip_by opt opt_init
    (fun p => fl (prior_log_prob prior p)) (fun ys ts => map (fun yt => fl (log_density (fst yt) (snd yt))) (combine ys ts))
    metrics training_metrics h monitor cfg MapPosterior train val 0 init.
(** the state that is stored, the status of the preliminary fit, and how the fit ends: an exception of the tuning leaves
    the state of line 299.  A loader without batches leaves h = 0.0 at line 213, which cannot be unravelled: some exception,
    here ValueError. *)
Definition laplace_fit (which : option (list nat)) (dump_state save_dir_given : bool) (restore : option (result stored)) (start_from_current : bool) (current : option (result stored))
    (map_config : option mbr) (train : list (list X * list T)) (val : option (list (list X * list T))) (tuning : bool) (zero : key) (devices : option nat) (d : nat)
    : result (lap_state * option (list (list Q) * list (list Q)) * result unit) :=
  laplace_start kind_of dump_state save_dir_given restore start_from_current current (match map_config with Some _ => true | None => false end) >>= fun st =>
  (match st, map_config with
   | FromCheckpoint s, _ | FromCurrent s, _ => rmap (fun m => (m, None)) (init_map_state s)
   | FromMap, Some init => rmap (fun mr => (fst mr, Some (snd mr))) (preliminary init train val)
   | _, _ => Err ValueError
   end) >>= fun '(m, status) =>
  match train with
  | [] => Err ValueError
  | _ =>
      pair_slots which (mb_params m) (curvature m which train) >>= fun slots =>
      let '(v, r) := fit_end label noise (fun vs xt => log_density (apply_row m (fill slots vs) (fst xt)) (snd xt)) (paired_means slots) (paired_hess slots) zero prior
                       (option_map (map rows_of) val) tuning devices d in
      Ok ({| ls_slots := slots; ls_mutable := mb_mutable m; ls_calib := mb_calib m; ls_calib_mutable := mb_calib_mutable m; ls_log_var := v |}, status, r)
  end.

(** ---- sample: lines 316-384 ---- *)
Definition lap_draw (s : lap_state) (given : option log_var) (k : key) : result (option mbr) :=
  rmap (option_map (fun vs => lap_member s (fill (ls_slots s) vs))) (draw noise (paired_means (ls_slots s)) (paired_hess (ls_slots s)) (ls_log_var s) given k).

(** ---- predictions: predictive/base.py; NaN draws are not modelled, the means stand for them ---- *)
Variables mean_of var_of : Y -> Q.
Definition lap_predict {A} (f : (key -> mbr) -> (mbr -> X -> Y) -> result A * key) (s : lap_state) (rng : option key) (g : key) : result A * key :=
  match compute_std (paired_hess (ls_slots s)) (ls_log_var s) with
  | Err e => (Err e, snd (the_rng label rng g))
  | Ok _ => f (fun k => match lap_draw s None k with Ok (Some m) => m | _ => lap_member s (map slot_mean (ls_slots s)) end)
              (calibrated_row P M X Y C CM row has_calibrator cal_row)
  end.
Definition lap_mean distribute devices n rng (s : lap_state) (g : key) (loader : list (list X)) : result (list Q) * key :=
  lap_predict (fun post out => mean label post out mean_of distribute devices n rng g loader) s rng g.
Definition lap_variance distribute devices n rng (s : lap_state) (g : key) (loader : list (list X)) : result (list Q) * key :=
  lap_predict (fun post out => variance label post out mean_of var_of distribute devices n None None rng g loader) s rng g.
End LapFit.
Arguments ls_slots {M C CM}.
Arguments ls_mutable {M C CM}.
Arguments ls_calib {M C CM}.
Arguments ls_calib_mutable {M C CM}.
Arguments ls_log_var {M C CM}.
Arguments MapSt {M C CM}.
Arguments LapSt {M C CM}.
Arguments OtherSt {M C CM}.
Arguments laplace_fit {M X T K G OS Pr Un C CM}.
Arguments lap_draw {M C CM}.
Arguments lap_mean {M X C CM}.
Arguments lap_variance {M X C CM}.
