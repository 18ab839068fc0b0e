(** Model of a whole session with a probabilistic model whose posterior is MAP or a deep ensemble:
    ProbModel.train (fortuna/prob_model/base.py:50-234) and then the predictive mean and variances
    (fortuna/prob_model/predictive/base.py).  Fits are those of DescModel.v, calibrations those of
    CalRunModel.v, keys and predictive quantities those of DrawModel.v.

    Networks and calibrators work row by row in evaluation mode and arbitrarily in training mode;
    they, metrics, optimizers and differentiation are parameters.  Not modelled here: the checks of
    loaders and restored checkpoints (CalibModel.v), the stores of the repositories (RepoModel.v,
    FitModel.v), frozen parameters (FreezeModel.v) and distribution over devices (on CPUs
    [distribute] of base.py:139 is false). *)
From Coq Require Import List Arith ZArith QArith Bool String.
From Verif Require Import Lib QuantModel PredModel LikModel CalibModel TrainModel DescModel CalRunModel DrawModel.
Import ListNotations.
Open Scope list_scope.
Local Notation length := List.length.
Local Notation concat := List.concat.
Local Notation "a >>= f" := (bind a f) (at level 61, left associativity).

Section Session.
(** parameters, mutable variables, one input, one target, one output, keys of a run, gradients, state of
    the optimizer, predictions, uncertainties; then parameters, mutable variables, gradients,
    state of the optimizer, predictions and uncertainties of a calibration *)
Variables P M X T Y K G OS Pr Un C CM CG COS CPr CUn : Type.

Variable row : P -> option M -> X -> Y.                                    (* the network, train=False *)
Variable net_train : P -> option K -> option M -> list X -> list Y * M.    (* the network, train=True *)
Variable net_mutable : P -> option M -> list X -> M.
Definition network (p : P) (key : option K) (train : bool) (m : option M) (xs : list X) : list Y * M :=
  if train then net_train p key m xs else (map (row p m) xs, net_mutable p m xs).
(** the calibrator, if there is one *)
Variable has_calibrator : bool.
Variable cal_row : C -> option CM -> Y -> Y.
Variable cal_train : C -> option CM -> list Y -> list Y * CM.
Variable cal_mutable : C -> option CM -> list Y -> CM.
Definition calibrate_outputs (c : C) (train : bool) (m : option CM) (ys : list Y) : list Y * CM :=
  if train then cal_train c m ys else (map (cal_row c m) ys, cal_mutable c m ys).
Definition calibrator : option (C -> bool -> option CM -> list Y -> list Y * CM) :=
  if has_calibrator then Some calibrate_outputs else None.

(** ---- posterior.fit ---- *)
(** posterior/map/map_posterior.py and posterior/deep_ensemble/deep_ensemble_posterior.py *)
Inductive posterior := MapPosterior | EnsemblePosterior (size : nat).
Definition members_of (q : posterior) : nat := match q with MapPosterior => 1%nat | EnsemblePosterior n => n end.
Definition run_of (q : posterior) : run := match q with MapPosterior => FitMAP | EnsemblePosterior _ => FitMember end.

(** the variables of a posterior state; those a fit starts from are posterior/base.py:90-91 _init_joint_state *)
Record member := { mb_params : P; mb_mutable : option M; mb_calib : C; mb_calib_mutable : option (option (cmut CM)) }.

Variable predict : list Y -> Pr.
Variable fold_in : nat -> nat -> K.           (* of the key of the j-th run, and the step *)
Variable diff : (P -> Q) -> P -> G.
Variable gadd : G -> G -> G.
Variable gdiv : G -> nat -> G.
Variable zeros_like : G -> G.
Variable clip_by : Q -> G -> G.
Variable opt : G -> OS -> P -> P * OS.
Variable opt_init : P -> OS.                  (* optimizer.init *)
Variable log_prior : P -> Q.
Variable log_prob : list Y -> list T -> list Q.
Variable metrics : option (list (Pr -> option Un -> list T -> Q)).
Variable training_metrics : bool.
Variable h : hyper.
Variable monitor : list Q -> option Q.
Variable cfg : config.
(** sizes of the data: data/loader/base.py:40-47 *)
Definition size_of (l : list (list X * list T)) : nat := fold_left (fun n b => (n + length (fst b))%nat) l 0%nat.

(** map_posterior.py:81-119, deep_ensemble_posterior.py:117-192.  The likelihood of a run uses the
    calibration variables of the state of that run (map_trainer.py:48-70). *)
Definition fit_member (q : posterior) (train : list (list X * list T)) (val : option (list (list X * list T))) (j : nat) (b : member)
    : result (member * (list (list Q) * list (list Q))) :=
  fit P M (list X) T (list Y) K G OS Pr Un predict (fold_in j) diff gadd gdiv zeros_like clip_by opt (run_of q) h
    (map_setting P M (list X) T (list Y) K Pr Un network log_prior (option_map (fun f => manager_of f (mb_calib b)) calibrator) (mb_calib_mutable b) log_prob
       (size_of train) (match val with Some v => size_of v | None => 0%nat end) metrics training_metrics)
    monitor cfg train val
    {| params := mb_params b; opt_state := opt_init (mb_params b); step := 0; mutable := mb_mutable b; acc := None |}
  >>= fun '(s, ms, mvs) =>
  Ok ({| mb_params := params _ _ _ _ s; mb_mutable := mutable _ _ _ _ s; mb_calib := mb_calib b; mb_calib_mutable := mb_calib_mutable b |}, (ms, mvs)).
Definition fit_posterior (q : posterior) (init : nat -> member) train val : result (list (member * (list (list Q) * list (list Q)))) :=
  mapM (fun j => fit_member q train val j (init j)) (seq 0 (members_of q)).

(** ---- posterior.sample ---- *)
(** map_posterior.py:121-128 ignores the key, deep_ensemble_posterior.py:194-207 chooses a member; [choice] is
    random.choice(rng, size).  [d] is any member: an ensemble without members raises IndexError. *)
Variable choice : key -> nat -> nat.
Definition draw_member (q : posterior) (ms : list member) (d : member) (k : key) : member :=
  match q with MapPosterior => nth 0 ms d | EnsemblePosterior n => nth (choice k n) ms d end.

(** ---- ProbModel._calibrate ---- *)
Variable label : nat -> nat.
Variable cpredict : list Y -> CPr.
Variable cuncertainty : list Y -> CUn.
Variable cdiff : (C -> Q) -> C -> CG.
Variable copt : CG -> COS -> C -> C * COS.
Variable copt_init : C -> COS.
Variable log_mean_exp : list Q -> Q.
Variable mean_outputs : list (list Y) -> list Y.
Variable mean_mutable : list CM -> CM.
Variable cmetrics : option (list (CPr -> CUn -> list T -> Q)).
Variable ctraining_metrics : bool.
Variable cmonitor : list Q -> option Q.
Variable ccfg : cconfig.
Variable n_samples : nat.                     (* calib_config.processor.n_posterior_samples *)

(** the network without the calibrator, for the ensemble of outputs (predictive/base.py:537-580) *)
Definition raw_row (m : member) (x : X) : Y := row (mb_params m) (mb_mutable m) x.
(** base.py:141-219.  The variables of the first member start the calibration
    (posterior_multi_state_repository.py:142-150) and those it ends with go to all members (96-120). *)
Definition calibrate (q : posterior) (calib : list (list X * list T)) (val : option (list (list X * list T))) (g : key) (ms : list member)
    : result (option (list (list Q) * list (list Q)) * list member * key) :=
  if negb has_calibrator then Ok (None, ms, g)
  else match ms with
  | [] => Err IndexError
  | d :: _ =>
      let '(outs, g1) := outputs_loader label (draw_member q ms d) raw_row false 1 n_samples None g (map fst calib) in
      outs >>= fun outs =>
      let '(vouts, g2) := match val with
        | None => (Ok None, g1)
        | Some v => let '(r, g2) := outputs_loader label (draw_member q ms d) raw_row false 1 n_samples None g1 (map fst v) in (rmap (fun o => Some (v, o)) r, g2)
        end in
      vouts >>= fun vouts =>
      cal_run C (option (cmut CM)) (list X * list T) (list (list Y)) (list Y) (list T) CG COS CPr CUn cpredict cuncertainty snd cdiff copt
        (pm_setting calibrator log_prob log_mean_exp mean_outputs mean_mutable (size_of calib) (match val with Some v => size_of v | None => 0%nat end) cmetrics ctraining_metrics)
        cmonitor ccfg calib outs vouts
        {| params := mb_calib d; opt_state := copt_init (mb_calib d); step := 0; mutable := mb_calib_mutable d; acc := None |}
      >>= fun '(s, cms, cmvs) =>
      Ok (Some (cms, cmvs),
          map (fun m => {| mb_params := mb_params m; mb_mutable := mb_mutable m; mb_calib := params _ _ _ _ s; mb_calib_mutable := mutable _ _ _ _ s |}) ms,
          snd (rng_get label g2))
  end.

(** base.py:50-107 with the generator [g] left by the fit *)
Definition session_train (q : posterior) (init : nat -> member) train val (calib : option (list (list X * list T))) (g : key)
    : result (list (list (list Q) * list (list Q)) * option (list (list Q) * list (list Q)) * (list member * key)) :=
  pm_train (fit_posterior q init train val >>= fun fitted => Ok (map snd fitted, (map fst fitted, g)))
    (option_map (fun l => length l) calib)
    (fun '(ms, g) => calibrate q (match calib with Some l => l | None => [] end) val g ms >>= fun '(cs, ms', g') => Ok (cs, (ms', g'))).

(** ---- Predictive.mean and the variances ---- *)
Variables mean_of var_of : Y -> Q.
(** likelihood/base.py _get_batched_calibrated_outputs of a draw *)
Definition calibrated_row (m : member) (x : X) : Y :=
  let y := row (mb_params m) (mb_mutable m) x in
  if has_calibrator then cal_row (mb_calib m) (match mb_calib_mutable m with Some (Some (Frozen c)) => Some c | _ => None end) y else y.
Definition session_predict {R} (f : (key -> member) -> (member -> X -> Y) -> result R * key) (q : posterior) (ms : list member) (g : key) : result R * key :=
  match ms with
  | [] => (Err IndexError, g)
  | d :: _ => f (draw_member q ms d) calibrated_row
  end.
Definition session_mean (q : posterior) distribute devices n rng (st : list member * key) (loader : list (list X)) : result (list Q) * key :=
  session_predict (fun post out => mean label post out mean_of distribute devices n rng (snd st) loader) q (fst st) (snd st).
Definition session_variance (q : posterior) distribute devices n rng (st : list member * key) (loader : list (list X)) : result (list Q) * key :=
  session_predict (fun post out => variance label post out mean_of var_of distribute devices n None None rng (snd st) loader) q (fst st) (snd st).
End Session.
Arguments session_train {P M X T Y K G OS Pr Un C CM CG COS CPr CUn}.
Arguments session_mean {P M X Y C CM}.
Arguments session_variance {P M X Y C CM}.
Arguments mb_params {P M C CM} m.
Arguments mb_mutable {P M C CM} m.
Arguments mb_calib {P M C CM} m.
Arguments mb_calib_mutable {P M C CM} m.
