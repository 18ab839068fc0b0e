(** Model of what the [fit] methods do with their configuration objects and with the
    state they produce: fortuna/prob_model/fit_config/*.py, posterior/base.py,
    map_posterior.py, swag_posterior.py, advi_posterior.py, laplace_posterior.py,
    sngp_posterior.py, deep_ensemble_posterior.py, sghmc_posterior.py,
    cyclical_sgld_posterior.py and sgmcmc_posterior.py (all under
    fortuna/prob_model/posterior).

    Training itself is a parameter: a run of a trainer is the state it returns and the
    checkpoints it writes on the way. *)
From Coq Require Import List Arith Lia Bool String.
From Verif Require Import Lib NestedModel RepoModel.
Import ListNotations.
Open Scope list_scope.
Local Notation length := List.length.
Local Notation "a >>= f" := (bind a f) (at level 61, left associativity).

(** ==== configuration objects ==== *)

(** what FitOptimizer.method holds: an optimizer given by the user (or the default one,
    number 0), or the integrator built by a fit *)
Inductive method := Given (n : nat) | Integrator (fit : nat).
(** what FitConfig.callbacks holds: callbacks of the user, or the ResetCovarianceCallback
    built by a fit *)
Inductive callback := UserCallback (n : nat) | ResetCovariance (fit : nat).
(** fit_config/base.py:43-48: a FitConfig refers to a FitOptimizer object.  Simplification:
    the other four objects are never written to and are left out. *)
Record config := mk_config { cf_optimizer : nat; cf_callbacks : option (list callback) }.
(** the FitOptimizer and the FitConfig objects that exist, by creation *)
Record heap := mk_heap { h_optimizers : list method; h_configs : list config }.
(** base.py:17: the default FitOptimizer is one object, created when the class is; each of
    the [n] functions with a default argument [FitConfig()] (prob_model/base.py:55, the [fit]
    methods) holds one default configuration, which refers to it *)
Definition heap0 (n : nat) : heap := mk_heap [Given 0] (repeat (mk_config 0 None) n).

Inductive fit_kind := FitMap | FitEnsemble | FitSwag | FitLaplace | FitAdvi | FitSngp | FitSghmc | FitCyclical.

(** what a program does with these objects *)
Inductive event :=
| NewOptimizer (n : nat)                                               (* FitOptimizer(method=n) *)
| NewConfig (optimizer : option nat) (callbacks : option (list callback))  (* FitConfig(...) *)
| Fit (k : fit_kind) (cfg : nat).                                      (* posterior.fit(fit_config=cfg) *)

(** what the trainer of a fit is given *)
Record given := mk_given { g_method : method; g_callbacks : list callback }.

Definition set_nth {A} (i : nat) (x : A) (l : list A) : list A := firstn i l ++ match skipn i l with [] => [] | _ :: r => x :: r end.

(** One fit, number [t].  sghmc_posterior.py:97-103, cyclical_sgld_posterior.py:101-107: the
    attribute [method] of the optimizer object is assigned; sngp_posterior.py:46-55: the
    attribute [callbacks] of the configuration is assigned; sghmc_posterior.py:183,
    cyclical_sgld_posterior.py:188: the trainer only gets the sampling callback.  Laplace
    trains nothing.  Deep ensembles are taken without frozen parameters or without a preliminary
    run, where the optimizer given is the one that trains (EnsModel.v). *)
Definition run_fit (t : nat) (k : fit_kind) (c : nat) (h : heap) : option given * heap :=
  match nth_error (h_configs h) c with
  | None => (None, h)
  | Some cf =>
      match nth_error (h_optimizers h) (cf_optimizer cf) with
      | None => (None, h)
      | Some m =>
          let user := match cf_callbacks cf with None => [] | Some l => l end in
          match k with
          | FitSghmc | FitCyclical =>
              (Some (mk_given (Integrator t) []),
               mk_heap (set_nth (cf_optimizer cf) (Integrator t) (h_optimizers h)) (h_configs h))
          | FitSngp =>
              let cbs := user ++ [ResetCovariance t] in
              (Some (mk_given m cbs),
               mk_heap (h_optimizers h) (set_nth c (mk_config (cf_optimizer cf) (Some cbs)) (h_configs h)))
          | FitLaplace => (None, h)
          | _ => (Some (mk_given m user), h)
          end
      end
  end.
Definition run_event (t : nat) (e : event) (h : heap) : heap :=
  match e with
  | NewOptimizer n => mk_heap (h_optimizers h ++ [Given n]) (h_configs h)
  | NewConfig o cbs => mk_heap (h_optimizers h) (h_configs h ++ [mk_config (match o with None => 0 | Some o => o end) cbs])
  | Fit k c => snd (run_fit t k c h)
  end.
Fixpoint run_events (t : nat) (es : list event) (h : heap) : heap :=
  match es with [] => h | e :: es => run_events (S t) es (run_event t e h) end.

(** ==== checkpoints and stored states ==== *)

(** fit_config/checkpointer.py:7-42; save_every_n_steps is part of the trainer *)
Record checkpointer := mk_checkpointer {
  k_save : option string; k_restore : option string; k_current : bool; k_keep : nat; k_dump : bool }.

(** posterior/state.py, JointState: what sampling returns *)
Record joint (V : Type) := mk_joint { j_params : tree V; j_mutable : option V; j_calib_params : option V; j_calib_mutable : option V }.
Arguments mk_joint {V}. Arguments j_params {V}. Arguments j_mutable {V}. Arguments j_calib_params {V}. Arguments j_calib_mutable {V}.

Section Fit.
Context {V O : Type} (init : O -> tree V -> V).
Notation state := (state V O).
Notation repo := (repo V O).
Notation fs := (fs V).

Definition joint_of (s : state) : joint V := mk_joint (s_params s) (s_mutable s) (s_calib_params s) (s_calib_mutable s).

(** a call of save_checkpoint, mixin.py:32-57.  Without [force_save] flax's save_checkpoint
    (overwrite=False) raises InvalidCheckpointError, here RuntimeError, and writes nothing if
    the directory has a checkpoint of the same or a later step. *)
Record save := mk_save { v_state : state; v_keep : nat; v_force : bool }.
Definition do_save (d : option string) (v : save) (w : fs) : option error * fs :=
  match d with
  | None => (None, w)
  | Some d =>
      if negb (v_force v) && existsb (fun p => s_step (v_state v) <=? fst p) (dir_files d w)
      then (Some RuntimeError, w)
      else (None, apply_actions w (save_actions d w (v_state v) (v_keep v)))
  end.
Fixpoint do_saves (d : option string) (vs : list save) (w : fs) : option error * fs :=
  match vs with
  | [] => (None, w)
  | v :: vs => match do_save d v w with (None, w') => do_saves d vs w' | failed => failed end
  end.
(** a run of a trainer: the state it returns and the calls of save_checkpoint during training
    (trainer.py:263-269 without force_save, 350-351 with; none happens without a directory) *)
Record run := mk_run { n_final : state; n_saves : list save }.
(** trainer.py:643-649 and laplace_posterior.py:288-294: a forced save at the end *)
Definition training_saves (ck : checkpointer) (n : run) : list save := n_saves n ++ [mk_save (n_final n) (k_keep ck) true].

(** posterior/base.py:210-217 *)
Definition bad_config (ck : checkpointer) : bool := k_dump ck && match k_save ck with None => true | Some _ => false end.

(** ---- posteriors that hold one state ---- *)

(** map_posterior.py:81-89, swag_posterior.py:97-117, advi_posterior.py:101-116,
    laplace_posterior.py:240-260 with base.py:68-88: [fresh] is the state made when none is
    available (initialised, or a preliminary MAP run).  Simplification: the check of the type of
    the restored state is in LapModel. *)
Definition start_state (ck : checkpointer) (o : O) (fresh : result state) (w : fs) (p : option repo) : result state :=
  match k_restore ck with
  | Some d => restore init d (Some o) w
  | None => if k_current ck then match p with None => Err AttributeError | Some r => fst (get init None (Some o) w r) end
            else fresh
  end.
Inductive storage := DumpState | SaveDir.
(** map_posterior.py:112-116, swag_posterior.py:171-175, advi_posterior.py:191-195: [DumpState];
    laplace_posterior.py:296-298: [SaveDir] *)
Definition stored_in (g : storage) (ck : checkpointer) : option string :=
  match g with DumpState => if k_dump ck then k_save ck else None | SaveDir => k_save ck end.
(** the attribute self.state is assigned only after training; on an exception it stays (if it is
    in memory and was read, with the optimizer of the fit, as in RepoModel.get) *)
Definition touched (ck : checkpointer) (o : O) (w : fs) (p : option repo) : option repo :=
  match k_restore ck, k_current ck, p with
  | None, true, Some r => Some (snd (get init None (Some o) w r))
  | _, _, _ => p
  end.
Definition fit_single (g : storage) (ck : checkpointer) (o : O) (fresh : result state) (train : state -> run)
    (w : fs) (p : option repo) : result state * (fs * option repo) :=
  if bad_config ck then (Err ValueError, (w, p))
  else match start_state ck o fresh w p with
  | Err e => (Err e, (w, p))
  | Ok s =>
      let n := train s in
      match do_saves (k_save ck) (training_saves ck n) w with
      | (Some e, w') => (Err e, (w', touched ck o w p))
      | (None, w') =>
          let (w'', r) := put (n_final n) None (k_keep ck) w' (mk_repo (stored_in g ck) None) in
          (Ok (n_final n), (w'', Some r))
      end
  end.
(** map_posterior.py:121-128: the stored state; a posterior that was never fitted has
    [state = None] (base.py:50) *)
Definition stored (w : fs) (p : option repo) : result state :=
  match p with None => Err AttributeError | Some r => fst (get init None None w r) end.
Definition sample_single (w : fs) (p : option repo) : result (joint V) := rmap joint_of (stored w p).
(** base.py:168-184 *)
Definition load_state (d : string) (w : fs) (p : option repo) : result unit * option repo :=
  match restore init d None w with
  | Err _ => (Err ValueError, p)
  | Ok _ => (Ok tt, Some (mk_repo (Some d) None))
  end.
(** base.py:186-208 *)
Definition save_state (d : string) (keep : nat) (w : fs) (p : option repo) : result unit * fs :=
  match p with
  | None => (Err ValueError, w)
  | Some r => match get init None None w r with
              | (Err e, _) => (Err e, w)
              | (Ok s, r') => (Ok tt, fst (put s (Some d) keep w r'))
              end
  end.

(** ---- deep ensembles ---- *)

(** deep_ensemble_posterior.py:163-179: an existing repository keeps its members, whose
    directories are changed; otherwise a new one is made.  (Line 165 assigns to the member
    with index i < ensemble_size; all repositories here have that size.) *)
Definition member_place (ck : checkpointer) (i : nat) : option string :=
  if k_dump ck then option_map (fun b => member_dir b i) (k_save ck) else None.
Definition ens_repos (ck : checkpointer) (size : nat) (p : option (list repo)) : list repo :=
  match p with
  | Some rs => map (fun ir => mk_repo (member_place ck (fst ir)) (r_mem (snd ir))) (combine (seq 0 size) rs)
  | None => init_multi size (if k_dump ck then k_save ck else None)
  end.
(** lines 265-290 and 118-125 *)
Definition ens_start (ck : checkpointer) (o : O) (fresh : nat -> state) (i : nat) (w : fs) (rs : list repo) : result state * list repo :=
  match k_restore ck with
  | Some d => (restore init (member_dir d i) (Some o) w, rs)
  | None => if k_current ck then
              match run_member init i (Get (Some o)) w rs with
              | (Got s, (_, rs')) => (Ok s, rs')
              | (Raised e, (_, rs')) => (Err e, rs')
              | (Done, (_, rs')) => (Err RuntimeError, rs')
              end
            else (Ok (fresh i), rs)
  end.
(** lines 117-161 and 186-189 for member [i] *)
Definition ens_member (ck : checkpointer) (o : O) (fresh : nat -> state) (train : nat -> state -> run) (i : nat)
    (w : fs) (rs : list repo) : result state * (fs * list repo) :=
  match ens_start ck o fresh i w rs with
  | (Err e, rs') => (Err e, (w, rs'))
  | (Ok s, rs') =>
      let n := train i s in
      match do_saves (option_map (fun b => member_dir b i) (k_save ck)) (training_saves ck n) w with
      | (Some e, w') => (Err e, (w', rs'))
      | (None, w') =>
          match run_member init i (Put (n_final n) (k_keep ck)) w' rs' with
          | (Raised e, wr) => (Err e, wr)
          | (_, wr) => (Ok (n_final n), wr)
          end
      end
  end.
Fixpoint ens_loop (ck : checkpointer) (o : O) (fresh : nat -> state) (train : nat -> state -> run) (is : list nat)
    (w : fs) (rs : list repo) : result (list state) * (fs * list repo) :=
  match is with
  | [] => (Ok [], (w, rs))
  | i :: is =>
      match ens_member ck o fresh train i w rs with
      | (Err e, wr) => (Err e, wr)
      | (Ok s, (w', rs')) => let (res, wr) := ens_loop ck o fresh train is w' rs' in (rmap (cons s) res, wr)
      end
  end.
Definition ens_fit (ck : checkpointer) (o : O) (size : nat) (fresh : nat -> state) (train : nat -> state -> run)
    (w : fs) (p : option (list repo)) : result (list state) * (fs * option (list repo)) :=
  if bad_config ck then (Err ValueError, (w, p))
  else let (res, wr) := ens_loop ck o fresh train (seq 0 size) w (ens_repos ck size p) in
       (res, (fst wr, Some (snd wr))).
(** lines 194-207: member 0 is read first, for its shapes; [j] is the member drawn, below
    ensemble_size *)
Definition member_state (w : fs) (p : option (list repo)) (j : nat) : result state :=
  match p with
  | None => Err AttributeError
  | Some rs => match fst (run_member init j (Get None) w rs) with Got s => Ok s | Raised e => Err e | Done => Err RuntimeError end
  end.
Definition sample_member (w : fs) (p : option (list repo)) (j : nat) : result (joint V) :=
  member_state w p 0 >>= fun _ => rmap joint_of (member_state w p j).
(** lines 209-219 *)
Definition ens_load (size : nat) (d : string) (w : fs) (p : option (list repo)) : result unit * option (list repo) :=
  match restore init (member_dir d 0) None w with
  | Err _ => (Err ValueError, p)
  | Ok _ => (Ok tt, Some (init_multi size (Some d)))
  end.
(** lines 221-223 and sgmcmc_posterior.py:78-80: each member is put back where it was read from;
    the argument checkpoint_dir is not used *)
Fixpoint resave (is : list nat) (keep : nat) (w : fs) (rs : list repo) : result unit * (fs * list repo) :=
  match is with
  | [] => (Ok tt, (w, rs))
  | i :: is =>
      match run_member init i (Get None) w rs with
      | (Got s, (w1, rs1)) =>
          match run_member init i (Put s keep) w1 rs1 with
          | (Raised e, wr) => (Err e, wr)
          | (_, (w2, rs2)) => resave is keep w2 rs2
          end
      | (Raised e, wr) => (Err e, wr)
      | (Done, wr) => (Err RuntimeError, wr)
      end
  end.
Definition ens_save (size : nat) (d : string) (keep : nat) (w : fs) (p : option (list repo)) : result unit * (fs * option (list repo)) :=
  match p with
  | None => (Err AttributeError, (w, p))
  | Some rs => let (res, wr) := resave (seq 0 size) keep w rs in (res, (fst wr, Some (snd wr)))
  end.

(** ---- stochastic gradient MCMC ---- *)

(** sghmc_posterior.py:113-117: the trainer's own checkpoints *)
Definition chain_dir (base : string) : string := (base ++ "/c")%string.
(** during training: a checkpoint, or a sample kept by the callback
    (sgmcmc_sampling_callback.py:33-44) *)
Inductive chain_event := Checkpoint (v : save) | Sample (s : state).
Record chain := mk_chain { ch_final : state; ch_events : list chain_event }.
(** Simplification: no freeze_fun, so the repository keeps whole states (the other case is in
    RepoModel: sg_put, sg_get). *)
Fixpoint run_chain (ck : checkpointer) (es : list chain_event) (count : nat) (w : fs) (rs : list repo) : option error * (fs * list repo) :=
  match es with
  | [] => (None, (w, rs))
  | Checkpoint v :: es =>
      match do_save (option_map chain_dir (k_save ck)) v w with
      | (Some e, w') => (Some e, (w', rs))
      | (None, w') => run_chain ck es count w' rs
      end
  | Sample s :: es =>
      match run_member init count (Put s (k_keep ck)) w rs with
      | (Raised e, wr) => (Some e, wr)
      | (_, (w', rs')) => run_chain ck es (S count) w' rs'
      end
  end.
(** sgmcmc_posterior.py:82-109, sghmc_posterior.py:131-134 *)
Definition chain_start (ck : checkpointer) (o : O) (fresh : state) (w : fs) (p : option (list repo)) : result state :=
  match k_restore ck with
  | Some d => restore init (chain_dir d) (Some o) w
  | None => if k_current ck then
              match p with
              | None => Err AttributeError
              | Some rs => match fst (run_member init (length rs - 1) (Get (Some o)) w rs) with
                           | Got s => Ok s | Raised e => Err e | Done => Err RuntimeError end
              end
            else Ok fresh
  end.
(** sghmc_state.py:13-60 convert_from_map_state: a new state with the same parameters, mutable
    and calibration values, step 0 and a new optimizer state *)
Definition chain_init (o : O) (s : state) : state :=
  mk_state 0 (s_params s) (init o (s_params s)) (s_mutable s) (s_calib_params s) (s_calib_mutable s) None (Some o).
(** sghmc_posterior.py:62-187: the repository of the posterior is replaced before the sampling
    callback is made ([accepted]: its constructor does not raise, see McmcModel.make_callback) and
    before training, and lives in save_checkpoint_dir whether or not dump_state is set *)
Definition chain_fit (ck : checkpointer) (o : O) (size : nat) (accepted : bool) (fresh : state) (train : state -> chain)
    (w : fs) (p : option (list repo)) : result state * (fs * option (list repo)) :=
  if bad_config ck then (Err ValueError, (w, p))
  else match chain_start ck o fresh w p with
  | Err e => (Err e, (w, p))
  | Ok s =>
      if negb accepted then (Err ValueError, (w, Some (init_multi size (k_save ck)))) else
      let n := train (chain_init o s) in
      match run_chain ck (ch_events n ++ [Checkpoint (mk_save (ch_final n) (k_keep ck) true)]) 0 w (init_multi size (k_save ck)) with
      | (Some e, (w', rs)) => (Err e, (w', Some rs))
      | (None, (w', rs)) => (Ok (ch_final n), (w', Some rs))
      end
  end.
(** sgmcmc_posterior.py:61-76 *)
Definition chain_load (size : nat) (d : string) (w : fs) (p : option (list repo)) : result unit * option (list repo) :=
  match restore init (chain_dir d) None w with
  | Err _ => (Err ValueError, p)
  | Ok _ => (Ok tt, Some (init_multi size (Some d)))
  end.
End Fit.
