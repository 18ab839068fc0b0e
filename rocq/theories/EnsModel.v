(** Model of what a deep ensemble, SGHMC or cyclical SGLD with frozen parameters does after a
    preliminary run of MAP: fortuna/prob_model/posterior/deep_ensemble/deep_ensemble_posterior.py,
    sgmcmc/sghmc/sghmc_posterior.py and cyclical_sgld_posterior.py with posterior/base.py,
    run_preliminary_map.py and the updates of training/trainer.py.  Which optimizer and which
    state of it a state carries is followed through these functions.

    Parameters are trees of NestedModel.v, splitting and merging them is that of FreezeModel.v.
    The loss, its differentiation, optimizers and arithmetic on trees are parameters.  Batches are
    those the run goes through, in order (early stopping is in TrainModel.v).  Not modelled here:
    restored and current states as start (FitModel.v), checkpoint files, callbacks, metrics, loss
    scaling, several devices. *)
From Coq Require Import List Arith Bool String.
From Verif Require Import Lib NestedModel FreezeModel.
Import ListNotations.
Open Scope list_scope.
Local Notation "a >>= f" := (bind a f) (at level 61, left associativity).

Fixpoint foldM {S B} (f : S -> B -> result S) (l : list B) (s : S) : result S :=
  match l with [] => Ok s | b :: r => f s b >>= foldM f r end.

Section Ens.
(** arrays, mutable variables, calibration variables, batches, optimizers, their states, losses *)
Context {V M C B O OS L : Type}.
(** optax: init, and update followed by apply_updates; an optimizer can raise on a state of another *)
Variable o_init : O -> tree V -> OS.
Variable o_update : O -> tree V -> OS -> tree V -> result (tree V * OS).
(** the objective and the new mutable variables, from the number of the run (its key), all
    parameters, mutable and calibration variables, the batch and the step counter *)
Variable loss : nat -> tree V -> option M -> C -> B -> nat -> L * option M.
Variable diff : (tree V -> L) -> tree V -> tree V.
Variable gadd : tree V -> tree V -> result (tree V).      (* tree_map of +, raises on other structures *)
Variable gdiv : nat -> tree V -> tree V.
Variable zeros : tree V -> tree V.

(** posterior/state.py:30-36 and flax's TrainState *)
Record tstate := { t_step : nat; t_params : tree V; t_opt : OS; t_mutable : option M; t_calib : C; t_grad : option (tree V); t_tx : option O }.
Definition with_params (p : tree V) (s : tstate) : tstate :=
  {| t_step := t_step s; t_params := p; t_opt := t_opt s; t_mutable := t_mutable s; t_calib := t_calib s; t_grad := t_grad s; t_tx := t_tx s |}.
Definition with_opt (o : OS) (s : tstate) : tstate :=
  {| t_step := t_step s; t_params := t_params s; t_opt := o; t_mutable := t_mutable s; t_calib := t_calib s; t_grad := t_grad s; t_tx := t_tx s |}.

(** fit_config/{optimizer,hyperparameters}.py; [fc_clip] is clip_grandients_by_norm or nothing *)
Record fit_config := { fc_method : O; fc_freeze : option (path -> V -> string); fc_accumulation : nat; fc_clip : tree V -> tree V }.

(** ---- training: trainer.py ---- *)
(** flax TrainState.apply_gradients (trainer.py:170, 212): the optimizer is the one in the state *)
Definition apply_gradients (g : tree V) (m : option M) (acc : option (tree V)) (s : tstate) : result tstate :=
  match t_tx s with
  | None => Err AttributeError
  | Some o =>
      o_update o g (t_opt s) (t_params s) >>= fun '(p, os) =>
      Ok {| t_step := S (t_step s); t_params := p; t_opt := os; t_mutable := m; t_calib := t_calib s; t_grad := acc; t_tx := t_tx s |}
  end.
(** lines 701-715 *)
Definition all_params (frozen : option (tree V)) (p : tree V) : tree V :=
  match frozen with None => p | Some f => get_all_params f p end.
(** lines 111-170 and 193-226.  jax.lax.cond traces both branches, so an update that is not due
    still raises. *)
Definition train_step (cfg : fit_config) (run : nat) (frozen : option (tree V)) (s : tstate) (b : B) : result tstate :=
  let at_p := fun p => loss run (all_params frozen p) (t_mutable s) (t_calib s) b (t_step s) in
  let g := diff (fun p => fst (at_p p)) (t_params s) in
  let m := snd (at_p (t_params s)) in
  let k := fc_accumulation cfg in
  if (1 <? k)%nat then
    match t_grad s with Some a => gadd g a | None => Ok g end >>= fun acc =>
    let mean := fc_clip cfg (gdiv k acc) in
    apply_gradients mean m (Some (zeros mean)) s >>= fun updated =>
    if ((t_step s + 1) mod k =? 0)%nat then Ok updated
    else Ok {| t_step := S (t_step s); t_params := t_params s; t_opt := t_opt s; t_mutable := m; t_calib := t_calib s; t_grad := Some acc; t_tx := t_tx s |}
  else apply_gradients (fc_clip cfg g) m (t_grad s) s.
(** lines 604-655 around the loops *)
Definition train_run (cfg : fit_config) (run : nat) (bs : list B) (s : tstate) : result tstate :=
  match fc_freeze cfg with
  | None => foldM (train_step cfg run None) bs s
  | Some f =>
      on_train_start (t_params s) f >>= fun '(fr, tr) =>
      foldM (train_step cfg run (Some fr)) bs (with_params tr s) >>= fun s' =>
      Ok (with_params (get_all_params fr (t_params s')) s')
  end.

(** ---- states to start from ---- *)
(** posterior/base.py:90-91 _init_joint_state *)
Record start := { st_params : tree V; st_mutable : option M; st_calib : C }.
(** MAPState.init: posterior/state.py:66-94, deep_ensemble_posterior.py:229-242 *)
Definition fresh_state (o : O) (x : start) : tstate :=
  {| t_step := 0; t_params := st_params x; t_opt := o_init o (st_params x); t_mutable := st_mutable x; t_calib := st_calib x; t_grad := None; t_tx := Some o |}.
(** posterior/base.py:94-118: only the state of the optimizer is replaced *)
Definition freeze_optimizer_in_state (cfg : fit_config) (s : tstate) : result tstate :=
  match fc_freeze cfg with
  | None => Ok s
  | Some f =>
      get_trainable_paths (t_params s) (Some f) >>= fun tp =>
      extract (t_params s) tp >>= fun tr => Ok (with_opt (o_init (fc_method cfg) tr) s)
  end.
(** map_posterior.py:81-111 without a state to start from *)
Definition map_fit (cfg : fit_config) (run : nat) (bs : list B) (x : start) : result tstate :=
  freeze_optimizer_in_state cfg (fresh_state (fc_method cfg) x) >>= train_run cfg run bs.
(** run_preliminary_map.py:38, map_posterior.py:112-117: [state.get()] without optimizer.  From a file
    (dump_state) the state comes back without optimizer and accumulated gradient
    (RepoModel.to_file, from_file). *)
Definition read_back (dumped : bool) (s : tstate) : tstate :=
  if dumped then {| t_step := t_step s; t_params := t_params s; t_opt := t_opt s; t_mutable := t_mutable s; t_calib := t_calib s; t_grad := None; t_tx := None |}
  else s.
(** deep_ensemble_posterior.py:225-263, sghmc_posterior.py:189-225, cyclical_sgld_posterior.py:194-230 *)
Definition init_map_state (map_state : option tstate) (cfg : fit_config) (x : start) : result tstate :=
  match map_state, fc_freeze cfg with
  | Some s, Some f => init_member (t_params s) (st_params x) f >>= fun p => Ok (with_params p s)
  | _, _ => Ok (fresh_state (fc_method cfg) x)
  end.

(** the preliminary run: its configuration, whether it dumps its state, its batches *)
Record preliminary := { pr_cfg : fit_config; pr_dumped : bool; pr_batches : list B }.
(** deep_ensemble_posterior.py:84-104, sghmc_posterior.py:74-92: without freeze function map_fit_config is ignored *)
Definition run_preliminary (cfg : fit_config) (prelim : option preliminary) (x : start) : result (option tstate) :=
  match prelim, fc_freeze cfg with
  | Some p, Some _ => rmap (fun s => Some (read_back (pr_dumped p) s)) (map_fit (pr_cfg p) 0 (pr_batches p) x)
  | _, _ => Ok None
  end.
Definition runs_before (cfg : fit_config) (prelim : option preliminary) : nat :=
  match prelim, fc_freeze cfg with Some _, Some _ => 1 | _, _ => 0 end.

(** ---- deep_ensemble_posterior.py:117-192 ---- *)
Definition member_fit (cfg : fit_config) (map_state : option tstate) (run : nat) (bs : list B) (x : start) : result tstate :=
  init_map_state map_state cfg x >>= freeze_optimizer_in_state cfg >>= train_run cfg run bs.
(** [random i] is the i-th initialisation, [passes j] are the batches member j goes through *)
Definition ensemble_fit (cfg : fit_config) (prelim : option preliminary) (random : nat -> start) (passes : nat -> list B) (size : nat) : result (list tstate) :=
  run_preliminary cfg prelim (random 0) >>= fun map_state =>
  mapM (fun j => let i := runs_before cfg prelim + j in member_fit cfg map_state i (passes j) (random i)) (seq 0 size).

(** ---- sghmc_posterior.py:131-152, cyclical_sgld_posterior.py:135-157 ---- *)
(** sghmc_state.py, cyclical_sgld_state.py convert_from_map_state; [fc_method] is the integrator *)
Definition convert_from_map_state (o : O) (s : tstate) : tstate := fresh_state o {| st_params := t_params s; st_mutable := t_mutable s; st_calib := t_calib s |}.
(** the state that the trainer is given *)
Definition chain_state (cfg : fit_config) (prelim : option preliminary) (random : nat -> start) : result tstate :=
  run_preliminary cfg prelim (random 0) >>= fun map_state =>
  init_map_state map_state cfg (random (runs_before cfg prelim)) >>= fun s =>
  freeze_optimizer_in_state cfg (convert_from_map_state (fc_method cfg) s).
End Ens.
Arguments fit_config V O : clear implicits.
Arguments tstate V M C O OS : clear implicits.
Arguments start V M C : clear implicits.
Arguments preliminary V B O : clear implicits.
