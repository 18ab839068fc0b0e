(** Model of fits of MAP (and of members of deep ensembles) that continue an earlier fit:
    fortuna/prob_model/posterior/map/map_posterior.py:81-117, posterior/base.py:58-88,
    training/train_state_repository.py:24-44, training/mixin.py:28-85, posterior/state.py:96-148.

    States, training and freezing are those of EnsModel.v, with the same parameters.  Storing and
    finding states are in RepoModel.v and FitModel.v; here a stored state is the state that the last
    fit returned, kept in memory or read from its checkpoint. *)
From Coq Require Import List Arith Bool String.
From Verif Require Import Lib NestedModel FreezeModel EnsModel.
Import ListNotations.
Open Scope list_scope.
Local Notation "a >>= f" := (bind a f) (at level 61, left associativity).

Section Cont.
Context {V M C B O OS L : Type}.
Variable o_init : O -> tree V -> OS.
Variable o_update : O -> tree V -> OS -> tree V -> result (tree V * OS).
Variable loss : nat -> tree V -> option M -> C -> B -> nat -> L * option M.
Variable diff : (tree V -> L) -> tree V -> tree V.
Variable gadd : tree V -> tree V -> result (tree V).
Variable gdiv : nat -> tree V -> tree V.
Variable zeros : tree V -> tree V.
Notation tstate := (tstate V M C O OS).
Notation fit_config := (fit_config V O).

(** train_state_repository.py:40-44 from memory; mixin.py:45-58 (the accumulated gradient is removed
    before saving) and state.py:133-148 from a checkpoint.  Both times [optimizer.init] of all
    parameters. *)
Definition restored (file : bool) (o : O) (s : tstate) : tstate :=
  {| t_step := t_step s; t_params := t_params s; t_opt := o_init o (t_params s); t_mutable := t_mutable s; t_calib := t_calib s;
     t_grad := if file then None else t_grad s; t_tx := Some o |}.
(** map_posterior.py:81-111 with a state to start from; deep_ensemble_posterior.py:117-161 *)
Definition continue_fit (cfg : fit_config) (run : nat) (bs : list B) (file : bool) (s : tstate) : result tstate :=
  freeze_optimizer_in_state o_init cfg (restored file (fc_method cfg) s) >>=
  train_run o_update loss diff gadd gdiv zeros cfg run bs.
(** any number of fits that continue the first one *)
Record fit_args := { a_cfg : fit_config; a_run : nat; a_batches : list B; a_file : bool }.
Fixpoint fits (l : list fit_args) (s : tstate) : result tstate :=
  match l with [] => Ok s | a :: r => continue_fit (a_cfg a) (a_run a) (a_batches a) (a_file a) s >>= fits r end.
End Cont.
Arguments fit_args V B O : clear implicits.
