(** Model of fits of deep ensembles that continue an earlier fit:
    fortuna/prob_model/posterior/deep_ensemble/deep_ensemble_posterior.py:117-192 and 265-285 with
    start_from_current_state or a checkpoint to restore.

    A member is continued as in ContModel.v.  Which state a member finds is in FitModel.v (C115): its own,
    when the storage is that of the earlier fit; here the list of members is what the last fit stored. *)
From Coq Require Import List Arith Bool String.
From Verif Require Import Lib NestedModel FreezeModel EnsModel ContModel.
Import ListNotations.
Open Scope list_scope.
Local Notation "a >>= f" := (bind a f) (at level 61, left associativity).

Section EnsCont.
Context {V M C B O OS L : Type}.
Variable o_init : O -> tree V -> OS.
Variable o_update : O -> tree V -> OS -> tree V -> result (tree V * OS).
Variable loss : nat -> tree V -> option M -> C -> B -> nat -> L * option M.
Variable diff : (tree V -> L) -> tree V -> tree V.
Variable gadd : tree V -> tree V -> result (tree V).
Variable gdiv : nat -> tree V -> tree V.
Variable zeros : tree V -> tree V.
Notation tstate := (tstate V M C O OS).
Notation fit_config := (fit_config V O).

(** the arguments of a fit; [e_passes j] are the batches member j goes through *)
Record ens_args := { e_cfg : fit_config; e_passes : nat -> list B; e_file : bool }.
(** deep_ensemble_posterior.py:182-192: one member after the other, each with a new key *)
Definition continue_members (a : ens_args) (run : nat) (ms : list tstate) : result (list tstate) :=
  mapM (fun js => continue_fit o_init o_update loss diff gadd gdiv zeros (e_cfg a) (run + fst js) (e_passes a (fst js)) (e_file a) (snd js)) (combine (seq 0 (List.length ms)) ms).
(** any number of fits after another *)
Fixpoint continue_ensemble (l : list ens_args) (run : nat) (ms : list tstate) : result (list tstate) :=
  match l with [] => Ok ms | a :: r => continue_members a run ms >>= continue_ensemble r (run + List.length ms) end.
End EnsCont.
Arguments ens_args V B O : clear implicits.
