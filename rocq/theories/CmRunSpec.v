(** Words for the properties of several calibrations of a calibration model. *)
From Coq Require Import List Arith String.
From Verif Require Import Lib NestedModel NestedSpec FreezeModel FreezeSpec EnsModel EnsSpec CmRunModel.
Import ListNotations.

Section Words.
Context {V M X T O OS : Type}.
Notation call := (cm_call V M X T O OS).
(** step counter, parameters and mutable variables that a call starts from: those of the checkpoint if
    one is given, else the current ones if asked for, else new ones *)
Definition starts (k : call) (r : repository V M O OS) : option (nat * tree V * option M) :=
  match k_checkpoint k, k_current k with
  | Some c, _ => option_map (fun s => (t_step s, t_params s, t_mutable s)) c
  | None, true => option_map (fun fs => (t_step (snd fs), t_params (snd fs), t_mutable (snd fs))) r
  | None, false => Some (0, fst (k_init k), snd (k_init k))
  end.
(** the call continues from the current state *)
Definition continues (k : call) : Prop := k_checkpoint k = None /\ k_current k = true.
(** the same call on other batches, and continuing on other batches *)
Definition on_batches (k : call) (bs : list (X * T)) : call :=
  {| k_method := k_method k; k_freeze := k_freeze k; k_run := k_run k; k_batches := bs; k_init := k_init k;
     k_checkpoint := k_checkpoint k; k_current := k_current k; k_dump := k_dump k; k_dir := k_dir k |}.
Definition continued (k : call) (run : nat) (bs : list (X * T)) : call :=
  {| k_method := k_method k; k_freeze := k_freeze k; k_run := run; k_batches := bs; k_init := k_init k;
     k_checkpoint := None; k_current := true; k_dump := k_dump k; k_dir := k_dir k |}.
(** the same call, not dumping its state *)
Definition undumped (k : call) : call :=
  {| k_method := k_method k; k_freeze := k_freeze k; k_run := k_run k; k_batches := k_batches k; k_init := k_init k;
     k_checkpoint := k_checkpoint k; k_current := k_current k; k_dump := false; k_dir := k_dir k |}.
End Words.
