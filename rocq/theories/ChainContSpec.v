(** Words for the properties of continued samplers. *)
From Coq Require Import List Arith ZArith QArith.
From Verif Require Import Lib TrainModel DescModel ChainContModel.
Import ListNotations.

(** the same fit, from the checkpoint or from the current state *)
Definition starting {P M X T O K G OS Pr U} (file : bool) (a : chain_args P M X T O K G OS Pr U) : chain_args P M X T O K G OS Pr U :=
  {| ca_keys := ca_keys a; ca_opt := ca_opt a; ca_init := ca_init a; ca_setting := ca_setting a; ca_monitor := ca_monitor a; ca_cfg := ca_cfg a;
     ca_batches := ca_batches a; ca_val := ca_val a; ca_file := file |}.
(** [s] is what a fit starts from: the end of the chain or the last of the [n] samples *)
Definition start_of {P M G OS} (n : nat) (file : bool) (k : kept_chain P M G OS) (s : tstate P OS G (option M)) : Prop :=
  if file then s = kc_end k else exists j, n = S j /\ In (j, s) (kc_samples k).
