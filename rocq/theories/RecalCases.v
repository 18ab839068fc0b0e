(** Toys for several calibrations, on the calibrators of CalRunCases.v: gradient descent without state, and with a rate
    that falls with the count of updates. *)
From Coq Require Import List Arith ZArith QArith Bool String.
From Verif Require Import Lib QuantModel TrainModel TrainProofs4 CalibModel DescCases CalRunModel CalRunCases RecalModel RecalSpec.
Import ListNotations.
Open Scope list_scope.

Definition r_plain : optimizer Q Q nat := {| o_init := fun _ => 0%nat; o_step := fun g o p => (Qred (p - g / 10)%Q, o) |}.
Definition r_falling : optimizer Q Q nat := {| o_init := fun _ => 0%nat; o_step := fun g o p => (Qred (p - g / inject_Z (Z.of_nat (10 + o)))%Q, S o) |}.
Definition r_call (o : optimizer Q Q nat) (n : nat) : pm_call Q Q Q Q Q nat Q Q :=
  {| p_opt := o; p_cfg := k_cfg n; p_monitor := fun _ => None; p_data := [(0%Q, [1%Q]); (0%Q, [2%Q])]; p_outs := [[1%Q; 3%Q]; [2%Q; 2%Q]]; p_val := None; p_size := 2; p_val_size := 0; p_metrics := None; p_training_metrics := true |}.
Definition r_posterior (l : list (pm_call Q Q Q Q Q nat Q Q)) (p : Q) :=
  pm_calibrations (fun o => o) (fun o => o) t_diff (Some k_f) t_log_prob k_mean k_mean (fun l => hd 0%nat l) l (p, Some None).
Definition r_given (o : optimizer Q Q nat) (n : nat) (ckpt : option (tstate Q nat Q (option (option (cmut nat))))) : oc_call Q nat Q Q Q nat Q Q :=
  {| q_opt := o; q_cfg := k_cfg n; q_monitor := fun _ => None; q_outputs := 1%Q; q_targets := 3%Q; q_val := None; q_metrics := None; q_training_metrics := true; q_init := (0%Q, Some None); q_checkpoint := ckpt |}.
Definition r_outputs (l : list (oc_call Q nat Q Q Q nat Q Q)) := oc_calibrations (fun o => o) (fun o => o) t_diff (Some k_f) k_loss l None.
Lemma r_no_memory : no_memory r_plain.
Proof. split; reflexivity. Qed.
Lemma posterior_reset : exists p1 p2 m1 m2, r_posterior [r_call r_falling 1; r_call r_falling 1] 0 = Ok (p1, m1) /\ r_posterior [r_call r_falling 2] 0 = Ok (p2, m2) /\ ~ (p1 == p2)%Q.
Proof. eexists _, _, _, _. split; [vm_compute; reflexivity|]. split; [vm_compute; reflexivity|]. vm_compute. discriminate. Qed.
Lemma outputs_forget : exists s1 s2, r_outputs [r_given r_plain 1 None; r_given r_plain 1 None] = Ok (Some s1) /\ r_outputs [r_given r_plain 1 None] = Ok (Some s1) /\ r_outputs [r_given r_plain 2 None] = Ok (Some s2) /\ ~ (params s1 == params s2)%Q.
Proof. eexists _, _. do 3 (split; [vm_compute; reflexivity|]). vm_compute. discriminate. Qed.
