(** Toys for continued fits, on the network of EnsCases.v: gradient descent whose learning rate grows
    with its count of updates, and gradient descent without state. *)
From Coq Require Import List ZArith Lia Bool String.
From Verif Require Import Lib NestedModel NestedSpec FreezeModel FreezeSpec EnsModel EnsSpec EnsCases ContModel ContSpec.
Import ListNotations.
Open Scope list_scope.
Local Open Scope Z_scope.

Definition cz_growing (lr : Z) (g : tree Z) (os : Z) (p : tree Z) : result (tree Z * Z) := rmap (fun p' => (p', os + 1)) (ze_map2 (fun x d => x - (lr + os) * d) p g).
Definition cz_plain (lr : Z) (g : tree Z) (os : Z) (p : tree Z) : result (tree Z * Z) := rmap (fun p' => (p', os)) (ze_map2 (fun x d => x - lr * d) p g).
(** the state at the start *)
Definition cz_start (a w : Z) : tstate Z unit unit Z Z := {| t_step := 0; t_params := ze_params a w; t_opt := 0; t_mutable := None; t_calib := tt; t_grad := None; t_tx := None |}.
Definition cz_args (cfg : fit_config Z Z) (bs : list Z) (file : bool) : fit_args Z Z Z := {| a_cfg := cfg; a_run := 0; a_batches := bs; a_file := file |}.
Definition cz_fits (update : Z -> tree Z -> Z -> tree Z -> result (tree Z * Z)) :=
  fits ze_init update ze_loss ze_diff (ze_map2 Z.add) (fun n => ze_map (fun x => x / Z.of_nat n)) (ze_map (fun _ => 0)).
(** w is frozen *)
Definition cz_other (p : path) (v : Z) : string := match p with ["w"%string] => "frozen" | _ => "trainable" end.
Definition cz_cfg_other (k : nat) : fit_config Z Z := {| fc_method := 1; fc_freeze := Some cz_other; fc_accumulation := k; fc_clip := fun t => t |}.

Lemma cz_stateless : stateless ze_init cz_plain 1.
Proof. split; [reflexivity|]. unfold cz_plain. intros g os p p' os' H. destruct (ze_map2 _ p g); [|discriminate]. cbn in H. now injection H as _ <-. Qed.
Lemma reset_refuted : exists cfg s s1 s2, fc_freeze cfg = None /\ fc_accumulation cfg = 1%nat /\ cz_fits cz_growing [cz_args cfg [1] false; cz_args cfg [1] false] s = Ok s1 /\ cz_fits cz_growing [cz_args cfg [1; 1] false] s = Ok s2 /\
  t_step s1 = t_step s2 /\ t_params s1 <> t_params s2.
Proof. exists (ze_cfg 1 false 1), (cz_start 5 7). do 2 eexists. do 2 (split; [reflexivity|]). split; [vm_compute; reflexivity|]. split; [vm_compute; reflexivity|]. split; [reflexivity|]. discriminate. Qed.
Lemma leftover_refuted : exists cfg s s1 s2, fc_freeze cfg = None /\ fc_accumulation cfg = 2%nat /\ cz_fits cz_plain [cz_args cfg [2] false; cz_args cfg [4] true] s = Ok s1 /\ cz_fits cz_plain [cz_args cfg [2] false; cz_args cfg [4] false] s = Ok s2 /\
  t_step s1 = t_step s2 /\ t_params s1 <> t_params s2.
Proof. exists (ze_cfg 1 false 2), (cz_start 5 7). do 2 eexists. do 2 (split; [reflexivity|]). split; [vm_compute; reflexivity|]. split; [vm_compute; reflexivity|]. split; [reflexivity|]. discriminate. Qed.
