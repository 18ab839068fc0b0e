(** Statistics of earlier fits of SWAG are forgotten. *)
From Coq Require Import List Arith ZArith QArith Bool String.
From Verif Require Import Lib QuantModel TrainModel McmcModel DescModel DescCases SwagModel SwagCases SwagContModel SwagContProofs SwagContCases.
Import ListNotations.
Open Scope list_scope.

(** the iterates of one fit of six epochs are those of two fits of three, whose statistics are those of the last three iterates *)
Theorem forgotten : exists s1 s2 w1 w2, v_fits [v_args v_opt 2 6 w_batch] (v_start None) = Ok s1 /\ v_fits [v_args v_opt 2 3 w_batch; v_args v_opt 2 3 w_batch] (v_start None) = Ok s2 /\
  params (st_train s1) = params (st_train s2) /\ st_stats s1 = [Some w1] /\ st_stats s2 = [Some w2] /\ ~ (sw_mean w1 == sw_mean w2)%Q /\
  let x := fun n => match v_fits [v_args v_opt 2 n w_batch] (v_start None) with Ok s => params (st_train s) | Err _ => 0%Q end in
  (sw_mean w2 * 3 == x 4%nat + x 5%nat + x 6%nat)%Q.
Proof.
  do 4 eexists. split; [vm_compute; reflexivity|]. split; [vm_compute; reflexivity|]. split; [reflexivity|]. split; [reflexivity|]. split; [reflexivity|].
  split; [vm_compute; discriminate|]. vm_compute. reflexivity.
Qed.
