(** Proofs of C171 about the toy fits of ChainContCases.v. *)
From Coq Require Import List Arith ZArith QArith Bool String.
From Verif Require Import Lib TrainModel TrainSpec TrainProofs4 ChainModel ChainContModel ChainContCases.
Import ListNotations.
Lemma storage_differs : exists k1 k2, h_fits (Sghmc 2 1 1) [h_args 2 None None true; h_args 2 None None false] h_start = Ok k1 /\
  h_fits (Sghmc 2 1 1) [h_args 2 None None true; h_args 2 None None true] h_start = Ok k2 /\
  map fst (kc_samples k1) = map fst (kc_samples k2) /\ ~ (params (kc_end k1) == params (kc_end k2))%Q.
Proof. do 2 eexists. split; [vm_compute; reflexivity|]. split; [vm_compute; reflexivity|]. split; [reflexivity|]. vm_compute. discriminate. Qed.
