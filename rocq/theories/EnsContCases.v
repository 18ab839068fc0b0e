(** Toys for continued fits of ensembles, on the network of EnsCases.v. *)
From Coq Require Import List ZArith Lia Bool String.
From Verif Require Import Lib NestedModel NestedSpec FreezeModel FreezeSpec EnsModel EnsSpec EnsCases ContModel ContSpec ContCases TreeCases EnsContModel EnsContSpec.
Import ListNotations.
Open Scope list_scope.
Local Open Scope Z_scope.

Definition ec_fit := ensemble_fit ze_init cz_plain ze_loss ze_diff (ze_map2 Z.add) (fun n => ze_map (fun x => x / Z.of_nat n)) (ze_map (fun _ => 0)).
Definition ec_continue := continue_ensemble ze_init cz_plain ze_loss ze_diff (ze_map2 Z.add) (fun n => ze_map (fun x => x / Z.of_nat n)) (ze_map (fun _ => 0)).
Definition ec_args (cfg : fit_config Z Z) (bs : list Z) : ens_args Z Z Z := {| e_cfg := cfg; e_passes := fun _ => bs; e_file := false |}.
Definition te_continue := continue_ensemble (fun (_ : Z) (_ : tree Z) => 0%Z) tgd ze_loss tdiff tadd (fun n => tmap (fun x => x / Z.of_nat n)%Z) (tmap (fun _ => 0%Z)).
Lemma ec_stateless lr : stateless ze_init cz_plain lr.
Proof. split; [reflexivity|]. unfold cz_plain. intros g os p p' os' H. destruct (ze_map2 _ p g); [|discriminate]. cbn in H. now injection H as _ <-. Qed.
Lemma longer_refuted : exists cfg p ms m1 m2, (forall lr, stateless ze_init cz_plain lr) /\ fc_freeze cfg = Some ze_freeze /\ fc_accumulation cfg = 1%nat /\
  ec_fit cfg (Some p) ze_random (fun _ => [1; 1]) 1 = Ok [m2] /\ ec_fit cfg (Some p) ze_random (fun _ => [1]) 1 = Ok ms /\ ec_continue [ec_args cfg [1]] 2 ms = Ok [m1] /\
  t_step m1 = t_step m2 /\ t_params m1 <> t_params m2.
Proof. exists (ze_cfg 3 true 1), (ze_map_run 1 false 1). do 3 eexists. split; [exact ec_stateless|]. do 2 (split; [reflexivity|]). do 3 (split; [vm_compute; reflexivity|]). split; [reflexivity|]. discriminate. Qed.
