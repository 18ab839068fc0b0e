(** Concrete runs of BatchMVP. *)
From Coq Require Import List Arith ZArith QArith Qabs Qminmax Bool Lia Lqa.
From Verif Require Import Lib QuantModel ConfRegModel ConfClassModel MultiModel MultiSpec MultiSpec3 MvpSpec.
Import ListNotations.
Open Scope Q_scope.

Definition mvp_cfg : config := {| n_buckets := 5; taus := [0; 1; 2]%nat; n_groups := 1; n_dims := 1; min_prob := 1 # 10; ptype_of := Additive; eta := 1; atol := 0; rtol := 0 |}.
Definition mvp_mid : key := {| k_tau := 0; k_g := 0; k_v := 1 # 2; k_c := 0 |}.

(** a patch brings the coverage nearer to the target, raises the loss and ends the run *)
Lemma overshoot_case : exists s k d,
  run (batch_mvp (4 # 5)) mvp_cfg 10 [[true]; [true]] [[true]; [true]] [[0]; [1 # 100]] [[0]; [1 # 100]] [0; 0] [0; 0] = Break s /\
  l_patches s = [] /\ l_converged s = false /\
  choose (batch_mvp (4 # 5)) mvp_cfg [[true]; [true]] [[0]; [1 # 100]] [0; 0] = Some k /\
  patch_for (batch_mvp (4 # 5)) mvp_cfg [[true]; [true]] [[0]; [1 # 100]] [0; 0] k = Ok (Some d) /\ d == 1 # 4 /\
  miss_at (4 # 5) d [true; true] [0; 0] [0; 1 # 100] < miss_at (4 # 5) 0 [true; true] [0; 0] [0; 1 # 100] /\
  pinball_error (4 # 5) [0; 0] [0; 1 # 100] < pinball_error (4 # 5) (apply_patches (batch_mvp (4 # 5)) mvp_cfg [(k, d)] [[true]; [true]] [0; 0]) [0; 1 # 100].
Proof.
  eexists. eexists. eexists. split; [vm_compute; reflexivity|]. split; [reflexivity|]. split; [reflexivity|]. split; [vm_compute; reflexivity|]. split; [vm_compute; reflexivity|].
  repeat split; vm_compute; reflexivity.
Qed.
Lemma tie_case : exists d,
  patch_for (batch_mvp (1 # 2)) mvp_cfg [[true]; [true]; [true]] [[0]; [1]; [1]] [1 # 2; 1 # 2; 1 # 2] mvp_mid = Ok (Some d) /\
  d == - (1 # 2) /\
  miss_at (1 # 2) d [true; true; true] [1 # 2; 1 # 2; 1 # 2] [0; 1; 1] == miss_at (1 # 2) 0 [true; true; true] [1 # 2; 1 # 2; 1 # 2] [0; 1; 1] /\
  pinball_error (1 # 2) [1 # 2; 1 # 2; 1 # 2] [0; 1; 1] < pinball_error (1 # 2) (apply_patches (batch_mvp (1 # 2)) mvp_cfg [(mvp_mid, d)] [[true]; [true]; [true]] [1 # 2; 1 # 2; 1 # 2]) [0; 1; 1].
Proof. eexists. split; [vm_compute; reflexivity|]. repeat split; vm_compute; reflexivity. Qed.

(** five points of one bucket: the patch moves by two grid steps and the loss falls *)
Definition mvp_scores : list (list Q) := [[1 # 10]; [7 # 10]; [9 # 10]; [8 # 10]; [1]].
Definition mvp_groups : list (list bool) := [[true]; [true]; [true]; [true]; [true]].
Definition mvp_values : list Q := [1 # 2; 1 # 2; 1 # 2; 1 # 2; 1 # 2].
