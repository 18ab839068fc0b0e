(** Progress of BatchMVP on the pinball loss (C156). *)
From Coq Require Import List Arith ZArith QArith Qabs Qminmax Bool.
From Verif Require Import Lib QuantModel QuantSpec ConfRegModel ConfClassModel MultiModel MultiSpec MultiSpec3 MvpSpec MvpProofs3 MvpCases.
From Verif Require Import Lit.
Import ListNotations.
Open Scope Q_scope.

(** a patch that brings the coverage of its set nearer to the target raises the pinball loss by at most
    [eta * miss * (2 / (n_buckets - 1) - |patch|)] *)
Theorem C156_loss_step : forall c cfg groups scores values k d,
  ptype_of cfg = Additive -> 0 <= eta cfg <= 1 -> 0 <= c <= 1 -> (2 <= n_buckets cfg)%nat -> n_dims cfg = 1%nat ->
  length groups = length values -> length scores = length values -> Forall (Forall in_unit) scores -> In k (keys cfg) ->
  patch_for (batch_mvp c) cfg groups scores values k = Ok (Some d) ->
  let bs := members (batch_mvp c) cfg k groups values in
  let ss := column_of 0 scores in
  0 < n_where bs -> miss_at c d bs values ss < miss_at c 0 bs values ss ->
  pinball_error c (apply_patches (batch_mvp c) cfg [(k, d)] groups values) ss <=
  pinball_error c values ss + eta cfg * (miss_at c d bs values ss * Qmax 0 (2 / inject_Z (Z.of_nat (n_buckets cfg - 1)) - Qabs d)).
Proof. exact (@loss_step). Qed.
Print Assumptions C156_loss_step.
Example C156_case_hypotheses : ptype_of mvp_cfg = Additive /\ 0 <= eta mvp_cfg <= 1 /\ (2 <= n_buckets mvp_cfg)%nat /\ n_dims mvp_cfg = 1%nat /\ length mvp_groups = length mvp_values /\ Forall (Forall in_unit) mvp_scores.
Proof. repeat split; try reflexivity; try (vm_compute; discriminate); try (cbn; lia). repeat constructor; vm_compute; discriminate. Qed.
Example C156_case_loss_step : exists d, patch_for (batch_mvp (4 # 5)) mvp_cfg mvp_groups mvp_scores mvp_values mvp_mid = Ok (Some d) /\ d == 1 # 2 /\
  miss_at (4 # 5) d [true; true; true; true; true] mvp_values (column_of 0 mvp_scores) < miss_at (4 # 5) 0 [true; true; true; true; true] mvp_values (column_of 0 mvp_scores) /\
  pinball_error (4 # 5) (apply_patches (batch_mvp (4 # 5)) mvp_cfg [(mvp_mid, d)] mvp_groups mvp_values) (column_of 0 mvp_scores) == 30 # 100 /\
  pinball_error (4 # 5) mvp_values (column_of 0 mvp_scores) == 120 # 100.
Proof. eexists. split; [vm_compute; reflexivity|]. repeat split; vm_compute; reflexivity. Qed.

(** so it does not raise it when it moves by two grid steps or more *)
Theorem C156_loss_down : forall c cfg groups scores values k d,
  ptype_of cfg = Additive -> 0 <= eta cfg <= 1 -> 0 <= c <= 1 -> (2 <= n_buckets cfg)%nat -> n_dims cfg = 1%nat ->
  length groups = length values -> length scores = length values -> Forall (Forall in_unit) scores -> In k (keys cfg) ->
  patch_for (batch_mvp c) cfg groups scores values k = Ok (Some d) ->
  let bs := members (batch_mvp c) cfg k groups values in
  let ss := column_of 0 scores in
  0 < n_where bs -> miss_at c d bs values ss < miss_at c 0 bs values ss -> 2 <= Qabs d * inject_Z (Z.of_nat (n_buckets cfg - 1)) ->
  pinball_error c (apply_patches (batch_mvp c) cfg [(k, d)] groups values) ss <= pinball_error c values ss.
Proof. exact (@loss_down). Qed.
Print Assumptions C156_loss_down.

(** shorter patches may raise the loss although they improve the coverage, and then end the run *)
Theorem C156_loss_down_refuted : exists s k d,
  run (batch_mvp (4 # 5)) mvp_cfg 10 [[true]; [true]] [[true]; [true]] [[0]; [1 # 100]] [[0]; [1 # 100]] [0; 0] [0; 0] = Break s /\
  l_patches s = [] /\ l_converged s = false /\
  choose (batch_mvp (4 # 5)) mvp_cfg [[true]; [true]] [[0]; [1 # 100]] [0; 0] = Some k /\
  patch_for (batch_mvp (4 # 5)) mvp_cfg [[true]; [true]] [[0]; [1 # 100]] [0; 0] k = Ok (Some d) /\ d == 1 # 4 /\
  miss_at (4 # 5) d [true; true] [0; 0] [0; 1 # 100] < miss_at (4 # 5) 0 [true; true] [0; 0] [0; 1 # 100] /\
  pinball_error (4 # 5) [0; 0] [0; 1 # 100] < pinball_error (4 # 5) (apply_patches (batch_mvp (4 # 5)) mvp_cfg [(k, d)] [[true]; [true]] [0; 0]) [0; 1 # 100].
Proof. exact (@overshoot_case). Qed.
Print Assumptions C156_loss_down_refuted.

(** among equally good shifts the code may leave the value that is already best, and raise the loss *)
Theorem C156_stay_refuted : exists d,
  patch_for (batch_mvp (1 # 2)) mvp_cfg [[true]; [true]; [true]] [[0]; [1]; [1]] [1 # 2; 1 # 2; 1 # 2] mvp_mid = Ok (Some d) /\
  d == - (1 # 2) /\
  miss_at (1 # 2) d [true; true; true] [1 # 2; 1 # 2; 1 # 2] [0; 1; 1] == miss_at (1 # 2) 0 [true; true; true] [1 # 2; 1 # 2; 1 # 2] [0; 1; 1] /\
  pinball_error (1 # 2) [1 # 2; 1 # 2; 1 # 2] [0; 1; 1] < pinball_error (1 # 2) (apply_patches (batch_mvp (1 # 2)) mvp_cfg [(mvp_mid, d)] [[true]; [true]; [true]] [1 # 2; 1 # 2; 1 # 2]) [0; 1; 1].
Proof. exact (@tie_case). Qed.
Print Assumptions C156_stay_refuted.

(** why a run that has not converged stops *)
Theorem C156_stop_reasons : forall c cfg n groups vgroups scores vscores values val_values s,
  ptype_of cfg = Additive -> 0 <= eta cfg <= 1 -> 0 <= c <= 1 -> (2 <= n_buckets cfg)%nat -> n_dims cfg = 1%nat ->
  length groups = length values -> length scores = length values -> length vgroups = length val_values -> length vscores = length val_values ->
  Forall (Forall in_unit) scores ->
  run (batch_mvp c) cfg n groups vgroups scores vscores values val_values = Break s -> l_converged s = false ->
  length (l_patches s) = n \/
  (forall k, In k (keys cfg) -> prob_of (members (batch_mvp c) cfg k groups (l_values s)) < min_prob cfg) \/
  pinball_error c (apply_patches (batch_mvp c) cfg (l_patches s) vgroups val_values) (column_of 0 vscores) < pinball_error c (l_val_values s) (column_of 0 vscores) \/
  (let vs := apply_patches (batch_mvp c) cfg (l_patches s) groups values in
   exists k d, In k (keys cfg) /\ patch_for (batch_mvp c) cfg groups scores vs k = Ok (Some d) /\
     (forall k', In k' (keys cfg) -> min_prob cfg <= prob_of (members (batch_mvp c) cfg k' groups vs) ->
        key_error (batch_mvp c) cfg groups scores vs k' <= key_error (batch_mvp c) cfg groups scores vs k) /\
     (Qabs d * inject_Z (Z.of_nat (n_buckets cfg - 1)) < 2 \/
      (forall i, (Z.abs i <= Z.of_nat (n_buckets cfg - 1))%Z ->
         miss_at c 0 (members (batch_mvp c) cfg k groups vs) vs (column_of 0 scores) <=
         miss_at c (inject_Z i / inject_Z (Z.of_nat (n_buckets cfg - 1))) (members (batch_mvp c) cfg k groups vs) vs (column_of 0 scores)))).
Proof. exact (@mvp_stop_reasons). Qed.
Print Assumptions C156_stop_reasons.
(** here the validation loss grew *)
Example C156_case_stop : exists s, run (batch_mvp (4 # 5)) mvp_cfg 10 mvp_groups [[true]] mvp_scores [[0]] mvp_values [1 # 2] = Break s /\
  l_patches s = [] /\ l_converged s = false /\
  pinball_error (4 # 5) [1 # 2] (column_of 0 [[0]]) < pinball_error (4 # 5) (l_val_values s) (column_of 0 [[0]]).
Proof. eexists. split; [vm_compute; reflexivity|]. repeat split; vm_compute; reflexivity. Qed.
