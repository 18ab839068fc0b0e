(** Refutations and data for the concrete cases. *)
From Coq Require Import List Arith ZArith QArith Qround Qminmax Qabs Bool Lia Lqa.
From Verif Require Import Lib QuantModel QuantSpec QuantProofs ConfRegModel ConfRegProofs ConfClassModel ConfClassProofs ConfClassProofs2 ConfClassSpec ConfClassProofs3 MultiModel MultiSpec MultiProofs MultiProofs2 MultiProofs3 MultiProofs4 MultiProofs5.
Import ListNotations.
Open Scope Q_scope.

Definition toy (nb : nat) (ts : list nat) (ng nd : nat) (pt : ptype) (e a r : Q) : config :=
  {| n_buckets := nb; taus := ts; n_groups := ng; n_dims := nd; min_prob := 1 # 10; ptype_of := pt; eta := e; atol := a; rtol := r |}.
Definition out {V} (o : outcome V) (d : lstate V) : lstate V := match o with Break s => s | _ => d end.
Definition dflt {V} : lstate V := {| l_values := []; l_val_values := []; l_old := None; l_losses := []; l_patches := []; l_converged := false |}.

(** a run of the top-label calibrator after which a row no longer sums to one *)
Theorem top_sum_refuted : exists cfg n groups scores values s,
  run top_label cfg n groups groups scores scores values values = Break s /\
  Forall (fun row => qsum row == 1) values /\ ~ Forall (fun row => qsum row == 1) (apply_patches top_label cfg (l_patches s) groups values).
Proof.
  exists (toy 3 [0%nat] 1 2 Additive (1 # 2) 0 0), 1%nat, [[true]], [[1; 0]], [[1 # 2; 1 # 2]], (out (run top_label (toy 3 [0%nat] 1 2 Additive (1 # 2) 0 0) 1 [[true]] [[true]] [[1; 0]] [[1; 0]] [[1 # 2; 1 # 2]] [[1 # 2; 1 # 2]]) dflt).
  split; [vm_compute; reflexivity|]. split; [repeat constructor|]. vm_compute. intros H. inversion_clear H as [|? ? A _]. discriminate.
Qed.
(** a converged run whose stored patches do nothing *)
Theorem converged_patches_refuted : exists cfg n groups scores values s,
  0 <= atol cfg /\ run multicalibrator cfg n groups groups scores scores values values = Break s /\ st_converged (status_of s) = true /\
  st_n_rounds (status_of s) = O /\ exists v, mc_loss1 (apply_patches multicalibrator cfg (l_patches s) groups values) scores = Some v /\ atol cfg < v.
Proof.
  exists (toy 2 [0%nat] 1 1 Additive 1 (1 # 100) 0), 10%nat, [[true]; [true]], [[1]; [1]], [0; 0],
    (out (run multicalibrator (toy 2 [0%nat] 1 1 Additive 1 (1 # 100) 0) 10 [[true]; [true]] [[true]; [true]] [[1]; [1]] [[1]; [1]] [0; 0] [0; 0]) dflt).
  split; [vm_compute; discriminate|]. split; [vm_compute; reflexivity|]. split; [reflexivity|]. split; [reflexivity|]. eexists. split; [vm_compute; reflexivity|]. reflexivity.
Qed.
(** nothing is learnt when the whole data set is used for calibration (split = 1) *)
Theorem empty_validation : forall cfg n groups vgroups scores values s, ptype_of cfg = Additive -> 0 <= atol cfg ->
  run multicalibrator cfg n groups vgroups scores [] values [] = Break s -> l_patches s = [].
Proof.
  intros cfg n groups vgroups scores values s Pt A H. unfold run in H. destruct n as [|n]; [injection H as <-; reflexivity|]. cbn [rounds] in H. unfold round in H.
  set (s0 := start multicalibrator groups vgroups scores [] values []) in *. destruct (choose multicalibrator cfg groups scores (l_values s0)) as [k|]; [|injection H as <-; reflexivity].
  unfold patch_for in H. cbn [m_patch multicalibrator] in H. unfold mc_patch in H. rewrite Pt in H. cbv zeta in H.
  destruct (oltb (l_old s0) _); [injection H as <-; reflexivity|].
  assert (Ev : forall q, apply_one multicalibrator cfg vgroups (l_val_values s0) q = []) by (intros q; unfold apply_one, zip_with, s0; cbn [start l_val_values]; now destruct vgroups).
  rewrite Ev in H. change (m_loss multicalibrator [] []) with (Some 0) in H. unfold oleb in H. rewrite (proj2 (Qleb_true 0 (atol cfg)) A) in H. injection H as <-. reflexivity.
Qed.
(** the multiplicative rule cannot start from the default values *)
Theorem multiplicative_from_zero : forall cfg groups scores values k, ptype_of cfg = Multiplicative -> Forall (fun x => x == 0) values ->
  patch_for multicalibrator cfg groups scores values k = Ok None.
Proof.
  intros cfg groups scores values k Pt Z. unfold patch_for. cbn [m_patch m_val multicalibrator]. rewrite map_id. unfold mc_patch. rewrite Pt.
  set (bs := members multicalibrator cfg k groups values). assert (E : mean_on values bs == 0).
  { unfold mean_on, qmean. assert (S : forall xs bs, Forall (fun x => x == 0) xs -> qsum (zip_with (fun x b => x * of_bool b) xs bs) == 0).
    { induction xs as [|x xs IH]; intros [|b cs] F; try reflexivity. inversion_clear F as [|? ? Fx F']. rewrite zip_cons, qsum_cons, IH, Fx by exact F'. ring. }
    rewrite S by exact Z. unfold Qdiv. rewrite !Qmult_0_l. reflexivity. }
  apply Qeq_bool_iff in E. rewrite E, orb_true_r. reflexivity.
Qed.
(** a multiplicative patch can increase the squared error *)
Theorem multiplicative_refuted : exists cfg k p groups scores values, ptype_of cfg = Multiplicative /\ eta cfg == 1 /\ In k (keys cfg) /\ Forall (Forall in_unit) scores /\ Forall in_unit values /\
  patch_for multicalibrator cfg groups scores values k = Ok (Some p) /\
  sq_error values (column_of 0 scores) < sq_error (apply_patches multicalibrator cfg [(k, p)] groups values) (column_of 0 scores).
Proof.
  exists (toy 1 [1%nat] 1 1 Multiplicative 1 0 0), {| k_tau := 1; k_g := 0; k_v := 0 + 0 * ((1 - 0) / 0); k_c := 0 |}.
  eexists. exists [[true]; [true]], [[0]; [1]], [1 # 2; 1 # 10]. split; [reflexivity|]. split; [reflexivity|]. split; [vm_compute; auto|]. split.
  - repeat constructor; vm_compute; discriminate.
  - split; [repeat constructor; vm_compute; discriminate|]. split; [vm_compute; reflexivity|]. vm_compute. reflexivity.
Qed.
(** the reported calibration error misses points that lie between buckets *)
Theorem blind_refuted : exists n groups scores values, Forall (fun x => x == 1 # 2) values /\ Forall (fun s => nth 0 s 0 == 1) scores /\ length values = 3%nat /\
  exists e, calibration_error multicalibrator n groups scores values 0 0 = Some e /\ e == 0.
Proof.
  exists 2%nat, [[true]; [true]; [true]], [[1]; [1]; [1]], [1 # 2; 1 # 2; 1 # 2]. repeat split; try (repeat constructor). eexists. split; vm_compute; reflexivity.
Qed.
(** one-shot calibration of a point depends on the other points of the batch *)
Theorem one_shot_batch_refuted : exists n patches x y rx rx', one_shot_apply n patches [x] = [rx] /\ nth_error (one_shot_apply n patches [x; y]) 0 = Some rx' /\ ~ rx == rx'.
Proof. exists 2%nat, [1 # 10; 9 # 10], (2 # 5), (3 # 5). eexists. eexists. split; [vm_compute; reflexivity|]. split; [vm_compute; reflexivity|]. intros H. vm_compute in H. discriminate. Qed.
(** data with a single label are rejected *)
Theorem single_label_refuted : exists ts, ts <> [] /\ (forall y, In y ts -> y = 0%Z \/ y = 1%Z) /\ check_binary_targets ts = Err ValueError.
Proof. exists [1%Z; 1%Z]. split; [discriminate|]. split; [intros y [<-|[<-|[]]]; auto|reflexivity]. Qed.

(** a run with recorded patches *)
Definition run_cfg := toy 5 [0; 1]%nat 2 1 Additive (1 # 2) (1 # 1000) (1 # 1000).
Definition run_groups := [[true; false]; [true; true]; [false; true]; [true; true]].
Definition run_scores : list (list Q) := [[1]; [0]; [1]; [1]].
Definition run_values : list Q := [1 # 4; 1 # 2; 1 # 4; 3 # 4].
Definition run_out : lstate Q := out (run multicalibrator run_cfg 4 run_groups run_groups run_scores run_scores run_values run_values) dflt.
Definition top_cfg := toy 5 [0]%nat 1 2 Additive (1 # 2) (1 # 1000) (1 # 1000).
Definition top_values : list (list Q) := [[3 # 4; 1 # 4]; [1 # 2; 1 # 2]].
Definition top_out : lstate (list Q) := out (run top_label top_cfg 3 [[true]; [true]] [[true]; [true]] [[1; 0]; [0; 1]] [[1; 0]; [0; 1]] top_values top_values) dflt.
