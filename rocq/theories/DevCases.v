(** Concrete runs on two devices. *)
From Coq Require Import List Arith Lia Bool QArith Reals Lra.
From Verif Require Import Lib LoaderModel TempModel LikModel TrainModel DevModel DevSpec DevProofs DevProofs2 DevProofs3 DevProofs4.
Import ListNotations.
Open Scope R_scope.

(** one parameter, one linear log-likelihood per data point, mutable state = sum of the
    batch seen last, plain gradient descent with step one *)
Definition lin_vg (p : R) (m : option (list R)) (b : list R) (key : nat) : list R * option (list R) * R :=
  (batch_grad 1 2 (fun _ _ => 0) (fun _ x _ => x) p b, Some [rsum b], 0).
Definition lin_vg1 (p : R) (m : option (list R)) (b : list R) (key : nat) : list R * option (list R) * list Q :=
  (batch_grad 1 2 (fun _ _ => 0) (fun _ x _ => x) p b, Some [rsum b], []).
Definition descent (g : list R) (o : unit) (p : R) : R * unit := (p - nth 0 g 0, tt).
Definition lin_start : tstate R unit (list R) (option (list R)) :=
  {| params := 0; opt_state := tt; step := 0; mutable := Some [0]; acc := None |}.

Lemma even_13 : even_shards 2 [1; 3] [[1]; [3]].
Proof. split; [reflexivity|]. split; [reflexivity|]. exists 1%nat. split; [lia|]. repeat constructor. Qed.

Lemma lin_single : params _ _ _ _ (fst (training_step R unit (list R) (option (list R)) (list R) lin_vg1 vadd vdiv vzeros (fun g => g) descent 0 lin_start [1; 3] 0)) = 4.
Proof. unfold training_step, lin_vg1. cbn [Nat.ltb Nat.leb fst]. unfold apply_gradients, descent, batch_grad, batch_objective, lin_start, rsum. cbn. lra. Qed.
Lemma lin_scaled : map (params _ _ _ _) (run_steps lin_vg (fun g => g) descent true 0 [([[1]; [3]], [0; 0]%nat)] (replicate 2 lin_start)) = [2; 6].
Proof.
  unfold run_steps, device_step, replicate, lin_vg, collective, apply_gradients, descent, batch_grad, batch_objective, rsum, lin_start. cbn.
  apply (f_equal2 cons); [lra|]. apply (f_equal2 cons); [lra|reflexivity].
Qed.

Lemma scaled_refuted : exists dim n_data (dlp : R -> nat -> R) (dll : R -> R -> nat -> R) (vg : R -> option (list R) -> list R -> nat -> list R * option (list R) * R)
    (vg1 : R -> option (list R) -> list R -> nat -> list R * option (list R) * list Q) (opt : list R -> unit -> R -> R * unit) s b sh (keys : list nat),
  (forall p m b key, fst (fst (vg p m b key)) = batch_grad dim n_data dlp dll p b) /\
  (forall p m b key, fst (fst (vg1 p m b key)) = batch_grad dim n_data dlp dll p b) /\
  acc _ _ _ _ s = None /\ even_shards 2 b sh /\ length keys = 2%nat /\
  let s' := fst (training_step R unit (list R) (option (list R)) (list R) vg1 vadd vdiv vzeros (fun g => g) opt 0 s b 0) in
  let rs := run_steps vg (fun g => g) opt true 0 [(sh, keys)] (replicate 2 s) in
  (forall p o n, ~ replicas_hold p o n rs) /\ exists r, returned rs = Some r /\ params _ _ _ _ r <> params _ _ _ _ s'.
Proof.
  exists 1%nat, 2%nat, (fun _ _ => 0), (fun _ x _ => x), lin_vg, lin_vg1, descent, lin_start, [1; 3], [[1]; [3]], [0; 0]%nat.
  split; [reflexivity|]. split; [reflexivity|]. split; [reflexivity|]. split; [exact even_13|]. split; [reflexivity|].
  intros s' rs. assert (E : map (params _ _ _ _) rs = [2; 6]) by exact lin_scaled.
  assert (Es : params _ _ _ _ s' = 4) by exact lin_single. clearbody rs s'. split.
  - intros p o n H. destruct rs as [|r0 [|r1 rs]]; try discriminate. cbn [map] in E. injection E as E0 E1 _.
    inversion H as [|? ? [P0 _] H']; subst. inversion H' as [|? ? [P1 _] _]; subst. lra.
  - destruct rs as [|r0 rs]; [discriminate|]. exists r0. split; [reflexivity|]. cbn [map] in E. injection E as E0 _. lra.
Qed.

Lemma lin_muts : map (mutable _ _ _ _) (run_epochs lin_vg (fun g => g) descent false 0 [([([[1]; [3]], [0; 0]%nat)], false)] (replicate 2 lin_start)) = [Some [1 + 0]; Some [3 + 0]].
Proof. reflexivity. Qed.
Lemma returned_mutable_refuted : exists (vg : R -> option (list R) -> list R -> nat -> list R * option (list R) * R) (opt : list R -> unit -> R -> R * unit) s epochs b,
  (forall p v b key, length v = 1%nat -> exists v', snd (fst (vg p (Some v) b key)) = Some v' /\ length v' = 1%nat) /\
  (exists v, mutable _ _ _ _ s = Some v /\ length v = 1%nat) /\ even_shards 2 b (fst epochs) /\ length (snd epochs) = 2%nat /\
  let rs := run_epochs vg (fun g => g) opt false 0 [([epochs], false)] (replicate 2 s) in
  exists r c, returned rs = Some r /\ checkpointed rs = Some c /\ mutable _ _ _ _ r <> mutable _ _ _ _ c.
Proof.
  exists lin_vg, descent, lin_start, ([[1]; [3]], [0; 0]%nat), [1; 3].
  split; [|split; [|split; [|split]]].
  - intros p v b key _. exists [rsum b]. split; reflexivity.
  - exists [0]. split; reflexivity.
  - exact even_13.
  - reflexivity.
  - intros rs. assert (E := lin_muts). fold rs in E. clearbody rs.
    destruct rs as [|r0 [|r1 [|r2 rs]]]; try discriminate. cbn [map] in E. injection E as E0 E1.
    exists r0. unfold returned, checkpointed, sync_mutable. rewrite E0. cbn [map hd_error]. eexists. split; [reflexivity|]. split; [reflexivity|].
    cbn [mutable]. rewrite E0, E1. unfold pmean, rmean, rsum. cbn. intros H. injection H as H. lra.
Qed.

Lemma rmse_refuted : exists (b : list R) sh, even_shards 2 b sh /\
  device_metric (fun s => sqrt (rmean (map (fun x => x * x) s))) sh <> sqrt (rmean (map (fun x => x * x) b)).
Proof.
  exists [0; 2], [[0]; [2]]. split.
  - split; [reflexivity|]. split; [reflexivity|]. exists 1%nat. split; [lia|]. repeat constructor.
  - unfold device_metric, rmean, rsum. cbn. 
    replace ((0 * 0 + 0) / 1) with 0 by field. replace ((2 * 2 + 0) / 1) with (2 * 2) by field.
    rewrite sqrt_0, sqrt_square by lra. replace ((0 + (2 + 0)) / (1 + 1)) with 1 by field.
    replace ((0 * 0 + (2 * 2 + 0)) / (1 + 1)) with 2 by field. intros H. assert (S := sqrt_sqrt 2 ltac:(lra)). rewrite <- H in S. lra.
Qed.

Lemma case_parallel : map (params _ _ _ _) (run_steps lin_vg (fun g => g) descent false 0 [([[1]; [3]], [0; 0]%nat)] (replicate 2 lin_start)) = [4; 4].
Proof.
  destruct (data_parallel 1 2 (fun _ _ => 0) (fun _ x _ => x) lin_vg lin_vg1 (fun g => g) descent ltac:(reflexivity) ltac:(reflexivity) ltac:(auto)
    0 2 [(([1; 3], 0%nat), ([[1]; [3]], [0; 0]%nat))] lin_start ltac:(lia) eq_refl) as [L H].
  - repeat constructor. exists 1%nat. split; [lia|]. repeat constructor.
  - cbn [map fst snd fold_left] in L, H. rewrite lin_single in H.
    set (rs := run_steps _ _ _ _ _ _ _) in *. clearbody rs.
    destruct rs as [|r0 [|r1 [|r2 rs]]]; try discriminate. inversion H as [|? ? [P0 _] H']; subst. inversion H' as [|? ? [P1 _] _]; subst. cbn [map]. now rewrite P0, P1.
Qed.
