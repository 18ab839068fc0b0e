(** Proofs about callbacks. *)
From Coq Require Import List Arith ZArith QArith Bool Lia.
From Verif Require Import Lib TrainModel TrainSpec TrainProofs TrainProofs2 TrainProofs3 TrainProofs4 SwagProofs CallModel CallSpec.
Import ListNotations.
Open Scope nat_scope.

Section Observe.
Variables St A Batch VBatch : Type.
Variables (step_no : St -> nat) (tstep : St -> Batch -> nat -> St * list Q) (vstep : St -> VBatch -> list Q).
Variable monitor : list Q -> option Q.
Implicit Types cs : option (list (callback St A)).

Lemma loop_observes cs h : observers cs -> forall x, snd (callback_loop cs h x) = snd x.
Proof.
  unfold observers, callback_loop. change (match cs with None => [] | Some l => l end) with (all_callbacks cs). generalize (all_callbacks cs) as l. induction l as [|c l IH]; intros H x; [reflexivity|].
  cbn [fold_left]. rewrite IH by (intros c0 h0 f a s I; apply H; now right). unfold call. destruct (c h) as [f|] eqn:E; [|reflexivity]. apply (H c h f); [now left|exact E].
Qed.
Theorem observers_do_nothing : forall cs c bs vs t x, observers cs ->
  train step_no tstep vstep (fun s => s) (fun s => s) (fun s => s) monitor c bs vs (forget t) (snd x) =
  rmap (fun r => let '(t', x', ms, mvs) := r in (forget t', snd x', ms, mvs)) (train_with step_no tstep vstep cs monitor c bs vs t x).
Proof.
  intros cs c bs vs t x H. unfold train_with.
  rewrite <- (train_sim (A * St) St Batch VBatch snd (fun x => step_no (snd x)) step_no (fun x b key => let '(s, m) := tstep (snd x) b key in ((fst x, s), m)) tstep (fun x v => vstep (snd x) v) vstep
    (callback_loop cs EpochStart) (callback_loop cs StepEnd) (callback_loop cs EpochEnd) (fun s => s) (fun s => s) (fun s => s) monitor).
  - reflexivity.
  - reflexivity.
  - intros s b k. destruct (tstep (snd s) b k) as [s' m]. split; reflexivity.
  - reflexivity.
  - intros s. now apply loop_observes.
  - intros s. now apply loop_observes.
  - intros s. now apply loop_observes.
Qed.
End Observe.

(** ---- the record of calls ---- *)
Section Record.
Variables St A Batch VBatch : Type.
Variables (step_no : St -> nat) (tstep : St -> Batch -> nat -> St * list Q) (vstep : St -> VBatch -> list Q).
Variable monitor : list Q -> option Q.
Variable cs : list (callback St A).
Hypothesis K : keep_steps step_no (Some cs).
Hypothesis T : forall s b key, step_no (fst (tstep s b key)) = S (step_no s).
Let n := length cs.
Let loop h := callback_loop (Some (recording_all step_no cs)) h.
Let up : (A * list event) * St -> Batch -> nat -> ((A * list event) * St) * list Q := fun x b key => let '(s, m) := tstep (snd x) b key in ((fst x, s), m).

Lemma loop_records h x : snd (fst (loop h x)) = snd (fst x) ++ each n h (step_no (snd x)) /\ step_no (snd (loop h x)) = step_no (snd x).
Proof.
  unfold loop, callback_loop, recording_all, each, n. generalize 0 as i. revert x. assert (K' := K). unfold keep_steps, all_callbacks in K'. clear K. revert K'.
  induction cs as [|c l IH]; intros K x i; [cbn; now rewrite app_nil_r|]. cbn [length seq combine map fold_left fst snd].
  destruct (IH (fun c0 h0 f a s I => K c0 h0 f a s (or_intror I)) (call (recording step_no i c) h x) (S i)) as [E1 E2]. rewrite E1, E2. clear E1 E2 IH.
  assert (N : step_no (snd (call (recording step_no i c) h x)) = step_no (snd x)).
  { unfold call, recording. cbn [fst snd]. destruct (c h) as [f|] eqn:E; [|reflexivity]. apply (K c h f); [now left|exact E]. }
  rewrite N. split; [|reflexivity]. unfold call, recording. cbn [fst snd]. now rewrite <- app_assoc.
Qed.
Lemma up_fst x b key : fst (fst (up x b key)) = fst x /\ step_no (snd (fst (up x b key))) = S (step_no (snd x)).
Proof. unfold up. specialize (T (snd x) b key). destruct (tstep (snd x) b key) as [s m]. cbn [fst snd] in *. now split. Qed.
Definition marks (k base : nat) (js : list nat) : list event := flat_map (fun j => if (j + 1) mod k =? 0 then each n StepEnd (base + j + 1) else []) js.
Lemma pass_grouped k base kb : forall bs i x, step_no (snd x) = base + i ->
  let x' := fold_left (fun s ib => let s1 := fst (up s (snd ib) (kb + k * (fst ib / k))) in if ((fst ib + 1) mod k =? 0) then loop StepEnd s1 else s1) (combine (seq i (length bs)) bs) x in
  snd (fst x') = snd (fst x) ++ marks k base (seq i (length bs)) /\ step_no (snd x') = base + i + length bs.
Proof.
  induction bs as [|b bs IH]; intros i x E; [cbn; rewrite app_nil_r; split; [reflexivity|lia]|]. cbn [length seq combine fold_left fst snd].
  destruct (up_fst x b (kb + k * (i / k))) as [U1 U2]. set (x1 := fst (up x b (kb + k * (i / k)))) in *.
  set (x2 := if (i + 1) mod k =? 0 then loop StepEnd x1 else x1).
  assert (X : snd (fst x2) = snd (fst x) ++ (if (i + 1) mod k =? 0 then each n StepEnd (base + i + 1) else []) /\ step_no (snd x2) = base + S i).
  { unfold x2. destruct ((i + 1) mod k =? 0).
    - destruct (loop_records StepEnd x1) as [L1 L2]. rewrite L1, L2, U1, U2, E. split; [do 2 f_equal; lia|lia].
    - rewrite U1, U2, E, app_nil_r. split; [reflexivity|lia]. }
  destruct X as [X1 X2]. destruct (IH (S i) x2 X2) as [I1 I2]. cbv zeta in I1, I2. rewrite I1, I2, X1. split; [|lia]. unfold marks. cbn [flat_map]. now rewrite <- app_assoc.
Qed.
Lemma pass_plain base : forall bs i x, step_no (snd x) = base + i ->
  let x' := fold_left (fun s b => loop StepEnd (fst (up s b (step_no (snd s))))) bs x in
  snd (fst x') = snd (fst x) ++ marks 1 base (seq i (length bs)) /\ step_no (snd x') = base + i + length bs.
Proof.
  induction bs as [|b bs IH]; intros i x E; [cbn; rewrite app_nil_r; split; [reflexivity|lia]|]. cbn [length seq fold_left].
  destruct (up_fst x b (step_no (snd x))) as [U1 U2]. set (x1 := fst (up x b (step_no (snd x)))) in *. destruct (loop_records StepEnd x1) as [L1 L2].
  assert (X2 : step_no (snd (loop StepEnd x1)) = base + S i) by (rewrite L2, U2, E; lia).
  destruct (IH (S i) _ X2) as [I1 I2]. cbv zeta in I1, I2. rewrite I1, I2, L1, U1, U2, E. split; [|lia]. unfold marks. cbn [flat_map]. rewrite Nat.mod_1_r. cbn [Nat.eqb]. rewrite <- app_assoc. do 3 f_equal. lia.
Qed.
Lemma marks_multiples k base b : 1 <= k -> marks k base (seq 0 b) = flat_map (fun j => each n StepEnd (base + j * k)) (seq 1 (b / k)).
Proof.
  intros Hk. induction b as [|b IH]; [rewrite Nat.div_0_l by lia; reflexivity|]. rewrite seq_S. unfold marks in *. rewrite flat_map_app, IH. cbn [Nat.add flat_map]. rewrite app_nil_r.
  replace (b + 1) with (S b) by lia. destruct (S b mod k =? 0) eqn:E.
  - apply Nat.eqb_eq in E. assert (D : S b = k * (S b / k)) by (apply Nat.div_exact in E; lia). set (q := S b / k) in *. destruct q as [|q]; [lia|].
    assert (B : b / k = q). { symmetry. apply (Nat.div_unique b k q (k - 1)); nia. }
    rewrite B, seq_S, flat_map_app. cbn [flat_map]. rewrite app_nil_r. do 2 f_equal. nia.
  - rewrite app_nil_r. apply Nat.eqb_neq in E. f_equal. f_equal. assert (D := Nat.div_mod (S b) k ltac:(lia)). assert (M := Nat.mod_upper_bound (S b) k ltac:(lia)).
    symmetry. apply (Nat.div_unique b k (S b / k) (S b mod k - 1)); lia.
Qed.
Lemma epoch_records k bs x : 1 <= k ->
  let x' := grouped_epoch k (fun x => step_no (snd x)) up (loop EpochStart) (loop StepEnd) (loop EpochEnd) bs x in
  snd (fst x') = snd (fst x) ++ epoch_events n k (length bs) (step_no (snd x)) /\ step_no (snd x') = step_no (snd x) + length bs.
Proof.
  intros Hk. unfold grouped_epoch. cbv zeta. destruct (loop_records EpochStart x) as [S1 S2]. set (x0 := loop EpochStart x) in *.
  destruct (pass_grouped k (step_no (snd x)) (step_no (snd x0)) bs 0 x0 ltac:(lia)) as [P1 P2]. cbv zeta in P1, P2.
  match goal with |- snd (fst (loop EpochEnd ?y)) = _ /\ _ => set (x1 := y) in *; destruct (loop_records EpochEnd x1) as [E1 E2] end.
  rewrite E1, E2, P1, P2, S1, marks_multiples by exact Hk. unfold epoch_events. rewrite Nat.add_0_r, <- !app_assoc. split; reflexivity.
Qed.
Lemma epoch_records_plain bs x :
  let x' := one_epoch (fun x => step_no (snd x)) up (loop EpochStart) (loop StepEnd) (loop EpochEnd) bs x in
  snd (fst x') = snd (fst x) ++ epoch_events n 1 (length bs) (step_no (snd x)) /\ step_no (snd x') = step_no (snd x) + length bs.
Proof.
  unfold one_epoch. cbv zeta. destruct (loop_records EpochStart x) as [S1 S2]. set (x0 := loop EpochStart x) in *.
  destruct (pass_plain (step_no (snd x)) bs 0 x0 ltac:(lia)) as [P1 P2]. cbv zeta in P1, P2.
  match goal with |- snd (fst (loop EpochEnd ?y)) = _ /\ _ => set (x1 := y) in *; destruct (loop_records EpochEnd x1) as [E1 E2] end.
  rewrite E1, E2, P1, P2, S1, marks_multiples by exact (le_n 1). unfold epoch_events. rewrite Nat.add_0_r, <- !app_assoc. split; reflexivity.
Qed.
Lemma epochs_record k b (f : (A * list event) * St -> (A * list event) * St) :
  (forall x, snd (fst (f x)) = snd (fst x) ++ epoch_events n k b (step_no (snd x)) /\ step_no (snd (f x)) = step_no (snd x) + b) ->
  forall m x, snd (fst (times m f x)) = snd (fst x) ++ flat_map (fun e => epoch_events n k b (step_no (snd x) + e * b)) (seq 0 m).
Proof.
  intros F. induction m as [|m IH]; intros x; [cbn; now rewrite app_nil_r|]. cbn [times seq flat_map]. rewrite IH. destruct (F x) as [F1 F2]. rewrite F1, F2, <- app_assoc. f_equal.
  cbn [Nat.mul]. rewrite Nat.add_0_r. f_equal. rewrite <- seq_shift, !flat_map_concat_map, map_map. f_equal. apply map_ext. intros e. f_equal. lia.
Qed.
Theorem calls_in_order : forall c bs vs t a s t' x' ms mvs,
  train_with step_no tstep vstep (Some (recording_all step_no cs)) monitor c bs vs t ((a, []), s) = Ok (t', x', ms, mvs) ->
  snd (fst x') = flat_map (fun e => epoch_events (length cs) (Nat.max 1 (accumulation c)) (length bs) (step_no s + e * length bs)) (seq 0 (length ms)).
Proof.
  intros c bs vs t a s t' x' ms mvs H. unfold train_with in H. fold up in H.
  assert (Hcb : forall x, step_no (snd (loop StepEnd x)) = step_no (snd x)) by (intros x; apply loop_records).
  destruct (accumulation c) as [|k] eqn:EA.
  - apply train_runs_epochs in H; [|lia|exact Hcb]. cbv zeta in H. destruct H as (_ & _ & -> & _). change (Nat.max 1 0) with 1.
    rewrite (epochs_record 1 (length bs)) by (intros x; apply epoch_records_plain). reflexivity.
  - apply train_runs_groups in H; [|lia|exact Hcb|intros x b key; apply up_fst]. destruct H as (_ & _ & ->). rewrite EA. replace (Nat.max 1 (S k)) with (S k) by lia.
    rewrite (epochs_record (S k) (length bs)) by (intros x; apply epoch_records; lia). reflexivity.
Qed.
End Record.

(** ---- checkpoints ---- *)
Section Check.
Variables X Batch VBatch : Type.
Variables (step_no : X -> nat) (tstep : X -> Batch -> nat -> X * list Q) (vstep : X -> VBatch -> list Q) (c1 c2 c3 : X -> X).
Variable monitor : list Q -> option Q.
Definition fresh (bs : list Batch) (e : nat * bool * X) : Prop := snd (fst e) = false -> exists x b key, In b bs /\ snd e = fst (tstep x b key).
Lemma save_forced all c t s : Forall (fresh all) (saved t) -> Forall (fresh all) (saved (save X c true t s)).
Proof. intros F. unfold save. destruct (save_dir c); [|exact F]. cbn [saved]. apply Forall_app. split; [exact F|]. constructor; [|constructor]. discriminate. Qed.
Lemma batches_fresh all c : forall bs i key t s ms, incl bs all -> Forall (fresh all) (saved t) -> Forall (fresh all) (saved (fst (fst (batches_loop X Batch step_no tstep c2 c bs i key t s ms)))).
Proof.
  induction bs as [|b bs IH]; intros i key t s ms I F; [exact F|]. cbn [batches_loop]. destruct (tstep s b key) as [s1 m] eqn:E.
  assert (I' : incl bs all) by (intros y Hy; apply I; now right). destruct (_ && _); [apply IH; [exact I'|exact F]|].
  unfold step_end. apply IH; [exact I'|]. destruct (save_every c) as [q|]; [|exact F]. destruct (_ && _ && _); [|exact F]. unfold save. destruct (save_dir c); [|exact F].
  cbn [saved]. apply Forall_app. split; [exact F|]. constructor; [|constructor]. intros _. exists s, b, key. split; [apply I; now left|]. cbn [snd]. now rewrite E.
Qed.
Lemma epochs_fresh c bs vs : forall n e t s t' s' ms mvs, epochs_loop X Batch VBatch step_no tstep vstep c1 c2 c3 monitor c bs vs n e t s = Ok (t', s', ms, mvs) -> Forall (fresh bs) (saved t) -> Forall (fresh bs) (saved t').
Proof.
  induction n as [|n IH]; intros e t s t' s' ms mvs H F; [injection H as <- _ _ _; exact F|]. cbn [epochs_loop] in H.
  destruct (training_loop X Batch step_no tstep c1 c2 c3 c bs t s) as [[[t1 s1] m]|] eqn:E1; [|discriminate]. cbn [bind] in H.
  assert (F1 : Forall (fresh bs) (saved t1)).
  { unfold training_loop in E1. assert (B := batches_fresh bs c bs 0 (step_no (c1 s)) t (c1 s) [] (incl_refl _) F).
    destruct (batches_loop X Batch step_no tstep c2 c bs 0 (step_no (c1 s)) t (c1 s) []) as [[t2 s2] ms2]. destruct (mean_metrics ms2); [|discriminate]. injection E1 as <- _ _. exact B. }
  assert (N : forall t2, Forall (fresh bs) (saved t2) -> forall f : list (list Q) -> list (list Q),
    bind (epochs_loop X Batch VBatch step_no tstep vstep c1 c2 c3 monitor c bs vs n (S e) t2 s1) (fun r3 => let '(t3, s3, ms3, mvs3) := r3 in Ok (t3, s3, m :: ms3, f mvs3)) = Ok (t', s', ms, mvs) -> Forall (fresh bs) (saved t')).
  { intros t2 F2 f H2. destruct (epochs_loop X Batch VBatch step_no tstep vstep c1 c2 c3 monitor c bs vs n (S e) t2 s1) as [[[[t3 s3] ms3] mvs3]|] eqn:E2; [|discriminate]. injection H2 as <- _ _ _. now apply (IH _ _ _ _ _ _ _ E2). }
  destruct vs as [v|]; [|apply (N t1 F1 (fun x => x) H)]. destruct (should_validate VBatch c (Some v) e); [|apply (N t1 F1 (fun x => x) H)].
  destruct (validation_loop X VBatch vstep monitor c v t1 s1) as [[t2 mv]|] eqn:E2; [|discriminate]. cbn [bind] in H.
  assert (F2 : Forall (fresh bs) (saved t2)).
  { unfold validation_loop in E2. destruct (mean_metrics _) as [mm|]; [|discriminate]. cbn [bind] in E2. destruct (is_active (stop_config c)); [|injection E2 as <- _; exact F1].
    destruct (monitor mm); [|discriminate]. injection E2 as <- _. destruct (has_improved _); [now apply save_forced|exact F1]. }
  destruct (_ && _); [injection H as <- _ _ _; exact F2|apply (N t2 F2 (fun x => mv :: x) H)].
Qed.
Lemma train_fresh c bs vs t s t' s' ms mvs : train step_no tstep vstep c1 c2 c3 monitor c bs vs t s = Ok (t', s', ms, mvs) -> saved t = [] -> Forall (fresh bs) (saved t').
Proof.
  unfold train. intros H E. destruct (epochs_loop _ _ _ _ _ _ _ _ _ _ _ _ _ _ _ _ _) as [[[[t1 s1] m1] mv1]|] eqn:L; [|discriminate]. injection H as <- _ _ _.
  apply save_forced. apply (epochs_fresh _ _ _ _ _ _ _ _ _ _ _ L). rewrite E. constructor.
Qed.
End Check.
Theorem checkpoints_before_callbacks : forall St A Batch VBatch step_no (tstep : St -> Batch -> nat -> St * list Q) (vstep : St -> VBatch -> list Q) (cs : option (list (callback St A))) monitor c bs vs t x t' x' ms mvs g y,
  train_with step_no tstep vstep cs monitor c bs vs t x = Ok (t', x', ms, mvs) -> saved t = [] -> In (g, false, y) (saved t') ->
  exists s b key, In b bs /\ snd y = fst (tstep s b key).
Proof.
  intros St A Batch VBatch step_no tstep vstep cs monitor c bs vs t x t' x' ms mvs g y H E I. unfold train_with in H.
  apply train_fresh in H; [|exact E]. rewrite Forall_forall in H. destruct (H _ I eq_refl) as (x0 & b & key & Hb & Hy). exists (snd x0), b, key. split; [exact Hb|].
  cbn [snd] in Hy. rewrite Hy. destruct (tstep (snd x0) b key); reflexivity.
Qed.
