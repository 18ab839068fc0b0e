(** Proofs about callbacks of ensembles. *)
From Coq Require Import List Arith ZArith QArith Bool Lia.
From Verif Require Import Lib TrainModel TrainSpec TrainProofs TrainProofs2 TrainProofs3 TrainProofs4 CallModel CallSpec CallProofs MemCallModel.
Import ListNotations.
Open Scope nat_scope.

Theorem members_observed {St A Batch VBatch} step_no (tstep : nat -> St -> Batch -> nat -> St * list Q) (vstep : St -> VBatch -> list Q) monitor (cs : option (list (callback St A))) c bs vs :
  observers cs -> forall starts j a,
  rmap (fun la => map (fun m => let '(t, s, ms, mvs) := m in (forget t, s, ms, mvs)) (fst la)) (fit_members step_no tstep vstep cs monitor c bs vs j starts a) =
  mapM (fun js => train step_no (tstep (fst js)) vstep (fun s => s) (fun s => s) (fun s => s) monitor c bs vs fresh_trainer (snd js)) (combine (seq j (length starts)) starts).
Proof.
  intros H. induction starts as [|s r IH]; intros j a; [reflexivity|]. cbn [fit_members length seq combine mapM fst snd].
  assert (E := observers_do_nothing St A Batch VBatch step_no (tstep j) vstep monitor cs c bs vs fresh_trainer (a, s) H). change (forget (@fresh_trainer (A * St))) with (@fresh_trainer St) in E. cbn [snd] in E. rewrite E.
  destruct (train_with step_no (tstep j) vstep cs monitor c bs vs fresh_trainer (a, s)) as [[[[t x] ms] mvs]|e]; [|reflexivity]. cbn [bind rmap]. rewrite <- (IH (S j) (fst x)).
  destruct (fit_members _ _ _ _ _ _ _ _ (S j) r (fst x)) as [[l a']|e]; reflexivity.
Qed.
Lemma calls_after {St A Batch VBatch} step_no (tstep : St -> Batch -> nat -> St * list Q) (vstep : St -> VBatch -> list Q) monitor (cs : list (callback St A)) :
  keep_steps step_no (Some cs) -> (forall s b key, step_no (fst (tstep s b key)) = S (step_no s)) ->
  forall c bs vs t a log s t' x' ms mvs,
  train_with step_no tstep vstep (Some (recording_all step_no cs)) monitor c bs vs t ((a, log), s) = Ok (t', x', ms, mvs) ->
  snd (fst x') = log ++ flat_map (fun e => epoch_events (length cs) (Nat.max 1 (accumulation c)) (length bs) (step_no s + e * length bs)) (seq 0 (length ms)).
Proof.
  intros K T c bs vs t a log s t' x' ms mvs H. unfold train_with in H.
  assert (Hcb : forall x, step_no (snd (callback_loop (Some (recording_all step_no cs)) StepEnd x)) = step_no (snd x)) by (intros x; apply loop_records; exact K).
  destruct (accumulation c) as [|k] eqn:EA.
  - apply train_runs_epochs in H; [|lia|exact Hcb]. cbv zeta in H. destruct H as (_ & _ & -> & _). change (Nat.max 1 0) with 1.
    rewrite (epochs_record St A step_no cs 1 (length bs)) by (intros x; apply (epoch_records_plain St A Batch step_no tstep cs K T)). reflexivity.
  - apply train_runs_groups in H; [|lia|exact Hcb|intros x b key; apply (up_fst St A Batch step_no tstep T)]. destruct H as (_ & _ & ->). rewrite EA. replace (Nat.max 1 (S k)) with (S k) by lia.
    rewrite (epochs_record St A step_no cs (S k) (length bs)) by (intros x; apply (epoch_records St A Batch step_no tstep cs K T); lia). reflexivity.
Qed.
Theorem members_called {St A Batch VBatch} step_no (tstep : nat -> St -> Batch -> nat -> St * list Q) (vstep : St -> VBatch -> list Q) monitor (cs : list (callback St A)) c bs vs :
  keep_steps step_no (Some cs) -> (forall j s b key, step_no (fst (tstep j s b key)) = S (step_no s)) ->
  forall starts j a log l a',
  fit_members step_no tstep vstep (Some (recording_all step_no cs)) monitor c bs vs j starts (a, log) = Ok (l, a') ->
  length l = length starts /\
  snd a' = log ++ flat_map (fun sm => flat_map (fun e => epoch_events (length cs) (Nat.max 1 (accumulation c)) (length bs) (step_no (fst sm) + e * length bs)) (seq 0 (length (snd (fst (snd sm)))))) (combine starts l).
Proof.
  intros K T. induction starts as [|s r IH]; intros j a log l a' H; cbn [fit_members] in H. { injection H as <- <-. cbn. now rewrite app_nil_r. }
  destruct (train_with _ (tstep j) _ _ _ _ _ _ _ _) as [[[[t x] ms] mvs]|e] eqn:E; [|discriminate]. cbn [bind] in H. destruct (fit_members _ _ _ _ _ _ _ _ (S j) r (fst x)) as [[l1 a1]|e] eqn:E1; [|discriminate]. cbn [rmap] in H. injection H as <- <-. cbn [fst snd].
  apply (calls_after step_no (tstep j) vstep monitor cs K (T j)) in E. destruct x as [[a2 log2] s2]. cbn [fst snd] in *. destruct (IH _ _ _ _ _ E1) as [L1 E2]. split; [cbn; now rewrite L1|]. cbn [combine flat_map fst snd]. rewrite E2, E, <- app_assoc. reflexivity.
Qed.
