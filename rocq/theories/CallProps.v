(** C173: callbacks in training. *)
From Coq Require Import List Arith ZArith QArith.
From Verif Require Import Lib TrainModel TrainSpec TrainProofs4 CallModel CallSpec CallProofs CallCases.
Import ListNotations.
Open Scope nat_scope.

(** C173: callbacks that return the state they are given change nothing: state, histories, checkpoints and exceptions are those of training without callbacks *)
Theorem C173_observers : forall St A Batch VBatch step_no (tstep : St -> Batch -> nat -> St * list Q) (vstep : St -> VBatch -> list Q) monitor (cs : option (list (callback St A))) c bs vs t x, observers cs ->
  train step_no tstep vstep (fun s => s) (fun s => s) (fun s => s) monitor c bs vs (forget t) (snd x) =
  rmap (fun r => let '(t', x', ms, mvs) := r in (forget t', snd x', ms, mvs)) (train_with step_no tstep vstep cs monitor c bs vs t x).
Proof. exact (@observers_do_nothing). Qed.
Print Assumptions C173_observers.
Example C173_case_observers : observers (Some [counting; counting]) /\ rmap (fun r => snd (fst (fst r))) (run [counting; counting] 0 2 [3; 4]) = Ok (8, (15, 4)).
Proof. split; [exact counting_observes|vm_compute; reflexivity]. Qed.

(** C173: every epoch calls the callbacks in the order of the list, first epoch starts, then the ends of steps, or of whole groups of micro-batches, then epoch ends *)
Theorem C173_calls : forall St A Batch VBatch step_no (tstep : St -> Batch -> nat -> St * list Q) (vstep : St -> VBatch -> list Q) monitor (cs : list (callback St A)),
  keep_steps step_no (Some cs) -> (forall s b key, step_no (fst (tstep s b key)) = S (step_no s)) ->
  forall c bs vs t a s t' x' ms mvs,
  train_with step_no tstep vstep (Some (recording_all step_no cs)) monitor c bs vs t ((a, []), s) = Ok (t', x', ms, mvs) ->
  snd (fst x') = flat_map (fun e => epoch_events (length cs) (Nat.max 1 (accumulation c)) (length bs) (step_no s + e * length bs)) (seq 0 (length ms)).
Proof. exact (@calls_in_order). Qed.
Print Assumptions C173_calls.
Example C173_case_calls : keep_steps snd (Some [doubling; starting]) /\
  rmap (fun r => snd (snd (fst (fst r)))) (run [doubling; starting] 0 1 [3; 4]) = Ok (28, 2) /\
  epoch_events 2 2 5 10 = [(EpochStart, 0, 10); (EpochStart, 1, 10); (StepEnd, 0, 12); (StepEnd, 1, 12); (StepEnd, 0, 14); (StepEnd, 1, 14); (EpochEnd, 0, 15); (EpochEnd, 1, 15)].
Proof. split; [exact mixed_keep|]. split; vm_compute; reflexivity. Qed.

(** C173: a checkpoint written after a step has the state the step returned, before callbacks *)
Theorem C173_checkpoints : forall St A Batch VBatch step_no (tstep : St -> Batch -> nat -> St * list Q) (vstep : St -> VBatch -> list Q) (cs : option (list (callback St A))) monitor c bs vs t x t' x' ms mvs g y,
  train_with step_no tstep vstep cs monitor c bs vs t x = Ok (t', x', ms, mvs) -> saved t = [] -> In (g, false, y) (saved t') ->
  exists s b key, In b bs /\ snd y = fst (tstep s b key).
Proof. exact (@checkpoints_before_callbacks). Qed.
Print Assumptions C173_checkpoints.
(** C173: so that it is not the state training goes on with *)
Theorem C173_checkpoint_refuted : exists t' x' ms mvs y z, run [doubling] 0 1 [3] = Ok (t', x', ms, mvs) /\ In (1, false, y) (saved t') /\ In (1, true, z) (saved t') /\ snd y <> snd z /\ x' = z.
Proof. exact checkpoint_differs. Qed.
Print Assumptions C173_checkpoint_refuted.
(** C173: with gradient accumulation callbacks are not called after every update: the last of three updates is never shown to them *)
Theorem C173_updates_refuted : exists t' a' s' ms mvs,
  train_with (@step _ _ _ _) group_step (fun _ (_ : nat) => []) (Some [watching]) (fun _ => None) (quiet 2 2) [1; 2; 3]%Q no_validation new_trainer ([], start_state) = Ok (t', (a', s'), ms, mvs) /\
  map fst a' = [2; 5] /\ step s' = 6 /\ Forall (fun q => tidy (snd q) <> tidy (params s')) a'.
Proof. exact updates_unseen. Qed.
Print Assumptions C173_updates_refuted.
(** C173: a callback that sets the step does not set the key of the next batch *)
Theorem C173_key_refuted : exists t' x' mvs m, train_with (fun s => s) check_key (fun _ (_ : nat) => []) (Some [jumping]) (fun _ => None) (quiet 0 1) [0; 0] no_validation new_trainer (tt, 0) = Ok (t', x', [[m]], mvs) /\ (0 < m)%Q.
Proof. exact key_differs. Qed.
Print Assumptions C173_key_refuted.
