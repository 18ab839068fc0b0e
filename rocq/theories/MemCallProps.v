(** C175: callbacks of deep ensembles. *)
From Coq Require Import List Arith ZArith QArith.
From Verif Require Import Lib TrainModel TrainSpec TrainProofs4 CallModel CallSpec CallCases MemCallModel MemCallProofs MemCallCases.
Import ListNotations.
Open Scope nat_scope.

(** C175: with callbacks that return the state they are given, the members are those of training without callbacks, each on its own, whatever the callbacks keep between members *)
Theorem C175_observers : forall St A Batch VBatch step_no (tstep : nat -> St -> Batch -> nat -> St * list Q) (vstep : St -> VBatch -> list Q) monitor (cs : option (list (callback St A))) c bs vs,
  observers cs -> forall starts j a,
  rmap (fun la => map (fun m => let '(t, s, ms, mvs) := m in (forget t, s, ms, mvs)) (fst la)) (fit_members step_no tstep vstep cs monitor c bs vs j starts a) =
  mapM (fun js => train step_no (tstep (fst js)) vstep (fun s => s) (fun s => s) (fun s => s) monitor c bs vs {| es := stopping0; gstep := 0; saved := [] |} (snd js)) (combine (seq j (length starts)) starts).
Proof. exact (@members_observed). Qed.
Print Assumptions C175_observers.
Example C175_case_observers : observers (Some [counting; counting]) /\ rmap (fun la => (map (fun m => snd (fst (fst m))) (fst la), snd la)) (fit_two [counting; counting]) = Ok ([(15, 4); (15, 4)], 16).
Proof. split; [exact counting_observes|vm_compute; reflexivity]. Qed.

(** C175: the callbacks are called for one member after the other, for each in the order of C173 *)
Theorem C175_calls : forall St A Batch VBatch step_no (tstep : nat -> St -> Batch -> nat -> St * list Q) (vstep : St -> VBatch -> list Q) monitor (cs : list (callback St A)) c bs vs,
  keep_steps step_no (Some cs) -> (forall j s b key, step_no (fst (tstep j s b key)) = S (step_no s)) ->
  forall starts j a log l a',
  fit_members step_no tstep vstep (Some (recording_all step_no cs)) monitor c bs vs j starts (a, log) = Ok (l, a') ->
  length l = length starts /\
  snd a' = log ++ flat_map (fun sm => flat_map (fun e => epoch_events (length cs) (Nat.max 1 (accumulation c)) (length bs) (step_no (fst sm) + e * length bs)) (seq 0 (length (snd (fst (snd sm)))))) (combine starts l).
Proof. exact (@members_called). Qed.
Print Assumptions C175_calls.
Example C175_case_calls : keep_steps snd (Some [once]) /\ (forall j s b key, snd (fst ((fun _ : nat => add_step) j s b key)) = S (snd s)) /\
  exists l a', fit_members snd (fun j => add_step) (fun _ (_ : nat) => []) (Some (recording_all snd [once])) (fun _ => None) (quiet 0 1) [3; 4] no_validation 0 [(1, 0); (1, 5)] (0, []) = Ok (l, a') /\
    snd a' = [(EpochStart, 0, 0); (StepEnd, 0, 1); (StepEnd, 0, 2); (EpochEnd, 0, 2); (EpochStart, 0, 5); (StepEnd, 0, 6); (StepEnd, 0, 7); (EpochEnd, 0, 7)].
Proof. split; [exact once_keeps|]. split; [reflexivity|]. eexists _, _. split; vm_compute; reflexivity. Qed.

(** C175: two members that start from the same state and are trained in the same way may end differently, as callbacks keep their attributes from member to member *)
Theorem C175_members_refuted : exists m1 m2 a, fit_two [once] = Ok ([m1; m2], a) /\ snd (fst (fst m1)) <> snd (fst (fst m2)).
Proof. exact members_differ. Qed.
Print Assumptions C175_members_refuted.
