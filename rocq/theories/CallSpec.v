(** Vocabulary for statements about callbacks. *)
From Coq Require Import List Arith QArith.
From Verif Require Import Lib TrainModel CallModel.
Import ListNotations.

(** what is given as callbacks *)
Definition all_callbacks {St A} (cs : option (list (callback St A))) : list (callback St A) := match cs with None => [] | Some l => l end.
(** no method changes the state of training *)
Definition observers {St A} (cs : option (list (callback St A))) : Prop :=
  forall c h f a s, In c (all_callbacks cs) -> c h = Some f -> snd (f a s) = s.
(** no method changes the number of steps *)
Definition keep_steps {St A} (step_no : St -> nat) (cs : option (list (callback St A))) : Prop :=
  forall c h f a s, In c (all_callbacks cs) -> c h = Some f -> step_no (snd (f a s)) = step_no s.
(** a trainer whose checkpoints are states of training *)
Definition forget {St A} (t : trainer (A * St)) : trainer St :=
  {| es := es _ t; gstep := gstep _ t; saved := map (fun e => (fst e, snd (snd e))) (saved _ t) |}.

(** a call: which method, of the callback in which place, at which step *)
Definition event := (hook * nat * nat)%type.
(** the callback, with every call of a method written down *)
Definition recording {St A} (step_no : St -> nat) (i : nat) (c : callback St A) : callback St (A * list event) :=
  fun h => Some (fun al s => let x := match c h with Some f => f (fst al) s | None => (fst al, s) end in ((fst x, snd al ++ [(h, i, step_no s)]), snd x)).
Definition recording_all {St A} (step_no : St -> nat) (cs : list (callback St A)) : list (callback St (A * list event)) :=
  map (fun ic => recording step_no (fst ic) (snd ic)) (combine (seq 0 (length cs)) cs).
(** [n] callbacks in the order of the list *)
Definition each (n : nat) (h : hook) (step : nat) : list event := map (fun i => (h, i, step)) (seq 0 n).
(** an epoch of [b] batches in groups of [k] that starts at step [base] *)
Definition epoch_events (n k b base : nat) : list event :=
  each n EpochStart base ++ flat_map (fun j => each n StepEnd (base + j * k)) (seq 1 (b / k)) ++ each n EpochEnd (base + b).
