(** Small cases about callbacks of ensembles. *)
From Coq Require Import List Arith ZArith QArith Bool Lia.
From Verif Require Import Lib TrainModel TrainSpec TrainProofs4 CallModel CallSpec CallCases MemCallModel.
Import ListNotations.
Local Open Scope nat_scope.

(** adds ten at the start of the first epoch it sees *)
Definition once : callback (nat * nat) nat := fun h => match h with EpochStart => Some (fun a s => (S a, if a =? 0 then (10 + fst s, snd s) else s)) | _ => None end.
Definition fit_two (cs : list (callback (nat * nat) nat)) :=
  fit_members snd (fun j => add_step) (fun _ (_ : nat) => []) (Some cs) (fun _ => None) (quiet 0 2) [3; 4] no_validation 0 [(1, 0); (1, 0)] 0.
Lemma members_differ : exists m1 m2 a, fit_two [once] = Ok ([m1; m2], a) /\ snd (fst (fst m1)) <> snd (fst (fst m2)).
Proof. eexists _, _, _. split; [vm_compute; reflexivity|]. discriminate. Qed.
Lemma once_keeps : keep_steps snd (Some [once]).
Proof. intros c h f a s [<-|[]]; destruct h; cbn; intros E; try discriminate; injection E as <-. now destruct (a =? 0). Qed.
