(** Small cases about callbacks. *)
From Coq Require Import List Arith ZArith QArith Bool Lia.
From Verif Require Import Lib TrainModel TrainSpec TrainProofs4 CallModel CallSpec.
Import ListNotations.
Local Open Scope nat_scope.

(** the state is a number, with the number of steps *)
Definition add_step (s : nat * nat) (b key : nat) : (nat * nat) * list Q := ((fst s + b, S (snd s)), [inject_Z (Z.of_nat b)]).
Definition quiet (k epochs : nat) : config := {| accumulation := k; n_epochs := epochs; eval_every := 1; save_dir := true; save_every := Some 1; stop_config := {| patience := None; mode := None; min_delta := 0 |} |}.
Definition new_trainer {X} : trainer X := {| es := stopping0; gstep := 0; saved := [] |}.
(** counts the steps it is shown *)
Definition counting : callback (nat * nat) nat := fun h => match h with StepEnd => Some (fun a s => (S a, s)) | _ => None end.
(** doubles the number at the end of every step *)
Definition doubling : callback (nat * nat) nat := fun h => match h with StepEnd => Some (fun a s => (a, (2 * fst s, snd s))) | _ => None end.
(** adds one at the start of every epoch *)
Definition starting : callback (nat * nat) nat := fun h => match h with EpochStart => Some (fun a s => (a, (S (fst s), snd s))) | _ => None end.
Definition no_validation : option (list nat) := None.
Definition run (cs : list (callback (nat * nat) nat)) (k epochs : nat) (bs : list nat) :=
  train_with snd add_step (fun _ (_ : nat) => []) (Some cs) (fun _ => None) (quiet k epochs) bs no_validation new_trainer (0, (1, 0)).
Lemma counting_observes : observers (Some [counting; counting]).
Proof. intros c h f a s [<-|[<-|[]]]; destruct h; cbn; intros E; try discriminate; injection E as <-; reflexivity. Qed.
Lemma mixed_keep : keep_steps snd (Some [doubling; starting]).
Proof. intros c h f a s [<-|[<-|[]]]; destruct h; cbn; intros E; try discriminate; injection E as <-; reflexivity. Qed.

Lemma checkpoint_differs : exists t' x' ms mvs y z, run [doubling] 0 1 [3] = Ok (t', x', ms, mvs) /\ In (1, false, y) (saved t') /\ In (1, true, z) (saved t') /\ snd y <> snd z /\ x' = z.
Proof.
  eexists _, _, _, _, (0, (4, 1)), (0, (8, 1)). split; [vm_compute; reflexivity|]. cbn [saved]. split; [now left|]. split; [right; now left|]. split; [discriminate|reflexivity].
Qed.

(** reports whether the key is that of the step of the state *)
Definition check_key (s b key : nat) : nat * list Q := (S s, [if key =? s then 0%Q else 1%Q]).
Definition jumping : callback nat unit := fun h => match h with StepEnd => Some (fun a s => (a, s + 10)) | _ => None end.
Lemma key_differs : exists t' x' mvs m, train_with (fun s => s) check_key (fun _ (_ : nat) => []) (Some [jumping]) (fun _ => None) (quiet 0 1) [0; 0] no_validation new_trainer (tt, 0) = Ok (t', x', [[m]], mvs) /\ (0 < m)%Q.
Proof. eexists _, _, _, _. split; [vm_compute; reflexivity|reflexivity]. Qed.

(** parameters that are one number; the gradient is the batch *)
Definition grad_is_batch (p : list Q) (m : unit) (b : Q) (key : nat) : list Q * unit * list Q := ([b], m, [b]).
Definition descend (g : list Q) (o : unit) (p : list Q) : list Q * unit := (vadd p (map Qopp g), o).
Definition group_step (s : tstate (list Q) unit (list Q) unit) (b : Q) (key : nat) := training_step grad_is_batch vadd vdiv vzero (fun g => g) descend 2 s b key.
Definition start_state : tstate (list Q) unit (list Q) unit := Build_tstate _ _ _ _ [0%Q] tt 0 tt None.
(** writes down the steps and the parameters it is shown *)
Definition watching : callback (tstate (list Q) unit (list Q) unit) (list (nat * list Q)) := fun h => match h with StepEnd => Some (fun a s => (a ++ [(step s, params s)], s)) | _ => None end.
Definition tidy (p : list Q) : list Q := map Qred p.
Lemma updates_unseen : exists t' a' s' ms mvs,
  train_with (@step _ _ _ _) group_step (fun _ (_ : nat) => []) (Some [watching]) (fun _ => None) (quiet 2 2) [1; 2; 3]%Q no_validation new_trainer ([], start_state) = Ok (t', (a', s'), ms, mvs) /\
  map fst a' = [2; 5] /\ step s' = 6 /\ Forall (fun q => tidy (snd q) <> tidy (params s')) a'.
Proof.
  eexists _, _, _, _, _. split; [vm_compute; reflexivity|]. split; [reflexivity|]. split; [reflexivity|]. repeat constructor; vm_compute; discriminate.
Qed.
