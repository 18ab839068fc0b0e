(** Model of training on several devices: fortuna/training/trainer.py:750-873
    (MultiDeviceMixin) around the training step of trainer.py:111-226, with the mini-batch
    objective of prob_model/joint/base.py and likelihood/base.py. *)
From Coq Require Import List Arith Bool QArith Reals.
From Verif Require Import Lib LoaderModel TempModel LikModel TrainModel.
Import ListNotations.
Open Scope R_scope.

(** trainer.py:757-782: every leaf of a batch gets a leading device axis; a loader is
    reshaped batch by batch, the first bad batch raises.  Simplification: the prefetching
    of two batches only moves the exception to an earlier step of the same pass. *)
Definition add_device_dim {A} (d : nat) (leaves : list (list A)) : result (list (list (list A))) :=
  mapM (reshape_devices d) leaves.
Definition add_device_dim_loader {X Y} (d : nat) (l : list (batch X Y)) : result (list (list (list X) * list (list Y))) :=
  mapM (fun b => bind (reshape_devices d (fst b)) (fun xs => rmap (pair xs) (reshape_devices d (snd b)))) l.

(** lax.pmean of arrays of equal size: elementwise mean over the devices *)
Definition pmean (gs : list (list R)) : list R :=
  match gs with
  | [] => []
  | g :: _ => map (fun j => rmean (map (fun h => nth j h 0) gs)) (seq 0 (length g))
  end.
Definition vadd (a b : list R) : list R := map (fun p => fst p + snd p) (combine a b).
Definition vdiv (a : list R) (k : nat) : list R := map (fun x => x / INR k) a.
Definition vzeros (a : list R) : list R := map (fun _ => 0) a.

(** joint/base.py:54-155 and likelihood/base.py (C53): loss of a batch, and the gradient
    of it, coordinate by coordinate; [ll] and [lp] are the log-likelihood of a data point
    and the log-prior, or one partial derivative of them *)
Definition batch_objective {X} (n_data : nat) (lp : R) (ll : X -> R) (b : list X) : R :=
  - (rsum (map ll b) * (INR n_data / INR (length b)) + lp).
Definition batch_grad {P X} (dim n_data : nat) (dlp : P -> nat -> R) (dll : P -> X -> nat -> R) (p : P) (b : list X) : list R :=
  map (fun j => batch_objective n_data (dlp p j) (fun x => dll p x j) b) (seq 0 dim).

Section Devices.
Context {P O B K : Type}.
(** the mutable collections of a replica, as one array *)
Notation tstate := (tstate P O (list R) (option (list R))).
(** value and gradient on one device: parameters, mutable, shard of the batch, key *)
Variable value_and_grad : P -> option (list R) -> B -> K -> list R * option (list R) * R.
Variable clip : list R -> list R.
Variable opt : list R -> O -> P -> P * O.

(** trainer.py:801-812: replicate the state *)
Definition replicate (d : nat) (s : tstate) : list tstate := repeat s d.

(** trainer.py:792-795: what a device uses in place of its own array.  With a dynamic
    scale the arrays are not synchronised (lines 149-155, 167, 208: flax's
    DynamicScale.value_and_grad is called without its axis_name argument). *)
Definition collective (scaled : bool) (gs : list (list R)) (own : list R) : list R :=
  if scaled then own else pmean gs.

(** trainer.py:111-226 under pmap; with a dynamic scale all gradients are assumed finite.
    [k] is gradient_accumulation_steps. *)
Definition device_step (scaled : bool) (k : nat) (rs : list tstate) (shards : list B) (keys : list K) : list tstate * list R :=
  let locals := map (fun q => value_and_grad (params _ _ _ _ (fst q)) (mutable _ _ _ _ (fst q)) (fst (snd q)) (snd (snd q)))
                    (combine rs (combine shards keys)) in
  let grads := map (fun l => fst (fst l)) locals in
  let accs := map (fun q => match acc _ _ _ _ (fst q) with Some a => vadd (snd q) a | None => snd q end) (combine rs grads) in
  let means := map (fun a => vdiv a k) accs in
  let losses := map snd locals in
  (map (fun q => let '(r, (l, (a, m))) := q in
         let mut := snd (fst l) in
         if (1 <? k)%nat then
           if (S (step _ _ _ _ r) mod k =? 0)%nat then
             let g := clip (collective scaled means m) in
             apply_gradients _ _ _ _ opt r g mut (Some (vzeros g))
           else {| params := params _ _ _ _ r; opt_state := opt_state _ _ _ _ r; step := S (step _ _ _ _ r); mutable := mut; acc := Some a |}
         else apply_gradients _ _ _ _ opt r (clip (collective scaled grads (fst (fst l)))) mut (acc _ _ _ _ r))
       (combine rs (combine locals (combine accs means))),
   map (fun l => if scaled then l else rmean losses) losses).

(** trainer.py:836-851: the loss reported for a step *)
Definition reported_loss (losses : list R) : R := rmean losses.

(** trainer.py:784-790 *)
Definition sync_mutable (rs : list tstate) : list tstate :=
  match rs with
  | r :: _ =>
      match mutable _ _ _ _ r with
      | None => rs
      | Some _ =>
          let m := pmean (map (fun s : tstate => match mutable _ _ _ _ s with Some v => v | None => [] end) rs) in
          map (fun s : tstate => {| params := params _ _ _ _ s; opt_state := opt_state _ _ _ _ s; step := step _ _ _ _ s; mutable := Some m; acc := acc _ _ _ _ s |}) rs
      end
  | [] => []
  end.
(** trainer.py:797-799: what is written to checkpoints *)
Definition checkpointed (rs : list tstate) : option tstate := hd_error (sync_mutable rs).
(** trainer.py:814-816: what train returns *)
Definition returned (rs : list tstate) : option tstate := hd_error rs.

(** trainer.py:383-436: an epoch is a list of sharded batches with their keys, followed by
    validation or not; lines 853-856: validation begins by synchronising *)
Definition run_steps (scaled : bool) (k : nat) (steps : list (list B * list K)) (rs : list tstate) : list tstate :=
  fold_left (fun rs b => fst (device_step scaled k rs (fst b) (snd b))) steps rs.
Definition run_epochs (scaled : bool) (k : nat) (epochs : list (list (list B * list K) * bool)) (rs : list tstate) : list tstate :=
  fold_left (fun (rs : list tstate) (e : list (list B * list K) * bool) => let rs' := run_steps scaled k (fst e) rs in if snd e then sync_mutable rs' else rs') epochs rs.
End Devices.

(** trainer.py:262-318: training metrics are computed from the merged device axes *)
Definition merged {A} (shards : list (list A)) : list A := concat shards.
(** trainer.py:858-873: validation metrics are averaged over the devices *)
Definition device_metric {A} (metric : list A -> R) (shards : list (list A)) : R := rmean (map metric shards).
