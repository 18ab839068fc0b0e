(** C110-C112: training on several devices (trainer.py:750-873). *)
From Coq Require Import List Arith Bool QArith Reals.
From Verif Require Import Lib LoaderModel LoaderSpec TempModel LikModel TrainModel DevModel DevSpec DevProofs DevProofs2 DevProofs3 DevProofs4 DevProofs5 DevCases.
Import ListNotations.
Open Scope nat_scope.

Theorem C110_even : forall X d (b : list X) sh, 1 <= d -> b <> [] -> reshape_devices d b = Ok sh -> even_shards d b sh.
Proof. exact (@reshape_even). Qed.
Print Assumptions C110_even.
Theorem C110_batch : forall A d (leaves : list (list A)), 1 <= d -> Forall (fun l => length l mod d = 0) leaves ->
  exists out, add_device_dim d leaves = Ok out /\
  Forall2 (fun l sh => length sh = d /\ concat sh = l /\ Forall (fun s => length s * d = length l) sh) leaves out.
Proof. exact (@device_batch_ok). Qed.
Print Assumptions C110_batch.
Theorem C110_batch_raises : forall A d (leaves : list (list A)), Exists (fun l => length l mod d <> 0) leaves -> add_device_dim d leaves = Err ValueError.
Proof. exact (@device_batch_err). Qed.
Print Assumptions C110_batch_raises.
Example C110_case_batch : add_device_dim 2 [[1; 2; 3; 4]; [5; 6]] = Ok [[[1; 2]; [3; 4]]; [[5]; [6]]] /\ add_device_dim 2 [[1; 2]; [5]] = Err ValueError.
Proof. split; reflexivity. Qed.
Theorem C110_loader : forall X Y d (l : list (batch X Y)), 1 <= d ->
  Forall (fun b => length (fst b) mod d = 0 /\ length (snd b) mod d = 0) l ->
  exists out, add_device_dim_loader d l = Ok out /\
    Forall2 (fun b s => (length (fst s) = d /\ concat (fst s) = fst b /\ Forall (fun u => length u * d = length (fst b)) (fst s)) /\
                        (length (snd s) = d /\ concat (snd s) = snd b /\ Forall (fun u => length u * d = length (snd b)) (snd s))) l out.
Proof. exact (@device_loader_ok). Qed.
Print Assumptions C110_loader.
Theorem C110_loader_raises : forall X Y d (l : list (batch X Y)), 
  Exists (fun b => length (fst b) mod d <> 0 \/ length (snd b) mod d <> 0) l -> add_device_dim_loader d l = Err ValueError.
Proof. exact (@device_loader_err). Qed.
Print Assumptions C110_loader_raises.
Theorem C110_array_loader : forall X Y (xs : list X) (ys : list Y) b d prefetch perm, 1 <= b -> 1 <= d -> length xs = length ys ->
  exists bs, from_batch_array_data xs ys (Some b) false prefetch perm = Ok bs /\
    ((exists out, add_device_dim_loader d bs = Ok out) <-> (length xs mod b) mod d = 0 /\ (b <= length xs -> b mod d = 0)).
Proof. exact (@array_loader_devices). Qed.
Print Assumptions C110_array_loader.
Example C110_case : add_device_dim_loader 2 [([1; 2; 3; 4], [5; 6; 7; 8]); ([9; 10], [11; 12])] =
  Ok [([[1; 2]; [3; 4]], [[5; 6]; [7; 8]]); ([[9]; [10]], [[11]; [12]])].
Proof. reflexivity. Qed.

Open Scope R_scope.
Theorem C111_in_sync : forall P O B K (vg : P -> option (list R) -> B -> K -> list R * option (list R) * R) (clip : list R -> list R) (opt : list R -> O -> P -> P * O)
    k d epochs (s : tstate P O (list R) (option (list R))), (0 < d)%nat ->
  Forall (fun e : list (list B * list K) * bool => Forall (fun st => length (fst st) = d /\ length (snd st) = d) (fst e)) epochs ->
  let rs := run_epochs vg clip opt false k epochs (replicate d s) in
  length rs = d /\ exists p o, replicas_hold p o (step _ _ _ _ s + length (concat (map fst epochs))) rs.
Proof. exact (@replicas_in_sync). Qed.
Print Assumptions C111_in_sync.

Theorem C111_data_parallel : forall P O X K dim n_data (dlp : P -> nat -> R) (dll : P -> X -> nat -> R)
    (vg : P -> option (list R) -> list X -> K -> list R * option (list R) * R) (vg1 : P -> option (list R) -> list X -> nat -> list R * option (list R) * list Q)
    (clip : list R -> list R) (opt : list R -> O -> P -> P * O),
  (forall p m b key, fst (fst (vg p m b key)) = batch_grad dim n_data dlp dll p b) ->
  (forall p m b key, fst (fst (vg1 p m b key)) = batch_grad dim n_data dlp dll p b) ->
  (forall g, length g = dim -> length (clip g) = dim) ->
  forall k d (run : list (list X * nat * (list (list X) * list K))) s, (0 < d)%nat -> acc _ _ _ _ s = None ->
  Forall (fun q => even_shards d (fst (fst q)) (fst (snd q)) /\ length (snd (snd q)) = d) run ->
  let s' := fold_left (fun s q => fst (training_step P O (list R) (option (list R)) (list X) vg1 vadd vdiv vzeros clip opt k s (fst q) (snd q))) (map fst run) s in
  let rs := run_steps vg clip opt false k (map snd run) (replicate d s) in
  length rs = d /\ replicas_hold (params _ _ _ _ s') (opt_state _ _ _ _ s') (step _ _ _ _ s') rs.
Proof. exact (@data_parallel). Qed.
Print Assumptions C111_data_parallel.

Theorem C111_loss : forall P O X K n_data (lp : P -> R) (ll : P -> X -> R)
    (vg : P -> option (list R) -> list X -> K -> list R * option (list R) * R) clip (opt : list R -> O -> P -> P * O) scaled k d p o n rs b sh keys,
  (forall p m b key, snd (vg p m b key) = batch_objective n_data (lp p) (ll p) b) ->
  (0 < d)%nat -> even_shards d b sh -> length keys = d -> length rs = d -> replicas_hold p o n rs ->
  reported_loss (snd (device_step vg clip opt scaled k rs sh keys)) = batch_objective n_data (lp p) (ll p) b.
Proof. exact (@loss_reported). Qed.
Print Assumptions C111_loss.

Theorem C111_scaled_refuted : exists dim n_data (dlp : R -> nat -> R) (dll : R -> R -> nat -> R) (vg : R -> option (list R) -> list R -> nat -> list R * option (list R) * R)
    (vg1 : R -> option (list R) -> list R -> nat -> list R * option (list R) * list Q) (opt : list R -> unit -> R -> R * unit) s b sh (keys : list nat),
  (forall p m b key, fst (fst (vg p m b key)) = batch_grad dim n_data dlp dll p b) /\
  (forall p m b key, fst (fst (vg1 p m b key)) = batch_grad dim n_data dlp dll p b) /\
  acc _ _ _ _ s = None /\ even_shards 2 b sh /\ length keys = 2%nat /\
  let s' := fst (training_step R unit (list R) (option (list R)) (list R) vg1 vadd vdiv vzeros (fun g => g) opt 0 s b 0) in
  let rs := run_steps vg (fun g => g) opt true 0 [(sh, keys)] (replicate 2 s) in
  (forall p o n, ~ replicas_hold p o n rs) /\ exists r, returned rs = Some r /\ params _ _ _ _ r <> params _ _ _ _ s'.
Proof. exact (@scaled_refuted). Qed.
Print Assumptions C111_scaled_refuted.
Example C111_case : map (params _ _ _ _) (run_steps lin_vg (fun g => g) descent false 0 [([[1]; [3]], [0; 0]%nat)] (replicate 2 lin_start)) = [4; 4].
Proof. exact case_parallel. Qed.

Theorem C112_checkpoint : forall P O n (rs : list (tstate P O (list R) (option (list R)))), rs <> [] ->
  Forall (fun r => exists v, mutable _ _ _ _ r = Some v /\ length v = n) rs ->
  exists vs s v, map (mutable _ _ _ _) rs = map Some vs /\ checkpointed rs = Some s /\ mutable _ _ _ _ s = Some v /\ length v = n /\ is_average vs v.
Proof. exact (@checkpoint_average). Qed.
Print Assumptions C112_checkpoint.

Theorem C112_validated : forall P O B K (vg : P -> option (list R) -> B -> K -> list R * option (list R) * R) (clip : list R -> list R) (opt : list R -> O -> P -> P * O) n,
  (forall p v b key, length v = n -> exists v', snd (fst (vg p (Some v) b key)) = Some v' /\ length v' = n) ->
  forall scaled k d epochs last s v, (0 < d)%nat -> mutable _ _ _ _ s = Some v -> length v = n ->
  Forall (fun e : list (list B * list K) * bool => Forall (fun st => length (fst st) = d /\ length (snd st) = d) (fst e)) (epochs ++ [(last, true)]) ->
  let rs := run_epochs vg clip opt scaled k (epochs ++ [(last, true)]) (replicate d s) in
  returned rs <> None /\ checkpointed rs = returned rs.
Proof. exact (@validated_run). Qed.
Print Assumptions C112_validated.

Theorem C112_returned_refuted : exists (vg : R -> option (list R) -> list R -> nat -> list R * option (list R) * R) (opt : list R -> unit -> R -> R * unit) s epochs b,
  (forall p v b key, length v = 1%nat -> exists v', snd (fst (vg p (Some v) b key)) = Some v' /\ length v' = 1%nat) /\
  (exists v, mutable _ _ _ _ s = Some v /\ length v = 1%nat) /\ even_shards 2 b (fst epochs) /\ length (snd epochs) = 2%nat /\
  let rs := run_epochs vg (fun g => g) opt false 0 [([epochs], false)] (replicate 2 s) in
  exists r c, returned rs = Some r /\ checkpointed rs = Some c /\ mutable _ _ _ _ r <> mutable _ _ _ _ c.
Proof. exact (@returned_mutable_refuted). Qed.
Print Assumptions C112_returned_refuted.
Theorem C112_training_metrics : forall X d (b : list X) sh (metric : list X -> R), even_shards d b sh -> metric (merged sh) = metric b.
Proof. exact (@metric_merged). Qed.
Print Assumptions C112_training_metrics.
Theorem C112_mean_metrics : forall X (f : X -> R) d b sh, (0 < d)%nat -> even_shards d b sh ->
  device_metric (fun s => rmean (map f s)) sh = rmean (map f b).
Proof. exact (@metric_mean). Qed.
Print Assumptions C112_mean_metrics.
Theorem C112_rmse_below : forall X (f : X -> R) d b sh, (0 < d)%nat -> even_shards d b sh -> (forall x, 0 <= f x) ->
  device_metric (fun s => sqrt (rmean (map f s))) sh <= sqrt (rmean (map f b)).
Proof. exact (@metric_rmse). Qed.
Print Assumptions C112_rmse_below.
Theorem C112_rmse_refuted : exists (b : list R) sh, even_shards 2 b sh /\
  device_metric (fun s => sqrt (rmean (map (fun x => x * x) s))) sh <> sqrt (rmean (map (fun x => x * x) b)).
Proof. exact (@rmse_refuted). Qed.
Print Assumptions C112_rmse_refuted.
Example C112_case : map (mutable _ _ _ _) (run_epochs lin_vg (fun g => g) descent false 0 [([([[1]; [3]], [0; 0]%nat)], false)] (replicate 2 lin_start)) = [Some [1 + 0]; Some [3 + 0]].
Proof. exact lin_muts. Qed.
