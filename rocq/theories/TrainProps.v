(** Properties C20-C22, C61, C64, C65: training loop, early stopping, gradient
    accumulation, keys, checkpoints and loss scaling. *)
From Coq Require Import List Arith ZArith QArith Bool String Lia.
From Verif Require Import Lib QuantModel TrainModel TrainSpec TrainProofs TrainProofs2 TrainProofs3 TrainProofs4.
Import ListNotations.
Open Scope list_scope.
Local Notation length := List.length.

(** C20 *)
Theorem C20_stops_iff_stalled : forall p d vs R, (0 < p)%Z -> improvements d vs R ->
  (should_stop (fold_left (early_stopping_update {| patience := Some p; mode := Some "min"%string; min_delta := d |}) vs stopping0) = true
   <-> stalled (Z.to_nat p) vs R).
Proof. exact (@es_min_stops). Qed.
Print Assumptions C20_stops_iff_stalled.
Example C20_case_improvements : improvements 0 [3; 1; 2; 2]%Q (fun i => (i <= 1)%nat) /\ stalled 1 [3; 1; 2; 2]%Q (fun i => (i <= 1)%nat).
Proof.
  split; [|exists 2%nat; cbn; split; [lia|intros l H; lia]].
  intros i H. destruct i as [|[|[|[|i]]]].
  - split; [intros _ j L; lia|intros; lia].
  - split; [intros _ j L _ _; assert (j = 0%nat) by lia; subst j; reflexivity|intros; lia].
  - split; [lia|]. intros A. specialize (A 1%nat ltac:(lia) ltac:(lia) ltac:(lia)). discriminate A.
  - split; [lia|]. intros A. specialize (A 1%nat ltac:(lia) ltac:(lia) ltac:(lia)). discriminate A.
  - cbn in H. lia.
Qed.
Theorem C20_improvements_exist : forall d ms, exists f : nat -> bool, improvements d ms (fun i => f i = true).
Proof. exact (@improvements_exist). Qed.
Print Assumptions C20_improvements_exist.
Theorem C20_improvements_unique : forall d ms R R', improvements d ms R -> improvements d ms R' ->
  forall i, (i < length ms)%nat -> (R i <-> R' i).
Proof. exact (@improvements_unique). Qed.
Print Assumptions C20_improvements_unique.
Theorem C20_zero_delta : forall p vs, (0 < p)%Z ->
  (should_stop (fold_left (early_stopping_update {| patience := Some p; mode := Some "min"%string; min_delta := 0 |}) vs stopping0) = true
   <-> stalled (Z.to_nat p) vs (new_minimum vs)).
Proof. exact (@early_stopping_zero_delta). Qed.
Print Assumptions C20_zero_delta.
Theorem C20_max_is_min_negated : forall p d vs,
  fold_left (early_stopping_update {| patience := p; mode := Some "max"%string; min_delta := d |}) vs stopping0
  = fold_left (early_stopping_update {| patience := p; mode := Some "min"%string; min_delta := d |}) (map Qopp vs) stopping0.
Proof. exact (@es_max_is_min). Qed.
Print Assumptions C20_max_is_min_negated.
Theorem C20_inactive : forall c vs, ~ (exists p m, patience c = Some p /\ mode c = Some m /\ (0 < p)%Z /\ (m = "min"%string \/ m = "max"%string)) ->
  is_active c = false /\ fold_left (early_stopping_update c) vs stopping0 = stopping0.
Proof. exact (@inactive_never_stops). Qed.
Print Assumptions C20_inactive.
Theorem C20_train_stops_when_stalled : forall St Batch VBatch step_no (tstep : St -> Batch -> nat -> St * list Q) (vstep : St -> VBatch -> list Q)
    cb_start cb_step cb_end monitor c bs vs t s t' s' ms mvs p,
  train step_no tstep vstep cb_start cb_step cb_end monitor c bs vs t s = Ok (t', s', ms, mvs) ->
  stop_config c = {| patience := Some p; mode := Some "min"%string; min_delta := min_delta (stop_config c) |} ->
  (0 < p)%Z -> es t = stopping0 ->
  exists vals, map monitor mvs = map Some vals /\
  forall R, improvements (min_delta (stop_config c)) vals R ->
    (forall j, (j < length vals)%nat -> ~ stalled (Z.to_nat p) (firstn j vals) R) /\
    ((length ms < n_epochs c)%nat -> stalled (Z.to_nat p) vals R) /\
    (stalled (Z.to_nat p) vals R -> exists e, length ms = S e /\ In e (validation_epochs (eval_every c) (length ms))).
Proof. exact (@train_early_stopping). Qed.
Print Assumptions C20_train_stops_when_stalled.
(** the stop flag stays up after an improvement, so a trainer object that stopped once
    stops at the first validation of its next run *)
Theorem C20_reused_trainer_refuted : exists c vs v, is_active c = true /\
  (forall x, In x vs -> (v < x)%Q) /\
  should_stop (fold_left (early_stopping_update c) (vs ++ [v]) stopping0) = true /\
  has_improved (fold_left (early_stopping_update c) (vs ++ [v]) stopping0) = true.
Proof. exact (@reused_trainer_stops). Qed.
Print Assumptions C20_reused_trainer_refuted.

Example C20_case :
  let run := fun vs => should_stop (fold_left (early_stopping_update {| patience := Some 2%Z; mode := Some "min"%string; min_delta := 1 |}) vs stopping0) in
  run [5; (9#2); (17#4)]%Q = false /\ run [5; (9#2); (17#4); (81#20)]%Q = true /\ run [5; (9#2); (17#4); 3; 3; 3]%Q = false.
Proof. repeat split. Qed.

(** C21 *)
Theorem C21_epochs_and_batches : forall St Batch VBatch step_no (tstep : St -> Batch -> nat -> St * list Q) (vstep : St -> VBatch -> list Q)
    cb_start cb_step cb_end monitor c bs vs t s t' s' ms mvs,
  train step_no tstep vstep cb_start cb_step cb_end monitor c bs vs t s = Ok (t', s', ms, mvs) ->
  (accumulation c <= 1)%nat -> (forall x, step_no (cb_step x) = step_no x) ->
  let epoch := one_epoch step_no tstep cb_start cb_step cb_end bs in
  (length ms <= n_epochs c)%nat
  /\ (is_active (stop_config c) = false -> length ms = n_epochs c)
  /\ s' = times (length ms) epoch s
  /\ (forall i, (i < length ms)%nat ->
        is_mean_of (snd (one_pass step_no tstep cb_step bs (cb_start (times i epoch s)))) (nth i ms []))
  /\ match vs with
     | None => mvs = []
     | Some v => Forall2 (fun e m => is_mean_of (map (vstep (times (S e) epoch s)) v) m)
                         (validation_epochs (eval_every c) (length ms)) mvs
     end.
Proof. exact (@train_runs_epochs). Qed.
Print Assumptions C21_epochs_and_batches.
Theorem C21_with_accumulation : forall St Batch VBatch step_no (tstep : St -> Batch -> nat -> St * list Q) (vstep : St -> VBatch -> list Q)
    cb_start cb_step cb_end monitor c bs vs t s t' s' ms mvs,
  train step_no tstep vstep cb_start cb_step cb_end monitor c bs vs t s = Ok (t', s', ms, mvs) ->
  (1 <= accumulation c)%nat -> (forall x, step_no (cb_step x) = step_no x) ->
  (forall s b key, step_no (fst (tstep s b key)) = S (step_no s)) ->
  (length ms <= n_epochs c)%nat
  /\ (is_active (stop_config c) = false -> length ms = n_epochs c)
  /\ s' = times (length ms) (grouped_epoch (accumulation c) step_no tstep cb_start cb_step cb_end bs) s.
Proof. exact (@train_runs_groups). Qed.
Print Assumptions C21_with_accumulation.
Theorem C21_succeeds : forall St Batch VBatch step_no (tstep : St -> Batch -> nat -> St * list Q) (vstep : St -> VBatch -> list Q)
    cb_start cb_step cb_end monitor c (bs : list Batch) vs t s,
  bs <> [] -> (accumulation c <= length bs)%nat -> (forall v, vs = Some v -> v <> []) ->
  (is_active (stop_config c) = true -> forall m, monitor m <> None) ->
  exists r, train step_no tstep vstep cb_start cb_step cb_end monitor c bs vs t s = Ok r.
Proof. exact (@train_succeeds). Qed.
Print Assumptions C21_succeeds.
(** no batch, or fewer batches than gradient_accumulation_steps *)
Theorem C21_short_epoch_fails : forall St Batch VBatch step_no (tstep : St -> Batch -> nat -> St * list Q) (vstep : St -> VBatch -> list Q)
    cb_start cb_step cb_end monitor c (bs : list Batch) vs t s,
  bs = [] \/ (length bs < accumulation c)%nat -> (0 < n_epochs c)%nat ->
  train step_no tstep vstep cb_start cb_step cb_end monitor c bs vs t s = Err TypeError.
Proof. exact (@short_epoch_fails). Qed.
Print Assumptions C21_short_epoch_fails.

Example C21_case :
  match toy_train (toy_config 0 3 2 None) with
  | Ok (t, s, ms, mvs) => s = [1; 2; 3; 1; 2; 3; 1; 2; 3]%nat /\ length ms = 3%nat /\ length mvs = 2%nat
                          /\ periodic (saved t) = [2; 4; 6; 8]%nat
  | Err _ => False
  end.
Proof. vm_compute. repeat split. Qed.
(** constant validation loss and patience 1: the third validation stops training *)
Example C21_case_stopped :
  match toy_train (toy_config 0 9 2 (Some 1%Z)) with
  | Ok (t, s, ms, mvs) => length ms = 5%nat /\ length mvs = 3%nat
  | Err _ => False
  end.
Proof. vm_compute. repeat split. Qed.

(** C22 *)
Theorem C22_groups : forall (Params OptState Grad Mutable Batch : Type)
    (f : Params -> Mutable -> Batch -> nat -> Grad * Mutable * list Q)
    (gadd : Grad -> Grad -> Grad) (gdiv : Grad -> nat -> Grad) (zeros_like clip : Grad -> Grad)
    (opt : Grad -> OptState -> Params -> Params * OptState) (shape : Grad -> Prop),
  (forall p m b key, shape (fst (fst (f p m b key)))) ->
  (forall g k, shape g -> shape (gdiv g k)) -> (forall g h, shape g -> shape h -> shape (gadd g h)) ->
  (forall g, shape g -> shape (clip g)) -> (forall g h, shape g -> shape h -> gadd g (zeros_like h) = g) ->
  forall k groups rest (s : tstate Params OptState Grad Mutable),
  (1 < k)%nat -> Forall (fun l => length l = k) groups -> (length rest < k)%nat ->
  (step s mod k = 0)%nat -> (acc s = None \/ exists h, shape h /\ acc s = Some (zeros_like h)) ->
  let s' := fold_left (fun s bk => fst (training_step f gadd gdiv zeros_like clip opt k s (fst bk) (snd bk)))
                      (List.concat groups ++ rest) s in
  let '(p, o, m) := fold_left (group_update f gadd (fun g => gdiv g k) clip opt) groups (params s, opt_state s, mutable s) in
  params s' = p /\ opt_state s' = o /\ mutable s' = snd (micro_gradients f p m rest)
  /\ step s' = (step s + k * length groups + length rest)%nat.
Proof. exact (@accumulation_groups). Qed.
Print Assumptions C22_groups.
Theorem C22_mean_of_gradients : forall (Params OptState Mutable Batch : Type) (d : nat)
    (f : Params -> Mutable -> Batch -> nat -> list Q * Mutable * list Q)
    (clip : list Q -> list Q) (opt : list Q -> OptState -> Params -> Params * OptState),
  (forall p m b key, length (fst (fst (f p m b key))) = d) -> (forall g, length (clip g) = length g) ->
  forall k l (s : tstate Params OptState (list Q) Mutable),
  (1 < k)%nat -> length l = k -> (step s mod k = 0)%nat -> acc s = None ->
  let s' := fold_left (fun s bk => fst (training_step f vadd vdiv vzero clip opt k s (fst bk) (snd bk))) l s in
  exists g, (params s', opt_state s') = opt (clip g) (opt_state s) (params s)
    /\ length g = d
    /\ forall j, nth j g 0%Q == column_mean j (fst (micro_gradients f (params s) (mutable s) l)).
Proof. exact (@accumulation_vectors). Qed.
Print Assumptions C22_mean_of_gradients.
Theorem C22_restored_checkpoint_refuted : exists (f : list Q -> unit -> Q -> nat -> list Q * unit * list Q) b0 b1 (s : tstate (list Q) unit (list Q) unit),
  let step_ := fun s b => fst (training_step f vadd vdiv vzero (fun g => g) sgd 2 s b 0%nat) in
  let mid := step_ s b0 in
  let restored := Build_tstate _ _ _ _ (params mid) (opt_state mid) (step mid) (mutable mid) None in
  Qeq (nth 0 (params (step_ mid b1)) 0%Q) (-2) /\ Qeq (nth 0 (params (step_ restored b1)) 0%Q) (-1).
Proof. exact (@restored_accumulation_wrong). Qed.
Print Assumptions C22_restored_checkpoint_refuted.
Theorem C22_leftover_batches : exists (f : list Q -> unit -> Q -> nat -> list Q * unit * list Q) b0 b1 b2 (s : tstate (list Q) unit (list Q) unit),
  let step_ := fun s b => fst (training_step f vadd vdiv vzero (fun g => g) sgd 2 s b 0%nat) in
  let epoch := fun s => fold_left step_ [b0; b1; b2] s in
  params (step_ (epoch s) b0) <> params (epoch s) /\ params (step_ (step_ (epoch s) b0) b1) = params (step_ (epoch s) b0).
Proof. exact (@leftover_batches_cross_epochs). Qed.
Print Assumptions C22_leftover_batches.

Example C22_case :
  let f := fun (p : list Q) (m : nat) (b : Q) (key : nat) => ([(nth 0 p 0 + b)%Q], S m, @nil Q) in
  let s := Build_tstate _ _ _ _ [0%Q] tt 0%nat 0%nat None in
  let run := fold_left (fun s bk => fst (training_step f vadd vdiv vzero (fun g => g) sgd 2 s (fst bk) (snd bk))) in
  params (run [(2%Q, 0%nat)] s) = [0%Q] /\
  Qeq (nth 0 (params (run [(2%Q, 0%nat); (4%Q, 0%nat)] s)) 0%Q) (-3) /\
  Qeq (nth 0 (params (run [(2%Q, 0%nat); (4%Q, 0%nat); (6%Q, 2%nat); (10%Q, 2%nat); (1%Q, 4%nat)] s)) 0%Q) (-8).
Proof. repeat split. Qed.

(** C61 *)
Theorem C61_keys : forall St Batch VBatch step_no (tstep : St -> Batch -> nat -> St * list Q) (vstep : St * list nat -> VBatch -> list Q)
    cb_start cb_step cb_end monitor c bs vs t s t' s' l ms mvs,
  (forall s b key, step_no (fst (tstep s b key)) = S (step_no s)) ->
  (forall x, step_no (cb_start x) = step_no x) -> (forall x, step_no (cb_step x) = step_no x) ->
  (forall x, step_no (cb_end x) = step_no x) ->
  train (fun x => step_no (fst x)) (logging tstep) vstep (on_state cb_start) (on_state cb_step) (on_state cb_end)
    monitor c bs vs t (s, []) = Ok (t', (s', l), ms, mvs) ->
  l = group_keys (Nat.max 1 (accumulation c)) (length bs) (length ms) (step_no s).
Proof. exact (@train_keys). Qed.
Print Assumptions C61_keys.
Theorem C61_fresh_without_accumulation : forall k n E base, (k <= 1)%nat -> group_keys (Nat.max 1 k) n E base = seq base (E * n) /\ NoDup (seq base (E * n)).
Proof. exact (@group_keys_fresh). Qed.
Print Assumptions C61_fresh_without_accumulation.
(** micro-batches of one group share their key *)
Theorem C61_accumulation_refuted : forall k n E base, (2 <= k)%nat -> (2 <= n)%nat -> (1 <= E)%nat -> ~ NoDup (group_keys (Nat.max 1 k) n E base).
Proof. exact (@group_keys_repeat). Qed.
Print Assumptions C61_accumulation_refuted.

Example C61_case : group_keys 1 3 2 5 = [5; 6; 7; 8; 9; 10]%nat /\ group_keys 2 3 2 5 = [5; 5; 7; 8; 8; 10]%nat.
Proof. split; reflexivity. Qed.

(** C64 *)
Theorem C64_periodic_checkpoints : forall St Batch VBatch step_no (tstep : St -> Batch -> nat -> St * list Q) (vstep : St -> VBatch -> list Q)
    cb_start cb_step cb_end monitor c bs vs t s t' s' ms mvs n,
  (forall s b key, step_no (fst (tstep s b key)) = S (step_no s)) ->
  (forall x, step_no (cb_start x) = step_no x) -> (forall x, step_no (cb_step x) = step_no x) ->
  (forall x, step_no (cb_end x) = step_no x) ->
  train step_no tstep vstep cb_start cb_step cb_end monitor c bs vs t s = Ok (t', s', ms, mvs) ->
  (accumulation c <= 1)%nat -> save_dir c = true -> save_every c = Some n -> (0 < n)%nat ->
  saved t = [] -> gstep t = 0%nat -> step_no s = 0%nat ->
  periodic (saved t') = filter (fun g => g mod n =? 0)%nat (seq 1 (length ms * length bs))
  /\ Forall (fun x => step_no (snd x) = fst (fst x)) (saved t')
  /\ exists l, saved t' = l ++ [(length ms * length bs, true, s')%nat].
Proof. exact (@train_checkpoints). Qed.
Print Assumptions C64_periodic_checkpoints.

(** with accumulation the steps inside a group are skipped *)
Theorem C64_accumulation_refuted : exists c,
  save_dir c = true /\ save_every c = Some 2%nat /\
  exists t s ms mvs, toy_train c = Ok (t, s, ms, mvs) /\ length s = 6%nat /\ periodic (saved t) = [6]%nat.
Proof. exact (@accumulation_skips_checkpoints). Qed.
Print Assumptions C64_accumulation_refuted.

Example C64_case :
  match toy_train (toy_config 1 1 0 None) with
  | Ok (t, s, _, _) => saved t = [(2%nat, false, [1; 2]%nat); (3%nat, true, [1; 2; 3]%nat)]
  | Err _ => False
  end.
Proof. vm_compute. reflexivity. Qed.

(** C65 *)
Theorem C65_loss_scaling : forall (Params OptState Grad Mutable Batch : Type)
    (f : Params -> Mutable -> Batch -> nat -> Grad * Mutable * list Q)
    (gadd : Grad -> Grad -> Grad) (gdiv : Grad -> nat -> Grad) (zeros_like clip : Grad -> Grad)
    (opt : Grad -> OptState -> Params -> Params * OptState) is_fin k (s : tstate Params OptState Grad Mutable) b key,
  let plain := training_step f gadd gdiv zeros_like clip opt k s b key in
  let scaled := training_step_scaled f gadd gdiv zeros_like clip opt is_fin k s b key in
  let g := fst (fst (f (params s) (mutable s) b key)) in
  (is_fin g = true -> scaled = plain) /\
  (is_fin g = false -> params (fst scaled) = params s /\ opt_state (fst scaled) = opt_state s /\ step (fst scaled) = S (step s)).
Proof. exact (@loss_scaling_ok). Qed.
Print Assumptions C65_loss_scaling.
Theorem C65_accumulation_refuted : exists (f : option Q -> unit -> option Q -> nat -> option Q * unit * list Q) b0 b1 (s : tstate (option Q) unit (option Q) unit),
  let step_ := fun s b => fst (training_step_scaled f nadd ndiv (fun _ => Some 0%Q) (fun g => g)
      (fun g o p => (nadd p (ndiv g 1), o)) (fun g => match g with Some _ => true | None => false end) 2 s b 0%nat) in
  params s <> None /\ params (step_ (step_ s b0) b1) = None.
Proof. exact (@scaled_accumulation_not_finite). Qed.
Print Assumptions C65_accumulation_refuted.

Example C65_case :
  let step_ := fun s b => fst (training_step_scaled (fun (p : option Q) (m : unit) (b : option Q) (key : nat) => (b, m, @nil Q))
      nadd ndiv (fun _ => Some 0%Q) (fun g => g) (fun g (o : unit) p => (nadd p g, o))
      (fun g => match g with Some _ => true | None => false end) 0 s b 0%nat) in
  let s := Build_tstate _ _ _ _ (Some 1%Q) tt 0%nat tt None in
  params (step_ s None) = Some 1%Q /\ params (step_ s (Some 2%Q)) = Some 3%Q.
Proof. split; reflexivity. Qed.
