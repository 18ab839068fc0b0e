(** Property C132: monitors and the early stopping they configure. *)
From Coq Require Import List Arith ZArith QArith Bool String.
From Verif Require Import Lib QuantModel TrainModel TrainSpec TrainProofs4 MonModel MonSpec CalibModel MonProofs MonProofs2 MonCases.
From Verif Require Import Lit.
Import ListNotations.
Open Scope list_scope.
Local Notation length := List.length.

(** C132 *)
Theorem C132_fit_monitor : forall metrics c,
  (fit_monitor metrics c = Ok c <-> metrics = PNone \/ exists l, metrics = PTuple l /\ Forall (fun x => x = POther true) l)
  /\ (fit_monitor metrics c = Ok c \/ fit_monitor metrics c = Err ValueError).
Proof. exact (@fit_monitor_accepts). Qed.
Print Assumptions C132_fit_monitor.
Theorem C132_calib_monitor : forall metrics f c,
  (calib_monitor metrics f c = Ok c <->
     (metrics = PNone \/ exists l, metrics = PTuple l /\ Forall (fun x => x = POther true) l)
     /\ (f = PNone \/ f = POther true))
  /\ (calib_monitor metrics f c = Ok c \/ calib_monitor metrics f c = Err ValueError).
Proof. exact (@calib_monitor_accepts). Qed.
Print Assumptions C132_calib_monitor.
Theorem C132_keys : forall names, NoDup (val_keys names) /\
  forall k, In k (val_keys names) <-> k = "val_loss"%string \/ exists m, In m names /\ k = ("val_" ++ m)%string.
Proof. exact (@val_keys_iff). Qed.
Print Assumptions C132_keys.
Theorem C132_disabled_runs_all : forall St Batch VBatch step_no (tstep : St -> Batch -> nat -> St * list Q) (vstep : St -> VBatch -> list Q)
    cb_start cb_step cb_end r c names k n dir every bs vs s,
  (r = RunSWAG \/ es_patience c = None \/ (exists p, es_patience c = Some p /\ (p <= 0)%Z) \/ vs = None) ->
  bs <> [] -> (k <= length bs)%nat -> (forall v, vs = Some v -> v <> []) ->
  exists t' s' ms mvs, run step_no tstep vstep cb_start cb_step cb_end r c names k n dir every bs vs s = Ok (t', s', ms, mvs)
    /\ length ms = n
    /\ length mvs = match vs with None => 0%nat | Some _ => length (validation_epochs (eval_every_n_epochs c) n) end.
Proof. exact (@disabled_runs_all). Qed.
Print Assumptions C132_disabled_runs_all.
Theorem C132_disabled_ignores : forall St Batch VBatch step_no (tstep : St -> Batch -> nat -> St * list Q) (vstep : St -> VBatch -> list Q)
    cb_start cb_step cb_end r r' c c' names k n dir every bs vs s,
  (r = RunSWAG \/ es_patience c = None \/ exists p, es_patience c = Some p /\ (p <= 0)%Z) ->
  (r' = RunSWAG \/ es_patience c' = None \/ exists p, es_patience c' = Some p /\ (p <= 0)%Z) ->
  eval_every_n_epochs c = eval_every_n_epochs c' ->
  run step_no tstep vstep cb_start cb_step cb_end r c names k n dir every bs vs s
  = run step_no tstep vstep cb_start cb_step cb_end r' c' names k n dir every bs vs s.
Proof. exact (@disabled_ignores). Qed.
Print Assumptions C132_disabled_ignores.
Theorem C132_stop_rule : forall St Batch VBatch step_no (tstep : St -> Batch -> nat -> St * list Q) (vstep : St -> VBatch -> list Q)
    cb_start cb_step cb_end r c names k n dir every bs vs s t' s' ms mvs p,
  run step_no tstep vstep cb_start cb_step cb_end r c names k n dir every bs vs s = Ok (t', s', ms, mvs) ->
  r <> RunSWAG -> es_patience c = Some p -> (0 < p)%Z ->
  exists vals, entries (es_monitor c) (val_keys names) mvs vals /\
  forall R, improvements (es_min_delta c) vals R ->
    (forall j, (j < length vals)%nat -> ~ stalled (Z.to_nat p) (firstn j vals) R) /\
    ((length ms < n)%nat -> stalled (Z.to_nat p) vals R) /\
    (stalled (Z.to_nat p) vals R -> exists e, length ms = S e /\ In e (validation_epochs (eval_every_n_epochs c) (length ms))).
Proof. exact (@stop_rule). Qed.
Print Assumptions C132_stop_rule.
Example C132_case_improvements : improvements 0 [3; 1; 2; 2]%Q (fun i => (i <= 1)%nat) /\ stalled 1 [3; 1; 2; 2]%Q (fun i => (i <= 1)%nat).
Proof.
  split; [|exists 2%nat; cbn; split; [lia|intros l H; lia]].
  intros i H. destruct i as [|[|[|[|i]]]].
  - split; [intros _ j L; lia|intros; lia].
  - split; [intros _ j L _ _; assert (j = 0%nat) by lia; subst j; reflexivity|intros; lia].
  - split; [lia|]. intros A. specialize (A 1%nat ltac:(lia) ltac:(lia) ltac:(lia)). discriminate A.
  - split; [lia|]. intros A. specialize (A 1%nat ltac:(lia) ltac:(lia) ltac:(lia)). discriminate A.
  - cbn in H. lia.
Qed.
Theorem C132_missing_monitor_raises : forall St Batch VBatch step_no (tstep : St -> Batch -> nat -> St * list Q) (vstep : St -> VBatch -> list Q)
    cb_start cb_step cb_end r c names k n dir every bs v s p,
  r <> RunSWAG -> es_patience c = Some p -> (0 < p)%Z ->
  es_monitor c <> "val_loss"%string -> (forall m, In m names -> es_monitor c <> ("val_" ++ m)%string) ->
  bs <> [] -> (k <= length bs)%nat -> v <> [] -> (0 < eval_every_n_epochs c)%Z -> (0 < n)%nat ->
  run step_no tstep vstep cb_start cb_step cb_end r c names k n dir every bs (Some v) s = Err KeyError.
Proof. exact (@missing_monitor_raises). Qed.
Print Assumptions C132_missing_monitor_raises.
Theorem C132_dropping_metric_runs : forall St Batch VBatch step_no (tstep : St -> Batch -> nat -> St * list Q) (vstep : St -> VBatch -> list Q)
    cb_start cb_step cb_end r c names k n dir every bs v s t' s' ms mvs p vals,
  run step_no tstep vstep cb_start cb_step cb_end r c names k n dir every bs (Some v) s = Ok (t', s', ms, mvs) ->
  r <> RunSWAG -> es_patience c = Some p -> (0 < p)%Z ->
  entries (es_monitor c) (val_keys names) mvs vals -> always_drops (es_min_delta c) vals ->
  length ms = n.
Proof. exact (@dropping_metric_runs). Qed.
Print Assumptions C132_dropping_metric_runs.
Example C132_case_drops : always_drops (1 # 4) [3; 2; 1; 1 # 2].
Proof. intros i H. do 3 (destruct i as [|i]; [reflexivity|]). cbn in H. lia. Qed.
(** no configuration passes early_stopping_mode, so a monitored metric that grows stops the
    run after patience + 2 validations however much it grows *)
Theorem C132_growing_metric_refuted : forall St Batch VBatch step_no (tstep : St -> Batch -> nat -> St * list Q) (vstep : St -> VBatch -> list Q)
    cb_start cb_step cb_end r c names k n dir every bs v s t' s' ms mvs p vals,
  run step_no tstep vstep cb_start cb_step cb_end r c names k n dir every bs (Some v) s = Ok (t', s', ms, mvs) ->
  r <> RunSWAG -> es_patience c = Some p -> (0 < p)%Z -> (0 <= es_min_delta c)%Q ->
  entries (es_monitor c) (val_keys names) mvs vals -> never_decreases vals ->
  length vals = Nat.min (Z.to_nat p + 2) (length (validation_epochs (eval_every_n_epochs c) n))
  /\ ((length vals < length (validation_epochs (eval_every_n_epochs c) n))%nat -> (length ms < n)%nat).
Proof. exact (@growing_metric_stops). Qed.
Print Assumptions C132_growing_metric_refuted.
(** the calibrators *)
Theorem C132_calib_disabled_runs_all : forall S B O VB VO step_no (cstep : S -> B -> O -> nat -> S * list Q) (cval : S -> VB -> VO -> list Q)
    c names n dir every data outs val s,
  (es_patience c = None \/ exists p, es_patience c = Some p /\ (p <= 0)%Z) ->
  data <> [] -> outs <> [] -> (forall vb vo, val = Some (vb, vo) -> vb <> [] /\ vo <> []) ->
  exists t' s' ms mvs, calib_run step_no cstep cval c names n dir every data outs val s = Ok (t', s', ms, mvs)
    /\ length ms = n
    /\ length mvs = match val with None => 0%nat | Some _ => length (validation_epochs (eval_every_n_epochs c) n) end.
Proof. exact (@calib_disabled_runs_all). Qed.
Print Assumptions C132_calib_disabled_runs_all.
Theorem C132_calib_stop_rule : forall S B O VB VO step_no (cstep : S -> B -> O -> nat -> S * list Q) (cval : S -> VB -> VO -> list Q)
    c names n dir every data outs val s t' s' ms mvs p,
  calib_run step_no cstep cval c names n dir every data outs val s = Ok (t', s', ms, mvs) ->
  es_patience c = Some p -> (0 < p)%Z ->
  exists vals, entries (es_monitor c) (val_keys names) mvs vals /\
  forall R, improvements (es_min_delta c) vals R ->
    (forall j, (j < length vals)%nat -> ~ stalled (Z.to_nat p) (firstn j vals) R) /\
    ((length ms < n)%nat -> stalled (Z.to_nat p) vals R) /\
    (stalled (Z.to_nat p) vals R -> exists e, length ms = Datatypes.S e /\ In e (validation_epochs (eval_every_n_epochs c) (length ms))).
Proof. exact (@calib_stop_rule). Qed.
Print Assumptions C132_calib_stop_rule.
Theorem C132_calib_missing_monitor_raises : forall S B O VB VO step_no (cstep : S -> B -> O -> nat -> S * list Q) (cval : S -> VB -> VO -> list Q)
    c names n dir every data outs vb vo s p,
  es_patience c = Some p -> (0 < p)%Z ->
  es_monitor c <> "val_loss"%string -> (forall m, In m names -> es_monitor c <> ("val_" ++ m)%string) ->
  data <> [] -> outs <> [] -> vb <> [] -> vo <> [] -> (0 < eval_every_n_epochs c)%Z -> (0 < n)%nat ->
  calib_run step_no cstep cval c names n dir every data outs (Some (vb, vo)) s = Err KeyError.
Proof. exact (@calib_missing_monitor_raises). Qed.
Print Assumptions C132_calib_missing_monitor_raises.
Theorem C132_calib_growing_metric_refuted : forall S B O VB VO step_no (cstep : S -> B -> O -> nat -> S * list Q) (cval : S -> VB -> VO -> list Q)
    c names n dir every data outs vb vo s t' s' ms mvs p vals,
  calib_run step_no cstep cval c names n dir every data outs (Some (vb, vo)) s = Ok (t', s', ms, mvs) ->
  es_patience c = Some p -> (0 < p)%Z -> (0 <= es_min_delta c)%Q ->
  entries (es_monitor c) (val_keys names) mvs vals -> never_decreases vals ->
  length vals = Nat.min (Z.to_nat p + 2) (length (validation_epochs (eval_every_n_epochs c) n))
  /\ ((length vals < length (validation_epochs (eval_every_n_epochs c) n))%nat -> (length ms < n)%nat).
Proof. exact (@calib_growing_metric_stops). Qed.
Print Assumptions C132_calib_growing_metric_refuted.

Example C132_case_constructors :
  let c := {| es_patience := Some 2%Z; es_monitor := "val_loss"; es_min_delta := 0; eval_every_n_epochs := 1 |} in
  fit_monitor (PTuple [POther true; POther true]) c = Ok c /\ fit_monitor (POther true) c = Err ValueError
  /\ fit_monitor (PTuple [POther true; POther false]) c = Err ValueError
  /\ calib_monitor PNone (POther true) c = Ok c /\ calib_monitor PNone (PTuple []) c = Err ValueError.
Proof. repeat split. Qed.
Example C132_case_runs :
  toy_lengths (toy_run RunMAP (Some 2%Z) "val_loss" 20) = Ok (20, 10)%nat
  /\ toy_lengths (toy_run RunMAP (Some 2%Z) "val_accuracy" 20) = Ok (7, 4)%nat
  /\ toy_lengths (toy_run RunADVI (Some 5%Z) "val_accuracy" 20) = Ok (13, 7)%nat
  /\ toy_lengths (toy_run RunSWAG (Some 2%Z) "val_accuracy" 20) = Ok (20, 10)%nat
  /\ toy_lengths (toy_run RunEnsemble (Some 2%Z) "accuracy" 20) = Err KeyError
  /\ toy_lengths (toy_run RunEnsemble (Some 0%Z) "accuracy" 20) = Ok (20, 10)%nat
  /\ val_keys ["accuracy"; "brier"; "accuracy"]%string = ["val_loss"; "val_accuracy"; "val_brier"]%string.
Proof. vm_compute. repeat split. Qed.
Example C132_case_calibration :
  toy_lengths (toy_calib_run (Some 2%Z) "val_loss" 20) = Ok (20, 10)%nat
  /\ toy_lengths (toy_calib_run (Some 2%Z) "val_accuracy" 20) = Ok (7, 4)%nat
  /\ toy_lengths (toy_calib_run (Some 2%Z) "accuracy" 20) = Err KeyError.
Proof. vm_compute. repeat split. Qed.
