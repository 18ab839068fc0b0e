(** Proofs about the early stopping of output calibrators. *)
From Coq Require Import List Arith ZArith QArith Bool String Lia Lqa.
From Verif Require Import Lib QuantModel TrainModel TrainSpec TrainProofs TrainProofs2 CalibModel CalibSpec CalibProofs MonModel MonSpec MonProofs.
Import ListNotations.
Open Scope list_scope.
Local Notation length := List.length.

Lemma calib_stop_rule : forall S B O VB VO step_no (cstep : S -> B -> O -> nat -> S * list Q) (cval : S -> VB -> VO -> list Q)
    c names n dir every data outs val s t' s' ms mvs p,
  calib_run step_no cstep cval c names n dir every data outs val s = Ok (t', s', ms, mvs) ->
  es_patience c = Some p -> (0 < p)%Z ->
  exists vals, entries (es_monitor c) (val_keys names) mvs vals /\
  forall R, improvements (es_min_delta c) vals R ->
    (forall j, (j < length vals)%nat -> ~ stalled (Z.to_nat p) (firstn j vals) R) /\
    ((length ms < n)%nat -> stalled (Z.to_nat p) vals R) /\
    (stalled (Z.to_nat p) vals R -> exists e, length ms = Datatypes.S e /\ In e (validation_epochs (eval_every_n_epochs c) (length ms))).
Proof.
  intros S B O VB VO step_no cstep cval c names n dir every data outs val s t' s' ms mvs p H E P.
  unfold calib_run in H.
  assert (C1 : mixin_config (calib_kwargs c) = {| patience := Some p; mode := Some "min"%string; min_delta := es_min_delta c |}).
  { unfold mixin_config. cbn. rewrite E. reflexivity. }
  rewrite C1 in H.
  apply calib_early_stopping with (p := p) in H; [|reflexivity|exact P|reflexivity].
  destruct H as (vals & V & W). exists vals. split; [now apply entries_of|exact W].
Qed.

Lemma calib_missing_monitor_raises : forall S B O VB VO step_no (cstep : S -> B -> O -> nat -> S * list Q) (cval : S -> VB -> VO -> list Q)
    c names n dir every data outs vb vo s p,
  es_patience c = Some p -> (0 < p)%Z ->
  es_monitor c <> "val_loss"%string -> (forall m, In m names -> es_monitor c <> ("val_" ++ m)%string) ->
  data <> [] -> outs <> [] -> vb <> [] -> vo <> [] -> (0 < eval_every_n_epochs c)%Z -> (0 < n)%nat ->
  calib_run step_no cstep cval c names n dir every data outs (Some (vb, vo)) s = Err KeyError.
Proof.
  intros S B O VB VO step_no cstep cval c names n dir every data outs vb vo s p E P M1 M2 Hd Ho Hvb Hvo He Hn.
  assert (L : forall m, lookup (es_monitor c) (val_keys names) m = None).
  { intros m. apply lookup_none. rewrite (proj2 (val_keys_iff names)). intros [G|(x & X & G)]; [now apply M1|now apply (M2 x X)]. }
  unfold calib_run, calib_train. cbn [c_epochs]. destruct n as [|n]; [lia|]. cbn [c_epochs_loop].
  destruct data as [|b data]; [congruence|]. destruct outs as [|o outs]; [congruence|].
  destruct vb as [|v vb]; [congruence|]. destruct vo as [|w vo]; [congruence|].
  cbn [combine fst snd c_batches].
  destruct (cstep s b o (step_no s)) as [s1 m].
  match goal with |- context [c_batches ?a ?b ?c ?d ?e ?f ?g ?h ?i ?j] => destruct (c_batches a b c d e f g h i j) as [[t2 s2] ms2] end.
  destruct (mean_metrics_ok (m :: ms2)) as [m' M]; [discriminate|]. rewrite M. cbn [bind].
  unfold c_should_validate. cbn [c_eval_every]. rewrite (proj2 (Z.ltb_lt _ _) He). cbn [andb].
  change (Z.of_nat 0) with 0%Z. rewrite Zmod_0_l. cbn [Z.eqb]. unfold c_validate. cbn [map].
  match goal with |- context [mean_metrics (?a :: ?l)] => destruct (mean_metrics_ok (a :: l)) as [mv MV]; [discriminate|]; rewrite MV end.
  cbn [bind c_stop].
  assert (A : is_active (mixin_config (calib_kwargs c)) = true).
  { apply active_iff. exists p, "min"%string. unfold mixin_config. cbn. auto. }
  rewrite A. unfold mixin_monitor. cbn [calib_kwargs kw_monitor default]. rewrite L. reflexivity.
Qed.

Lemma calib_disabled_runs_all : forall S B O VB VO step_no (cstep : S -> B -> O -> nat -> S * list Q) (cval : S -> VB -> VO -> list Q)
    c names n dir every data outs val s,
  (es_patience c = None \/ exists p, es_patience c = Some p /\ (p <= 0)%Z) ->
  data <> [] -> outs <> [] -> (forall vb vo, val = Some (vb, vo) -> vb <> [] /\ vo <> []) ->
  exists t' s' ms mvs, calib_run step_no cstep cval c names n dir every data outs val s = Ok (t', s', ms, mvs)
    /\ length ms = n
    /\ length mvs = match val with None => 0%nat | Some _ => length (validation_epochs (eval_every_n_epochs c) n) end.
Proof.
  intros S B O VB VO step_no cstep cval c names n dir every data outs val s D Hd Ho Hv.
  assert (A : is_active (mixin_config (calib_kwargs c)) = false) by (apply (disabled_inactive RunMAP c); now right).
  unfold calib_run.
  match goal with |- context [calib_train S B O VB VO step_no cstep cval ?mon ?cfg data outs val ?t s] =>
    destruct (calib_succeeds S B O VB VO step_no cstep cval mon cfg data outs val t s Hd Ho Hv) as [[[[t' s'] ms] mvs] R] end;
    [cbn [c_stop]; rewrite A; discriminate|].
  exists t', s', ms, mvs. split; [exact R|].
  apply calib_epochs in R. cbv zeta in R. destruct R as (_ & L & _ & _ & F). cbn [c_stop c_epochs c_eval_every] in *.
  specialize (L A). split; [exact L|]. destruct val as [[vb vo]|]; [|now subst mvs].
  apply F2_length in F. rewrite <- F, L. reflexivity.
Qed.

Lemma calib_growing_metric_stops : forall S B O VB VO step_no (cstep : S -> B -> O -> nat -> S * list Q) (cval : S -> VB -> VO -> list Q)
    c names n dir every data outs vb vo s t' s' ms mvs p vals,
  calib_run step_no cstep cval c names n dir every data outs (Some (vb, vo)) s = Ok (t', s', ms, mvs) ->
  es_patience c = Some p -> (0 < p)%Z -> (0 <= es_min_delta c)%Q ->
  entries (es_monitor c) (val_keys names) mvs vals -> never_decreases vals ->
  length vals = Nat.min (Z.to_nat p + 2) (length (validation_epochs (eval_every_n_epochs c) n))
  /\ ((length vals < length (validation_epochs (eval_every_n_epochs c) n))%nat -> (length ms < n)%nat).
Proof.
  intros S B O VB VO step_no cstep cval c names n dir every data outs vb vo s t' s' ms mvs p vals H E P D En M.
  destruct (calib_stop_rule _ _ _ _ _ _ _ _ _ _ _ _ _ _ _ _ _ _ _ _ _ _ H E P) as (vals' & V & W).
  assert (vals' = vals) by (eapply entries_unique; eassumption). subst vals'.
  destruct (W _ (growing_improvements _ _ D M)) as (W1 & W2 & _).
  unfold calib_run in H. apply calib_epochs in H. cbv zeta in H.
  destruct H as (Hle & _ & _ & _ & F). cbn [c_epochs c_eval_every] in *.
  assert (Lv : length vals = length (validation_epochs (eval_every_n_epochs c) (length ms))).
  { apply F2_length in F. apply F2_length in En. rewrite <- En, <- F. reflexivity. }
  assert (Le : (length (validation_epochs (eval_every_n_epochs c) (length ms)) <= length (validation_epochs (eval_every_n_epochs c) n))%nat).
  { unfold validation_epochs. replace n with (length ms + (n - length ms))%nat at 1 by lia.
    rewrite seq_app. apply filter_length_app. }
  assert (Bd : (length vals <= Z.to_nat p + 2)%nat).
  { destruct (le_lt_dec (length vals) (Z.to_nat p + 2)) as [G|G]; [exact G|exfalso].
    apply (W1 (Z.to_nat p + 2)%nat G). apply growing_stalled. rewrite firstn_length. lia. }
  destruct (Nat.eq_dec (length ms) n) as [Eq|Ne].
  - rewrite Eq in Lv. split; [lia|]. intros; lia.
  - assert (Lt : (length ms < n)%nat) by lia. specialize (W2 Lt). apply growing_stalled in W2. split; [lia|auto].
Qed.

(** ---- what the constructors accept, without the model's [callable] ---- *)
Lemma callable_is v : callable v = true <-> v = POther true.
Proof. destruct v as [| |[|]]; cbn; split; congruence. Qed.
Lemma callables_are l : Forall (fun x => callable x = true) l <-> Forall (fun x => x = POther true) l.
Proof. split; apply Forall_impl; intros v; apply callable_is. Qed.
Lemma metrics_are metrics : (metrics = PNone \/ exists l, metrics = PTuple l /\ Forall (fun x => callable x = true) l) <-> (metrics = PNone \/ exists l, metrics = PTuple l /\ Forall (fun x => x = POther true) l).
Proof. split; (intros [H|(l & H & F)]; [now left|right; exists l; split; [exact H|now apply callables_are]]). Qed.
Lemma fit_monitor_accepts : forall metrics c,
  (fit_monitor metrics c = Ok c <-> metrics = PNone \/ exists l, metrics = PTuple l /\ Forall (fun x => x = POther true) l)
  /\ (fit_monitor metrics c = Ok c \/ fit_monitor metrics c = Err ValueError).
Proof. intros metrics c. destruct (fit_monitor_iff metrics c) as [A B]. split; [|exact B]. now rewrite A, metrics_are. Qed.
Lemma calib_monitor_accepts : forall metrics f c,
  (calib_monitor metrics f c = Ok c <->
     (metrics = PNone \/ exists l, metrics = PTuple l /\ Forall (fun x => x = POther true) l)
     /\ (f = PNone \/ f = POther true))
  /\ (calib_monitor metrics f c = Ok c \/ calib_monitor metrics f c = Err ValueError).
Proof. intros metrics f c. destruct (calib_monitor_iff metrics f c) as [A B]. split; [|exact B]. now rewrite A, metrics_are, callable_is. Qed.
