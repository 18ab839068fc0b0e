(** Proofs about monitors and early-stopping options. *)
From Coq Require Import List Arith ZArith QArith Bool String Lia Lqa.
From Verif Require Import Lib QuantModel TrainModel TrainSpec TrainProofs TrainProofs2 TrainProofs3 TrainProofs4 MonModel MonSpec.
Import ListNotations.
Open Scope list_scope.
Local Notation length := List.length.

Lemma check_metrics_iff : forall m, (check_metrics m = Ok tt <-> m = PNone \/ exists l, m = PTuple l /\ Forall (fun x => callable x = true) l)
  /\ (check_metrics m = Ok tt \/ check_metrics m = Err ValueError).
Proof.
  intros [|l|b]; cbn; split; try (now left); try (now right).
  - split; auto.
  - destruct (forallb callable l) eqn:E; split; intros H.
    + right. exists l. split; [reflexivity|]. apply Forall_forall. now apply forallb_forall.
    + reflexivity.
    + discriminate.
    + destruct H as [H|[l' [H F]]]; [discriminate|]. injection H as <-. exfalso.
      rewrite <- Bool.not_true_iff_false in E. apply E. apply forallb_forall. now apply Forall_forall.
  - destruct (forallb callable l); auto.
  - split; [discriminate|]. intros [H|[l [H _]]]; discriminate.
Qed.

Lemma fit_monitor_iff : forall metrics c,
  (fit_monitor metrics c = Ok c <-> metrics = PNone \/ exists l, metrics = PTuple l /\ Forall (fun x => callable x = true) l)
  /\ (fit_monitor metrics c = Ok c \/ fit_monitor metrics c = Err ValueError).
Proof.
  intros m c. unfold fit_monitor. destruct (check_metrics_iff m) as [A [B|B]]; rewrite B in *; cbn; split; auto.
  - split; intros; [now apply A|reflexivity].
  - split; intros H; [discriminate|]. apply A in H. discriminate.
Qed.

Lemma calib_monitor_iff : forall metrics f c,
  (calib_monitor metrics f c = Ok c <->
     (metrics = PNone \/ exists l, metrics = PTuple l /\ Forall (fun x => callable x = true) l)
     /\ (f = PNone \/ callable f = true))
  /\ (calib_monitor metrics f c = Ok c \/ calib_monitor metrics f c = Err ValueError).
Proof.
  intros m f c. unfold calib_monitor. destruct (check_metrics_iff m) as [A [B|B]]; rewrite B in *; cbn.
  - assert (A' : m = PNone \/ exists l, m = PTuple l /\ Forall (fun x => callable x = true) l) by now apply A.
    destruct f as [|l|[|]]; cbn; split; auto; split; auto; try discriminate;
      intros [_ [H|H]]; discriminate.
  - split; [|now right]. split; [discriminate|]. intros [H _]. apply A in H. discriminate.
Qed.

(** ---- keys of the validation dictionary ---- *)
Lemma add_key_in : forall ks k x, In x (add_key ks k) <-> In x ks \/ x = k.
Proof.
  intros ks k x. unfold add_key. destruct (existsb (String.eqb k) ks) eqn:E.
  - apply existsb_exists in E. destruct E as (y & Y & F). apply String.eqb_eq in F. subst y.
    split; [now left|]. intros [H|H]; [exact H|now subst].
  - rewrite in_app_iff. cbn. split; intros [H|H]; auto; destruct H as [H|H]; auto; contradiction.
Qed.
Lemma add_key_nodup : forall ks k, NoDup ks -> NoDup (add_key ks k).
Proof.
  intros ks k H. unfold add_key. destruct (existsb (String.eqb k) ks) eqn:E; [exact H|].
  assert (N : ~ In k ks).
  { intros I. rewrite <- Bool.not_true_iff_false in E. apply E. apply existsb_exists. exists k.
    split; [exact I|apply String.eqb_refl]. }
  clear E. induction ks as [|x ks IH]; cbn; [constructor; [easy|constructor]|].
  inversion H as [|? ? H1 H2]; subst. constructor.
  - rewrite in_app_iff. cbn. intros [G|[G|G]]; [contradiction| |contradiction]. subst. apply N. now left.
  - apply IH; [exact H2|]. intros G. apply N. now right.
Qed.
Lemma val_keys_iff : forall names, NoDup (val_keys names) /\
  forall k, In k (val_keys names) <-> k = "val_loss"%string \/ exists m, In m names /\ k = ("val_" ++ m)%string.
Proof.
  intros names. unfold val_keys.
  assert (G : forall ks, NoDup ks -> NoDup (fold_left (fun ks m => add_key ks ("val_" ++ m)%string) names ks) /\
    forall k, In k (fold_left (fun ks m => add_key ks ("val_" ++ m)%string) names ks) <-> In k ks \/ exists m, In m names /\ k = ("val_" ++ m)%string).
  { induction names as [|m names IH]; intros ks N; cbn [fold_left].
    - split; [exact N|]. intros k. split; [now left|]. intros [H|(m & [] & _)]. exact H.
    - destruct (IH (add_key ks ("val_" ++ m)%string) (add_key_nodup _ _ N)) as [A B]. split; [exact A|].
      intros k. rewrite B, add_key_in. split.
      + intros [[H|H]|(m' & H & E)]; [now left|right; exists m; split; [now left|exact H]|].
        right. exists m'. split; [now right|exact E].
      + intros [H|(m' & [H|H] & E)]; [now (left; left)|subst m'; left; now right|right; now exists m']. }
  destruct (G ["val_loss"%string]) as [A B]; [constructor; [easy|constructor]|].
  split; [exact A|]. intros k. rewrite B. cbn. split; intros [H|H]; auto.
  destruct H as [H|[]]; auto.
Qed.

Lemma lookup_some : forall k ks vs v, lookup k ks vs = Some v -> exists i, nth_error ks i = Some k /\ nth_error vs i = Some v.
Proof.
  intros k. induction ks as [|x ks IH]; intros vs v H; [discriminate|]. destruct vs as [|y vs]; [discriminate|].
  cbn in H. destruct (String.eqb k x) eqn:E.
  - injection H as ->. apply String.eqb_eq in E. subst x. exists 0%nat. split; reflexivity.
  - destruct (IH _ _ H) as [i Hi]. exists (S i). exact Hi.
Qed.
Lemma lookup_none : forall k ks vs, ~ In k ks -> lookup k ks vs = None.
Proof.
  intros k. induction ks as [|x ks IH]; intros vs H; [reflexivity|]. destruct vs as [|y vs]; [reflexivity|]. cbn.
  destruct (String.eqb k x) eqn:E.
  - exfalso. apply H. left. symmetry. now apply String.eqb_eq.
  - apply IH. intros G. apply H. now right.
Qed.
Lemma lookup_all : forall k ks, In k ks -> forall vs, (length vs = length ks)%nat -> exists v, lookup k ks vs = Some v.
Proof.
  intros k. induction ks as [|x ks IH]; intros H vs L; [destruct H|]. destruct vs as [|y vs]; [discriminate|]. cbn.
  destruct (String.eqb k x) eqn:E; [now exists y|]. apply IH; [|now injection L].
  destruct H as [H|H]; [|exact H]. subst x. rewrite String.eqb_refl in E. discriminate.
Qed.

Lemma entries_of : forall k ks mvs vals, map (lookup k ks) mvs = map Some vals -> entries k ks mvs vals.
Proof.
  intros k ks. induction mvs as [|m mvs IH]; intros [|v vals] H; try discriminate; [constructor|].
  cbn in H. injection H as H1 H2. constructor; [now apply lookup_some|]. apply IH. exact H2.
Qed.
Lemma nodup_nth_error : forall {A} (l : list A) i j x, NoDup l -> nth_error l i = Some x -> nth_error l j = Some x -> i = j.
Proof.
  intros A l i j x N Hi Hj. assert (i < length l)%nat by (apply nth_error_Some; congruence).
  apply (proj1 (NoDup_nth_error l) N); congruence.
Qed.
Lemma entries_unique : forall k names mvs v1 v2, entries k (val_keys names) mvs v1 -> entries k (val_keys names) mvs v2 -> v1 = v2.
Proof.
  intros k names mvs v1 v2 H. revert v2. induction H as [|m v mvs vals (i & I1 & I2) _ IH]; intros v2 G; inversion G as [|? ? ? ? (j & J1 & J2) G2]; subst; [reflexivity|].
  assert (i = j) by (apply (nodup_nth_error (val_keys names) i j k); auto; apply val_keys_iff). subst j.
  f_equal; [congruence|]. now apply IH.
Qed.

(** ---- runs ---- *)
Lemma F2_length : forall {A B} (P : A -> B -> Prop) l l', Forall2 P l l' -> length l = length l'.
Proof. intros A B P l l' H. induction H; cbn; auto. Qed.

Definition disabled (r : run_kind) (c : monitor_config) : Prop :=
  r = RunSWAG \/ es_patience c = None \/ exists p, es_patience c = Some p /\ (p <= 0)%Z.

Lemma disabled_inactive : forall r c, disabled r c -> is_active (mixin_config (run_kwargs r c)) = false.
Proof.
  intros r c [->|[E|[p [E L]]]]; [reflexivity| |].
  - destruct r; cbn; try rewrite E; reflexivity.
  - destruct r; cbn; try rewrite E; cbn; try reflexivity;
    replace (0 <? p)%Z with false by (symmetry; now apply Z.ltb_ge); reflexivity.
Qed.
Lemma enabled_config : forall r c p, r <> RunSWAG -> es_patience c = Some p ->
  mixin_config (run_kwargs r c) = {| patience := Some p; mode := Some "min"%string; min_delta := es_min_delta c |}
  /\ mixin_monitor (run_kwargs r c) = es_monitor c.
Proof. intros r c p N E. destruct r; try congruence; unfold mixin_config, mixin_monitor; cbn; rewrite E; split; reflexivity. Qed.

Section Inactive.
Variables St Batch VBatch : Type.
Variable step_no : St -> nat.
Variable tstep : St -> Batch -> nat -> St * list Q.
Variable vstep : St -> VBatch -> list Q.
Variables cb_start cb_step cb_end : St -> St.

Lemma inactive_vloop : forall mon mon' c c' v t s, is_active (stop_config c) = false -> is_active (stop_config c') = false ->
  validation_loop St VBatch vstep mon c v t s = validation_loop St VBatch vstep mon' c' v t s.
Proof. intros mon mon' c c' v t s A B. unfold validation_loop. rewrite A, B. reflexivity. Qed.

Lemma batches_ext : forall c c' bs i key t s ms, accumulation c = accumulation c' -> save_dir c = save_dir c' -> save_every c = save_every c' ->
  batches_loop St Batch step_no tstep cb_step c bs i key t s ms = batches_loop St Batch step_no tstep cb_step c' bs i key t s ms.
Proof.
  intros c c' bs. induction bs as [|b bs IH]; intros i key t s ms A B C; [reflexivity|].
  cbn [batches_loop]. destruct (tstep s b key) as [s1 m]. rewrite A.
  destruct ((0 <? accumulation c')%nat && negb (S i mod accumulation c' =? 0)%nat); [now apply IH|].
  unfold step_end, save. rewrite B, C.
  destruct (match save_every c' with Some n => _ | None => _ end); now apply IH.
Qed.

Lemma epochs_ext : forall mon mon' c c' bs vs,
  accumulation c = accumulation c' -> save_dir c = save_dir c' -> save_every c = save_every c' -> eval_every c = eval_every c' ->
  (vs = None \/ (is_active (stop_config c) = false /\ is_active (stop_config c') = false)) ->
  forall n e t s,
  epochs_loop St Batch VBatch step_no tstep vstep cb_start cb_step cb_end mon c bs vs n e t s
  = epochs_loop St Batch VBatch step_no tstep vstep cb_start cb_step cb_end mon' c' bs vs n e t s.
Proof.
  intros mon mon' c c' bs vs A B C D V. induction n as [|n IH]; intros e t s; [reflexivity|].
  cbn [epochs_loop]. unfold training_loop. rewrite (batches_ext c c') by assumption.
  destruct (batches_loop St Batch step_no tstep cb_step c' bs 0 _ t _ []) as [[t1 s1] ms].
  destruct (mean_metrics ms) as [m|]; [|reflexivity]. cbn [bind].
  destruct vs as [v|].
  - destruct V as [V|[V1 V2]]; [discriminate|]. unfold should_validate. rewrite D.
    destruct ((0 <? eval_every c')%Z && (Z.of_nat e mod eval_every c' =? 0)%Z); [|now rewrite IH].
    rewrite (inactive_vloop mon mon' c c') by assumption. rewrite V1, V2. cbn [andb].
    destruct (validation_loop St VBatch vstep mon' c' v t1 (cb_end s1)) as [[t2 mv]|]; [|reflexivity].
    cbn [bind]. now rewrite IH.
  - now rewrite IH.
Qed.
End Inactive.

Lemma disabled_runs_all : forall St Batch VBatch step_no (tstep : St -> Batch -> nat -> St * list Q) (vstep : St -> VBatch -> list Q)
    cb_start cb_step cb_end r c names k n dir every bs vs s,
  (r = RunSWAG \/ es_patience c = None \/ (exists p, es_patience c = Some p /\ (p <= 0)%Z) \/ vs = None) ->
  bs <> [] -> (k <= length bs)%nat -> (forall v, vs = Some v -> v <> []) ->
  exists t' s' ms mvs, run step_no tstep vstep cb_start cb_step cb_end r c names k n dir every bs vs s = Ok (t', s', ms, mvs)
    /\ length ms = n
    /\ length mvs = match vs with None => 0%nat | Some _ => length (validation_epochs (eval_every_n_epochs c) n) end.
Proof.
  intros St Batch VBatch step_no tstep vstep cb_start cb_step cb_end r c names k n dir every bs vs s D Hb Hk Hv.
  unfold run.
  set (cfg := run_config r c k n dir every).
  set (cfg' := {| accumulation := k; n_epochs := n; eval_every := eval_every_n_epochs c; save_dir := dir; save_every := every;
                  stop_config := {| patience := None; mode := None; min_delta := 0 |} |}).
  set (mon := lookup _ _).
  assert (E : train step_no tstep vstep cb_start cb_step cb_end mon cfg bs vs {| es := stopping0; gstep := 0; saved := [] |} s
            = train step_no tstep vstep cb_start cb_step cb_end mon cfg' bs vs {| es := stopping0; gstep := 0; saved := [] |} s).
  { unfold train. cbn [n_epochs cfg cfg' run_config].
    rewrite (epochs_ext _ _ _ step_no tstep vstep cb_start cb_step cb_end mon mon cfg cfg' bs vs) by
      (reflexivity || (destruct D as [D|[D|[D|D]]]; [right|right|right|now left]; (split; [|reflexivity]);
        apply disabled_inactive; unfold disabled; auto)).
    reflexivity. }
  rewrite E.
  destruct (train_succeeds St Batch VBatch step_no tstep vstep cb_start cb_step cb_end mon cfg' bs vs
    {| es := stopping0; gstep := 0; saved := [] |} s Hb Hk Hv) as [[[[t' s'] ms] mvs] R]; [discriminate|].
  exists t', s', ms, mvs. split; [exact R|].
  apply train_spec in R. destruct R as (t0 & R & _). apply eloop_spec in R. cbv zeta in R.
  destruct R as (_ & _ & _ & _ & F & _ & G). destruct (G eq_refl) as [L _]. cbn [n_epochs cfg'] in L.
  split; [exact L|]. destruct vs as [v|]; [|now subst mvs].
  apply F2_length in F. rewrite <- F, <- L. reflexivity.
Qed.

(** with early stopping off the monitored name, the delta and the patience do not matter *)
Lemma disabled_ignores : forall St Batch VBatch step_no (tstep : St -> Batch -> nat -> St * list Q) (vstep : St -> VBatch -> list Q)
    cb_start cb_step cb_end r r' c c' names k n dir every bs vs s,
  (r = RunSWAG \/ es_patience c = None \/ exists p, es_patience c = Some p /\ (p <= 0)%Z) ->
  (r' = RunSWAG \/ es_patience c' = None \/ exists p, es_patience c' = Some p /\ (p <= 0)%Z) ->
  eval_every_n_epochs c = eval_every_n_epochs c' ->
  run step_no tstep vstep cb_start cb_step cb_end r c names k n dir every bs vs s
  = run step_no tstep vstep cb_start cb_step cb_end r' c' names k n dir every bs vs s.
Proof.
  intros St Batch VBatch step_no tstep vstep cb_start cb_step cb_end r r' c c' names k n dir every bs vs s D D' E.
  unfold run, train. cbn [n_epochs run_config].
  rewrite (epochs_ext _ _ _ step_no tstep vstep cb_start cb_step cb_end
     (lookup (mixin_monitor (run_kwargs r c)) (val_keys names)) (lookup (mixin_monitor (run_kwargs r' c')) (val_keys names))
     (run_config r c k n dir every) (run_config r' c' k n dir every) bs vs); try reflexivity; try exact E.
  right. split; apply disabled_inactive; assumption.
Qed.

Lemma stop_rule : forall St Batch VBatch step_no (tstep : St -> Batch -> nat -> St * list Q) (vstep : St -> VBatch -> list Q)
    cb_start cb_step cb_end r c names k n dir every bs vs s t' s' ms mvs p,
  run step_no tstep vstep cb_start cb_step cb_end r c names k n dir every bs vs s = Ok (t', s', ms, mvs) ->
  r <> RunSWAG -> es_patience c = Some p -> (0 < p)%Z ->
  exists vals, entries (es_monitor c) (val_keys names) mvs vals /\
  forall R, improvements (es_min_delta c) vals R ->
    (forall j, (j < length vals)%nat -> ~ stalled (Z.to_nat p) (firstn j vals) R) /\
    ((length ms < n)%nat -> stalled (Z.to_nat p) vals R) /\
    (stalled (Z.to_nat p) vals R -> exists e, length ms = S e /\ In e (validation_epochs (eval_every_n_epochs c) (length ms))).
Proof.
  intros St Batch VBatch step_no tstep vstep cb_start cb_step cb_end r c names k n dir every bs vs s t' s' ms mvs p H N E P.
  destruct (enabled_config r c p N E) as [C1 C2]. unfold run in H.
  apply train_early_stopping with (p := p) in H; [|cbn [stop_config run_config]; rewrite C1; reflexivity|exact P|reflexivity].
  destruct H as (vals & V & W). rewrite C2 in V. exists vals. split; [now apply entries_of|].
  cbn [stop_config run_config n_epochs eval_every] in W. rewrite C1 in W. exact W.
Qed.

Lemma missing_monitor_raises : forall St Batch VBatch step_no (tstep : St -> Batch -> nat -> St * list Q) (vstep : St -> VBatch -> list Q)
    cb_start cb_step cb_end r c names k n dir every bs v s p,
  r <> RunSWAG -> es_patience c = Some p -> (0 < p)%Z ->
  es_monitor c <> "val_loss"%string -> (forall m, In m names -> es_monitor c <> ("val_" ++ m)%string) ->
  bs <> [] -> (k <= length bs)%nat -> v <> [] -> (0 < eval_every_n_epochs c)%Z -> (0 < n)%nat ->
  run step_no tstep vstep cb_start cb_step cb_end r c names k n dir every bs (Some v) s = Err KeyError.
Proof.
  intros St Batch VBatch step_no tstep vstep cb_start cb_step cb_end r c names k n dir every bs v s p N E P M1 M2 Hb Hk Hv He Hn.
  destruct (enabled_config r c p N E) as [C1 C2]. unfold run. rewrite C2.
  assert (L : forall m, lookup (es_monitor c) (val_keys names) m = None).
  { intros m. apply lookup_none. rewrite (proj2 (val_keys_iff names)). intros [G|(x & X & G)]; [now apply M1|now apply (M2 x X)]. }
  unfold train. cbn [n_epochs run_config]. destruct n as [|n]; [lia|]. cbn [epochs_loop].
  set (cfg := run_config r c k (S n) dir every).
  destruct (tloop_total St Batch step_no tstep cb_start cb_step cb_end cfg bs
     {| es := stopping0; gstep := 0; saved := [] |} s) as (t1 & s1 & m & T).
  { apply epoch_rows_nonempty; [destruct bs; [congruence|cbn; lia]|exact Hk]. }
  rewrite T. cbn [bind].
  assert (V : should_validate VBatch cfg (Some v) 0 = true).
  { unfold should_validate. cbn [eval_every cfg run_config]. rewrite (proj2 (Z.ltb_lt _ _) He). cbn [andb].
    rewrite Zmod_0_l. reflexivity. }
  rewrite V. unfold validation_loop.
  destruct (mean_metrics_ok (map (vstep s1) v)) as [mv MV]; [destruct v; [congruence|discriminate]|].
  rewrite MV. cbn [bind]. cbn [stop_config cfg run_config]. rewrite C1.
  assert (A : is_active {| patience := Some p; mode := Some "min"%string; min_delta := es_min_delta c |} = true).
  { apply active_iff. exists p, "min"%string. auto. }
  rewrite A, L. reflexivity.
Qed.

Lemma growing_improvements : forall d vals, (0 <= d)%Q -> never_decreases vals -> improvements d vals (fun i => i = 0%nat).
Proof.
  intros d vals Hd M i Hi. split.
  - intros -> j Hj. lia.
  - intros H. destruct i as [|i]; [reflexivity|]. exfalso.
    specialize (H 0%nat ltac:(lia) eq_refl ltac:(intros; lia)). specialize (M 0%nat (S i) ltac:(lia)). lra.
Qed.
Lemma growing_stalled : forall p (vals : list Q), stalled p vals (fun i => i = 0%nat) <-> (p + 2 <= length vals)%nat.
Proof.
  intros p vals. split.
  - intros (t & H & G). destruct t as [|t]; [exfalso; apply (G 0%nat); [lia|reflexivity]|lia].
  - intros H. exists 1%nat. split; [lia|]. intros l Hl ->. lia.
Qed.

Lemma filter_length_app : forall {A} (f : A -> bool) l1 l2, (length (filter f l1) <= length (filter f (l1 ++ l2)))%nat.
Proof. intros A f l1 l2. rewrite filter_app, app_length. lia. Qed.

Lemma growing_metric_stops : forall St Batch VBatch step_no (tstep : St -> Batch -> nat -> St * list Q) (vstep : St -> VBatch -> list Q)
    cb_start cb_step cb_end r c names k n dir every bs v s t' s' ms mvs p vals,
  run step_no tstep vstep cb_start cb_step cb_end r c names k n dir every bs (Some v) s = Ok (t', s', ms, mvs) ->
  r <> RunSWAG -> es_patience c = Some p -> (0 < p)%Z -> (0 <= es_min_delta c)%Q ->
  entries (es_monitor c) (val_keys names) mvs vals -> never_decreases vals ->
  length vals = Nat.min (Z.to_nat p + 2) (length (validation_epochs (eval_every_n_epochs c) n))
  /\ ((length vals < length (validation_epochs (eval_every_n_epochs c) n))%nat -> (length ms < n)%nat).
Proof.
  intros St Batch VBatch step_no tstep vstep cb_start cb_step cb_end r c names k n dir every bs v s t' s' ms mvs p vals H N E P D En M.
  destruct (stop_rule _ _ _ _ _ _ _ _ _ _ _ _ _ _ _ _ _ _ _ _ _ _ _ _ H N E P) as (vals' & V & W).
  assert (vals' = vals) by (eapply entries_unique; eassumption). subst vals'.
  destruct (W _ (growing_improvements _ _ D M)) as (W1 & W2 & _).
  unfold run in H. apply train_spec in H. destruct H as (t0 & H & _). apply eloop_spec in H. cbv zeta in H.
  destruct H as (Hle & _ & _ & _ & F & _ & _). cbn [n_epochs run_config] in Hle.
  assert (Lv : length vals = length (validation_epochs (eval_every_n_epochs c) (length ms))).
  { apply F2_length in F. apply F2_length in En. rewrite <- En, <- F. reflexivity. }
  assert (Le : (length (validation_epochs (eval_every_n_epochs c) (length ms)) <= length (validation_epochs (eval_every_n_epochs c) n))%nat).
  { unfold validation_epochs. replace n with (length ms + (n - length ms))%nat at 1 by lia.
    rewrite seq_app. apply filter_length_app. }
  assert (B : (length vals <= Z.to_nat p + 2)%nat).
  { destruct (le_lt_dec (length vals) (Z.to_nat p + 2)) as [G|G]; [exact G|exfalso].
    apply (W1 (Z.to_nat p + 2)%nat G). apply growing_stalled. rewrite firstn_length. lia. }
  destruct (Nat.eq_dec (length ms) n) as [Eq|Ne].
  - rewrite Eq in Lv. split; [lia|]. intros; lia.
  - assert (Lt : (length ms < n)%nat) by lia. specialize (W2 Lt). apply growing_stalled in W2. split; [lia|auto].
Qed.

Lemma drops_improvements : forall d vals, always_drops d vals -> improvements d vals (fun _ => True).
Proof.
  intros d vals M i Hi. split; [|trivial]. intros _ j Hj _ No.
  destruct (Nat.eq_dec (S j) i) as [<-|Ne]; [now apply M|]. exfalso. apply (No (S j)); [lia|trivial].
Qed.

Lemma dropping_metric_runs : forall St Batch VBatch step_no (tstep : St -> Batch -> nat -> St * list Q) (vstep : St -> VBatch -> list Q)
    cb_start cb_step cb_end r c names k n dir every bs v s t' s' ms mvs p vals,
  run step_no tstep vstep cb_start cb_step cb_end r c names k n dir every bs (Some v) s = Ok (t', s', ms, mvs) ->
  r <> RunSWAG -> es_patience c = Some p -> (0 < p)%Z ->
  entries (es_monitor c) (val_keys names) mvs vals -> always_drops (es_min_delta c) vals ->
  length ms = n.
Proof.
  intros St Batch VBatch step_no tstep vstep cb_start cb_step cb_end r c names k n dir every bs v s t' s' ms mvs p vals H N E P En M.
  destruct (stop_rule _ _ _ _ _ _ _ _ _ _ _ _ _ _ _ _ _ _ _ _ _ _ _ _ H N E P) as (vals' & V & W).
  assert (vals' = vals) by (eapply entries_unique; eassumption). subst vals'.
  destruct (W _ (drops_improvements _ _ M)) as (_ & W2 & _).
  unfold run in H. apply train_spec in H. destruct H as (t0 & H & _). apply eloop_spec in H. cbv zeta in H.
  destruct H as (Hle & _). cbn [n_epochs run_config] in Hle.
  destruct (Nat.eq_dec (length ms) n) as [Eq|Ne]; [exact Eq|exfalso].
  destruct (W2 ltac:(lia)) as (t & Ht & G). apply (G t); [lia|trivial].
Qed.
