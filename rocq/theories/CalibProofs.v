(** The training loop of output calibrators: simulation by the loop of TrainModel.v. *)
From Coq Require Import List Arith ZArith QArith Bool String Lia.
From Verif Require Import Lib QuantModel TrainModel TrainSpec TrainProofs2 TrainProofs3 TrainProofs4 CalibModel CalibSpec.
Import ListNotations.
Local Notation length := List.length.
Open Scope list_scope.

Local Arguments batches_loop {S Batch}.
Local Arguments epochs_loop {S Batch VBatch}.
Local Arguments save {S}.

Definition tcfg (c : cconfig) : config :=
  {| accumulation := 0; n_epochs := c_epochs c; eval_every := c_eval_every c; save_dir := false; save_every := None; stop_config := c_stop c |}.

Section Sim.
Variables S B O VB VO : Type.
Variable step_no : S -> nat.
Variable cstep : S -> B -> O -> nat -> S * list Q.
Variable cval : S -> VB -> VO -> list Q.
Variable monitor : list Q -> option Q.
Let tstep := fun s (p : B * O) k => cstep s (fst p) (snd p) k.
Let vstep := fun s (p : VB * VO) => cval s (fst p) (snd p).
Let idS := fun s : S => s.

Lemma sim_batches c epoch : forall bs i t s T ms,
  let '(t1, s1, rows) := c_batches S B O step_no cstep c epoch bs t s in
  exists T1, batches_loop step_no tstep idS (tcfg c) bs i (step_no s) T s ms = (T1, s1, ms ++ rows) /\ es T1 = es T /\ c_es t1 = c_es t.
Proof.
  induction bs as [|[b o] r IH]; intros i t s T ms; cbn [c_batches batches_loop].
  - exists T. rewrite app_nil_r. auto.
  - unfold tstep at 1. cbn [fst snd]. destruct (cstep s b o (step_no s)) as [s1 m] eqn:E.
    cbn [accumulation tcfg Nat.ltb Nat.leb andb].
    unfold step_end. cbn [save_every tcfg]. unfold idS at 2.
    specialize (IH (Datatypes.S i) (c_step_end S c epoch t s1) s1 {| es := es T; gstep := Datatypes.S (gstep T); saved := saved T |} (ms ++ [m])).
    destruct (c_batches S B O step_no cstep c epoch r (c_step_end S c epoch t s1) s1) as [[t2 s2] rows]. destruct IH as [T1 [A [E1 E2]]].
    exists T1. rewrite A. rewrite <- app_assoc. cbn [app]. split; [reflexivity|]. split; [exact E1|]. rewrite E2. unfold c_step_end, c_save. destruct (c_save_every c) as [n|]; [|reflexivity]. destruct (negb (n =? 0)%nat && (epoch mod n =? 0)%nat); [|reflexivity]. now destruct (c_save_dir c).
Qed.

Definition simrel (r1 : result (ctrainer S * S * list (list Q) * list (list Q))) (r2 : result (trainer S * S * list (list Q) * list (list Q))) : Prop :=
  match r1, r2 with
  | Ok (t, s, ms, mvs), Ok (T, s', ms', mvs') => es T = c_es t /\ s = s' /\ ms = ms' /\ mvs = mvs'
  | Err e, Err e' => e = e'
  | _, _ => False
  end.

Lemma c_save_es c f t s : c_es (c_save S c f t s) = c_es t. Proof. unfold c_save. now destruct (c_save_dir c). Qed.
Lemma sim_loop c bs vs : forall n epoch t s T, es T = c_es t ->
  simrel (c_epochs_loop S B O VB VO step_no cstep cval monitor c bs vs n epoch t s)
         (epochs_loop step_no tstep vstep idS idS idS monitor (tcfg c) bs vs n epoch T s).
Proof.
  induction n as [|n IH]; intros epoch t s T H; cbn [c_epochs_loop epochs_loop]; [repeat split; auto|].
  unfold training_loop. change (idS s) with s. assert (SB := sim_batches c epoch bs 0 t s T []). destruct (c_batches S B O step_no cstep c epoch bs t s) as [[t1 s1] rows]. destruct SB as [T1 [A [E1 E2]]]. rewrite A. cbn [app].
  destruct (mean_metrics rows) as [m|e]; cbn [bind]; [|reflexivity]. change (idS s1) with s1.
  assert (H1 : es T1 = c_es t1) by congruence.
  assert (NEXT : forall t2 T2 (f : list (list Q) -> list (list Q)), es T2 = c_es t2 ->
     simrel (bind (c_epochs_loop S B O VB VO step_no cstep cval monitor c bs vs n (Datatypes.S epoch) t2 s1) (fun '(t3, s3, ms, mvs) => Ok (t3, s3, m :: ms, f mvs)))
            (bind (epochs_loop step_no tstep vstep idS idS idS monitor (tcfg c) bs vs n (Datatypes.S epoch) T2 s1) (fun r3 => let '(t3, s3, ms, mvs) := r3 in Ok (t3, s3, m :: ms, f mvs)))).
  { intros t2 T2 f H2. specialize (IH (Datatypes.S epoch) t2 s1 T2 H2). destruct (c_epochs_loop S B O VB VO step_no cstep cval monitor c bs vs n (Datatypes.S epoch) t2 s1) as [[[[ta sa] ma] va]|ea], (epochs_loop step_no tstep vstep idS idS idS monitor (tcfg c) bs vs n (Datatypes.S epoch) T2 s1) as [[[[tb sb] mb] vb]|eb]; cbn in IH |- *; try contradiction; [|assumption]. destruct IH as [I1 [I2 [I3 I4]]]. subst. auto. }
  destruct vs as [v|]; [|destruct (c_should_validate c epoch); apply (NEXT t1 T1 (fun x => x) H1)].
  unfold should_validate. change (eval_every (tcfg c)) with (c_eval_every c). unfold c_should_validate.
  destruct ((0 <? c_eval_every c)%Z && (Z.of_nat epoch mod c_eval_every c =? 0)%Z); [|apply (NEXT t1 T1 (fun x => x) H1)].
  unfold c_validate, validation_loop. change (stop_config (tcfg c)) with (c_stop c). unfold vstep at 1.
  destruct (mean_metrics (map (fun p => cval s1 (fst p) (snd p)) v)) as [mv|e]; cbn [bind]; [|reflexivity].
  destruct (is_active (c_stop c)); cbn [andb bind].
  - destruct (monitor mv) as [x|]; cbn [bind]; [|reflexivity]. rewrite H1.
    set (e := early_stopping_update (c_stop c) (c_es t1) x).
    set (t2 := if has_improved e then c_save S c true {| c_es := e; c_saved := c_saved t1 |} s1 else {| c_es := e; c_saved := c_saved t1 |}).
    set (T2 := if has_improved e then save (tcfg c) true {| es := e; gstep := gstep T1; saved := saved T1 |} s1 else {| es := e; gstep := gstep T1; saved := saved T1 |}).
    assert (X : es T2 = c_es t2) by (unfold T2, t2, save; destruct (has_improved e); [rewrite c_save_es|]; reflexivity).
    rewrite X. destruct (should_stop (c_es t2)); [repeat split; assumption|]. apply (NEXT t2 T2 (fun x => mv :: x) X).
  - apply (NEXT t1 T1 (fun x => mv :: x) H1).
Qed.
Lemma sim_train c data outs val t s T : es T = c_es t ->
  simrel (calib_train S B O VB VO step_no cstep cval monitor c data outs val t s)
         (train step_no tstep vstep idS idS idS monitor (tcfg c) (combine data outs) (match val with Some p => Some (combine (fst p) (snd p)) | None => None end) T s).
Proof.
  intros H. unfold calib_train, train. assert (L := sim_loop c (combine data outs) (match val with Some p => Some (combine (fst p) (snd p)) | None => None end) (c_epochs c) 0 t s T H).
  change (n_epochs (tcfg c)) with (c_epochs c).
  destruct (c_epochs_loop S B O VB VO step_no cstep cval monitor c (combine data outs) _ (c_epochs c) 0 t s) as [[[[ta sa] ma] va]|ea], (epochs_loop step_no tstep vstep idS idS idS monitor (tcfg c) (combine data outs) _ (c_epochs c) 0 T s) as [[[[tb sb] mb] vb]|eb]; cbn [bind simrel] in L |- *; try contradiction; [|assumption].
  destruct L as [I1 [I2 [I3 I4]]]. rewrite c_save_es. unfold save. cbn [save_dir tcfg]. auto.
Qed.

Lemma pass_epoch ps s : one_epoch step_no tstep idS idS idS ps s = calib_pass step_no cstep ps s.
Proof. reflexivity. Qed.
Lemma pass_reports ps : forall s, snd (one_pass step_no tstep idS ps s) = calib_reports step_no cstep ps s.
Proof.
  induction ps as [|[b o] r IH]; intros s; [reflexivity|]. cbn [one_pass calib_reports]. unfold tstep at 1. cbn [fst snd]. destruct (cstep s b o (step_no s)) as [s1 a] eqn:E. cbn [fst snd]. specialize (IH (idS s1)). destruct (one_pass step_no tstep idS r (idS s1)) as [s2 l]. cbn [snd] in IH |- *. rewrite IH. reflexivity.
Qed.
End Sim.

Theorem calib_epochs :
  forall S B O VB VO step_no (cstep : S -> B -> O -> nat -> S * list Q) (cval : S -> VB -> VO -> list Q) monitor c data outs val t s t' s' ms mvs,
  calib_train S B O VB VO step_no cstep cval monitor c data outs val t s = Ok (t', s', ms, mvs) ->
  let epoch := calib_pass step_no cstep (combine data outs) in
  (length ms <= c_epochs c)%nat
  /\ (is_active (c_stop c) = false -> length ms = c_epochs c)
  /\ s' = times (length ms) epoch s
  /\ (forall i, (i < length ms)%nat -> is_mean_of (calib_reports step_no cstep (combine data outs) (times i epoch s)) (nth i ms []))
  /\ match val with
     | None => mvs = []
     | Some (vb, vo) => Forall2 (fun e m => is_mean_of (map (fun p => cval (times (1 + e) epoch s) (fst p) (snd p)) (combine vb vo)) m)
                                (validation_epochs (c_eval_every c) (length ms)) mvs
     end.
Proof.
  intros S B O VB VO step_no cstep cval monitor c data outs val t s t' s' ms mvs H epoch.
  assert (R := sim_train S B O VB VO step_no cstep cval monitor c data outs val t s {| es := c_es t; gstep := 0; saved := [] |} eq_refl). rewrite H in R.
  destruct (train _ _ _ _ _ _ _ _ _ _ _ _) as [[[[T' s2] ms2] mvs2]|e] eqn:E in R; [|contradiction]. destruct R as [_ [<- [<- <-]]].
  apply train_runs_epochs in E; [|cbn; lia|reflexivity]. cbv zeta in E. destruct E as [A [A2 [A3 [A4 A5]]]].
  split; [exact A|]. split; [exact A2|]. split; [exact A3|]. split.
  - intros i Hi. specialize (A4 i Hi). rewrite pass_reports in A4. exact A4.
  - destruct val as [[vb vo]|]; [|exact A5]. exact A5.
Qed.

Theorem calib_early_stopping :
  forall S B O VB VO step_no (cstep : S -> B -> O -> nat -> S * list Q) (cval : S -> VB -> VO -> list Q) monitor c data outs val t s t' s' ms mvs p,
  calib_train S B O VB VO step_no cstep cval monitor c data outs val t s = Ok (t', s', ms, mvs) ->
  c_stop c = {| patience := Some p; mode := Some "min"%string; min_delta := min_delta (c_stop c) |} -> (0 < p)%Z -> c_es t = stopping0 ->
  exists vals, map monitor mvs = map Some vals /\
  forall R, improvements (min_delta (c_stop c)) vals R ->
    (forall j, (j < length vals)%nat -> ~ stalled (Z.to_nat p) (firstn j vals) R) /\
    ((length ms < c_epochs c)%nat -> stalled (Z.to_nat p) vals R) /\
    (stalled (Z.to_nat p) vals R -> exists e, length ms = Datatypes.S e /\ In e (validation_epochs (c_eval_every c) (length ms))).
Proof.
  intros S B O VB VO step_no cstep cval monitor c data outs val t s t' s' ms mvs p H Hc Hp He.
  assert (R := sim_train S B O VB VO step_no cstep cval monitor c data outs val t s {| es := c_es t; gstep := 0; saved := [] |} eq_refl). rewrite H in R.
  destruct (train _ _ _ _ _ _ _ _ _ _ _ _) as [[[[T' s2] ms2] mvs2]|e] eqn:E in R; [|contradiction]. destruct R as [_ [<- [<- <-]]].
  exact (train_early_stopping _ _ _ _ _ _ _ _ _ _ (tcfg c) _ _ _ _ _ _ _ _ p E Hc Hp He).
Qed.

Theorem calib_succeeds :
  forall S B O VB VO step_no (cstep : S -> B -> O -> nat -> S * list Q) (cval : S -> VB -> VO -> list Q) monitor c data outs val t s,
  data <> [] -> outs <> [] -> (forall vb vo, val = Some (vb, vo) -> vb <> [] /\ vo <> []) ->
  (is_active (c_stop c) = true -> forall m, monitor m <> None) ->
  exists r, calib_train S B O VB VO step_no cstep cval monitor c data outs val t s = Ok r.
Proof.
  intros S B O VB VO step_no cstep cval monitor c data outs val t s Hd Ho Hv Hm.
  assert (R := sim_train S B O VB VO step_no cstep cval monitor c data outs val t s {| es := c_es t; gstep := 0; saved := [] |} eq_refl).
  destruct (train_succeeds S (B * O) (VB * VO) step_no (fun s (p : B * O) k => cstep s (fst p) (snd p) k) (fun s (p : VB * VO) => cval s (fst p) (snd p)) (fun s => s) (fun s => s) (fun s => s) monitor (tcfg c) (combine data outs)
     (match val with Some p => Some (combine (fst p) (snd p)) | None => None end) {| es := c_es t; gstep := 0; saved := [] |} s) as [r Er].
  - destruct data, outs; try congruence. discriminate.
  - cbn. lia.
  - intros v E. destruct val as [[vb vo]|]; [|discriminate]. destruct (Hv vb vo eq_refl) as [A C]. injection E as <-. destruct vb, vo; cbn; try congruence.
  - exact Hm.
  - cbv beta zeta in R. rewrite Er in R. destruct (calib_train S B O VB VO step_no cstep cval monitor c data outs val t s) as [x|]; [eauto|]. destruct r as [[[? ?] ?] ?]. contradiction.
Qed.

Theorem calib_empty_fails :
  forall S B O VB VO step_no (cstep : S -> B -> O -> nat -> S * list Q) (cval : S -> VB -> VO -> list Q) monitor c data outs val t s,
  data = [] \/ outs = [] -> (0 < c_epochs c)%nat -> calib_train S B O VB VO step_no cstep cval monitor c data outs val t s = Err TypeError.
Proof.
  intros S B O VB VO step_no cstep cval monitor c data outs val t s H Hn. unfold calib_train.
  assert (E : combine data outs = []) by (destruct H; subst; [reflexivity|now destruct data]). rewrite E. destruct (c_epochs c); [lia|]. reflexivity.
Qed.

Lemma combine_extra {A C} (l : list A) (m : list C) l' m' : length l = length m -> combine (l ++ l') m = combine l m /\ combine l (m ++ m') = combine l m.
Proof. revert m; induction l as [|x l IH]; intros [|y m] H; try discriminate. split; [now destruct l'|reflexivity]. cbn [app combine]. destruct (IH m ltac:(cbn in H; lia)) as [-> ->]. auto. Qed.
Theorem calib_truncated :
  forall S B O VB VO step_no (cstep : S -> B -> O -> nat -> S * list Q) (cval : S -> VB -> VO -> list Q) monitor c data outs val t s data' outs', length data = length outs ->
  calib_train S B O VB VO step_no cstep cval monitor c (data ++ data') outs val t s = calib_train S B O VB VO step_no cstep cval monitor c data outs val t s /\
  calib_train S B O VB VO step_no cstep cval monitor c data (outs ++ outs') val t s = calib_train S B O VB VO step_no cstep cval monitor c data outs val t s.
Proof. intros S B O VB VO step_no cstep cval monitor c data outs val t s data' outs' H. unfold calib_train. destruct (combine_extra data outs data' outs' H) as [-> ->]. auto. Qed.

Section Keys.
Variables S B O : Type.
Variable step_no : S -> nat.
Variable cstep : S -> B -> O -> nat -> S * list Q.
Hypothesis U : forall s b o key, step_no (fst (cstep s b o key)) = Datatypes.S (step_no s).
Let pass := fun ps => calib_pass (fun x => step_no (fst x)) (recording cstep) ps.
Lemma pass_keys : forall ps s l, exists s', pass ps (s, l) = (s', l ++ seq (step_no s) (length ps)) /\ step_no s' = (step_no s + length ps)%nat.
Proof.
  induction ps as [|[b o] ps IH]; intros s l. exists s. cbn. now rewrite app_nil_r, Nat.add_0_r.
  unfold pass, calib_pass in *. cbn [fold_left fst snd]. unfold recording at 2. cbn [fst snd]. destruct (IH (fst (cstep s b o (step_no s))) (l ++ [step_no s])) as [s' [A C]]. exists s'. rewrite A, C, U, <- app_assoc. cbn [length seq app]. split; [reflexivity|lia].
Qed.
Lemma times_pass_keys ps : forall n s l, exists s', times n (pass ps) (s, l) = (s', l ++ seq (step_no s) (n * length ps)) /\ step_no s' = (step_no s + n * length ps)%nat.
Proof.
  induction n as [|n IH]; intros s l. exists s. cbn. now rewrite app_nil_r, Nat.add_0_r.
  cbn [times]. destruct (pass_keys ps s l) as [s1 [A C]]. rewrite A. destruct (IH s1 (l ++ seq (step_no s) (length ps))) as [s' [A' C']]. exists s'. rewrite A', C', C, <- app_assoc, <- seq_app. cbn [Nat.mul]. split; [reflexivity|lia].
Qed.
End Keys.
Theorem calib_keys :
  forall S B O VB VO step_no (cstep : S -> B -> O -> nat -> S * list Q) (cval : S * list nat -> VB -> VO -> list Q) monitor c data outs val t s t' s' l ms mvs,
  (forall s b o key, step_no (fst (cstep s b o key)) = Datatypes.S (step_no s)) ->
  calib_train (S * list nat) B O VB VO (fun x => step_no (fst x)) (recording cstep) cval monitor c data outs val t (s, []) = Ok (t', (s', l), ms, mvs) ->
  l = seq (step_no s) (length ms * Nat.min (length data) (length outs)) /\ NoDup l.
Proof.
  intros S B O VB VO step_no cstep cval monitor c data outs val t s t' s' l ms mvs U H.
  apply calib_epochs in H. cbv zeta in H. destruct H as [_ [_ [H _]]].
  destruct (times_pass_keys S B O step_no cstep U (combine data outs) (length ms) s []) as [s2 [A _]]. rewrite A in H. injection H as _ ->. rewrite combine_length. cbn [app]. split; [reflexivity|apply seq_NoDup].
Qed.

(** ---- checkpoints ---- *)
Section Saves.
Variables S B O VB VO : Type.
Variable step_no : S -> nat.
Variable cstep : S -> B -> O -> nat -> S * list Q.
Variable cval : S -> VB -> VO -> list Q.
Variable monitor : list Q -> option Q.
Variable c : cconfig.
Variable n : nat.
Hypothesis dir : c_save_dir c = true.
Hypothesis every : c_save_every c = Some n.
Hypothesis npos : (0 < n)%nat.
Let due := fun e => (e mod n =? 0)%nat.
Lemma batches_saves epoch : forall bs t s,
  let '(t1, s1, _) := c_batches S B O step_no cstep c epoch bs t s in
  s1 = calib_pass step_no cstep bs s /\ c_saved t1 = c_saved t ++ (if due epoch then map (fun x => (false, x)) (calib_states step_no cstep bs s) else []).
Proof.
  induction bs as [|[b o] r IH]; intros t s; cbn [c_batches]. split; [reflexivity|]. cbn. destruct (due epoch); now rewrite app_nil_r.
  unfold calib_pass in *. cbn [fold_left fst snd calib_states]. destruct (cstep s b o (step_no s)) as [s1 m] eqn:E. cbn [fst].
  specialize (IH (c_step_end S c epoch t s1) s1). destruct (c_batches S B O step_no cstep c epoch r (c_step_end S c epoch t s1) s1) as [[t2 s2] rows]. destruct IH as [A C]. split; [exact A|].
  rewrite C. unfold c_step_end. rewrite every. destruct (Nat.eqb_spec n 0); [lia|]. cbn [negb andb]. fold (due epoch). destruct (due epoch); [|reflexivity]. unfold c_save. rewrite dir. cbn [c_saved map]. now rewrite <- app_assoc.
Qed.
Lemma periodic_app_saves (l m : list (bool * S)) : periodic_saves (l ++ m) = periodic_saves l ++ periodic_saves m.
Proof. unfold periodic_saves. now rewrite filter_app, map_app. Qed.
Lemma forced_app (l m : list (bool * S)) : forced_saves (l ++ m) = forced_saves l ++ forced_saves m.
Proof. unfold forced_saves. now rewrite filter_app, map_app. Qed.
Lemma periodic_unforced (l : list S) : periodic_saves (map (fun x => (false, x)) l) = l.
Proof. unfold periodic_saves. induction l as [|x l IH]; [reflexivity|]. cbn. now rewrite IH. Qed.
Lemma forced_unforced (l : list S) : forced_saves (map (fun x => (false, x)) l) = [].
Proof. unfold forced_saves. induction l as [|x l IH]; [reflexivity|]. exact IH. Qed.
Lemma loop_saves bs vs : let pass := calib_pass step_no cstep bs in forall k epoch t s t' s' ms mvs,
  c_epochs_loop S B O VB VO step_no cstep cval monitor c bs vs k epoch t s = Ok (t', s', ms, mvs) ->
  exists new, c_saved t' = c_saved t ++ new /\
    periodic_saves new = flat_map (fun e => if due (epoch + e) then calib_states step_no cstep bs (times e pass s) else []) (seq 0 (length ms)) /\
    Forall (fun x => exists e, (e < length ms)%nat /\ x = times (1 + e) pass s) (forced_saves new) /\
    (is_active (c_stop c) = false -> forced_saves new = []).
Proof.
  intros pass. induction k as [|k IH]; intros epoch t s t' s' ms mvs H; cbn [c_epochs_loop] in H.
  - injection H as <- <- <- <-. exists []. rewrite app_nil_r. cbn. auto.
  - assert (BS := batches_saves epoch bs t s). destruct (c_batches S B O step_no cstep c epoch bs t s) as [[t1 s1] rows]. destruct BS as [-> C]. fold (pass s) in H |- *. destruct (mean_metrics rows) as [m|]; [|discriminate]. cbn [bind] in H.
    set (old := if due epoch then map (fun x => (false, x)) (calib_states step_no cstep bs s) else []) in *.
    assert (PO : periodic_saves old = if due epoch then calib_states step_no cstep bs s else []) by (unfold old; destruct (due epoch); [apply periodic_unforced|reflexivity]).
    assert (FO : forced_saves old = []) by (unfold old; destruct (due epoch); [apply forced_unforced|reflexivity]).
    assert (NEXT : forall t2 extra r mvs0, c_saved t2 = c_saved t1 ++ extra -> periodic_saves extra = [] -> Forall (fun x => x = pass s) (forced_saves extra) -> (is_active (c_stop c) = false -> forced_saves extra = []) ->
       c_epochs_loop S B O VB VO step_no cstep cval monitor c bs vs k (Datatypes.S epoch) t2 (pass s) = Ok (t', s', r, mvs0) -> ms = m :: r ->
       exists new, c_saved t' = c_saved t ++ new /\
         periodic_saves new = flat_map (fun e => if due (epoch + e) then calib_states step_no cstep bs (times e pass s) else []) (seq 0 (length ms)) /\
         Forall (fun x => exists e, (e < length ms)%nat /\ x = times (1 + e) pass s) (forced_saves new) /\ (is_active (c_stop c) = false -> forced_saves new = [])).
    { intros t2 extra r mvs0 X1 X2 X3 X4 X5 X6. destruct (IH _ _ _ _ _ _ _ X5) as [new [Y1 [Y2 [Y3 Y4]]]]. exists (old ++ extra ++ new). rewrite Y1, X1, C, !app_assoc. split; [reflexivity|].
      rewrite X6. rewrite <- app_assoc, !periodic_app_saves, !forced_app, PO, FO, X2, Y2. cbn [app length seq flat_map]. rewrite Nat.add_0_r. cbn [times]. split.
      - f_equal. rewrite <- seq_shift, flat_map_concat_map, flat_map_concat_map, map_map. f_equal. apply map_ext. intros e. cbn [times]. now rewrite Nat.add_succ_comm.
      - split.
        + apply Forall_app. split. eapply Forall_impl; [|exact X3]. intros x ->. exists 0%nat. split; [lia|reflexivity].
          eapply Forall_impl; [|exact Y3]. intros x [e [E1 ->]]. exists (Datatypes.S e). split; [lia|reflexivity].
        + intros I. now rewrite X4, Y4. }
    destruct (if c_should_validate c epoch then vs else None) as [v|].
    + destruct (c_validate S VB VO cval monitor c v t1 (pass s)) as [[t2 mv]|] eqn:V; [|discriminate]. cbn [bind] in H.
      assert (EX : exists extra, c_saved t2 = c_saved t1 ++ extra /\ periodic_saves extra = [] /\ Forall (fun x => x = pass s) (forced_saves extra) /\ (is_active (c_stop c) = false -> forced_saves extra = [])).
      { unfold c_validate in V. destruct (mean_metrics _); [|discriminate]. cbn [bind] in V. destruct (is_active (c_stop c)) eqn:IA.
        - destruct (monitor _); [|discriminate]. injection V as <- _. destruct (has_improved _).
          + unfold c_save. rewrite dir. exists [(true, pass s)]. repeat split; try reflexivity. now repeat constructor. discriminate.
          + exists []. rewrite app_nil_r. repeat split; constructor.
        - injection V as <- _. exists []. rewrite app_nil_r. repeat split; constructor. }
      destruct EX as [extra [X1 [X2 [X3 X4]]]].
      destruct (is_active (c_stop c) && should_stop (c_es t2)) eqn:SS.
      * injection H as <- <- <- <-. exists (old ++ extra). rewrite X1, C, app_assoc. split; [reflexivity|]. rewrite periodic_app_saves, forced_app, PO, FO, X2. cbn [length seq flat_map app times]. rewrite Nat.add_0_r. split; [reflexivity|]. split; [|exact X4].
        eapply Forall_impl; [|exact X3]. intros x ->. exists 0%nat. split; [lia|reflexivity].
      * destruct (c_epochs_loop S B O VB VO step_no cstep cval monitor c bs vs k (Datatypes.S epoch) t2 (pass s)) as [[[[t3 s3] ms3] mvs3]|] eqn:L; [|discriminate]. cbn [bind] in H. injection H as <- <- <- <-. eapply NEXT; eauto.
    + destruct (c_epochs_loop S B O VB VO step_no cstep cval monitor c bs vs k (Datatypes.S epoch) t1 (pass s)) as [[[[t3 s3] ms3] mvs3]|] eqn:L; [|discriminate]. cbn [bind] in H. injection H as <- <- <- <-. apply (NEXT t1 [] ms3 mvs3); auto. now rewrite app_nil_r. constructor.
Qed.
End Saves.
Theorem calib_checkpoints :
  forall S B O VB VO step_no (cstep : S -> B -> O -> nat -> S * list Q) (cval : S -> VB -> VO -> list Q) monitor c data outs val t s t' s' ms mvs n,
  calib_train S B O VB VO step_no cstep cval monitor c data outs val t s = Ok (t', s', ms, mvs) ->
  c_save_dir c = true -> c_save_every c = Some n -> (0 < n)%nat -> c_saved t = [] ->
  let epoch := calib_pass step_no cstep (combine data outs) in
  periodic_saves (c_saved t') = flat_map (fun e => if (e mod n =? 0)%nat then calib_states step_no cstep (combine data outs) (times e epoch s) else []) (seq 0 (length ms)) /\
  exists best, forced_saves (c_saved t') = best ++ [s'] /\ Forall (fun x => exists e, (e < length ms)%nat /\ x = times (1 + e) epoch s) best /\
    (is_active (c_stop c) = false -> best = []).
Proof.
  intros S B O VB VO step_no cstep cval monitor c data outs val t s t' s' ms mvs n H D E N T epoch. unfold calib_train in H.
  destruct (c_epochs_loop S B O VB VO step_no cstep cval monitor c (combine data outs) _ (c_epochs c) 0 t s) as [[[[t1 s1] ms1] mvs1]|] eqn:L; [|discriminate]. cbn [bind] in H. injection H as <- <- <- <-.
  destruct (loop_saves S B O VB VO step_no cstep cval monitor c n D E N _ _ _ _ _ _ _ _ _ _ L) as [new [A [P [F I]]]]. rewrite T in A. cbn [app] in A. unfold c_save. rewrite D. cbn [c_saved]. rewrite A, periodic_app_saves, forced_app.
  split; [rewrite P; cbn; now rewrite app_nil_r|]. exists (forced_saves new). split; [reflexivity|]. split; assumption.
Qed.
Theorem calib_no_directory :
  forall S B O VB VO step_no (cstep : S -> B -> O -> nat -> S * list Q) (cval : S -> VB -> VO -> list Q) monitor c data outs val t s t' s' ms mvs,
  calib_train S B O VB VO step_no cstep cval monitor c data outs val t s = Ok (t', s', ms, mvs) -> c_save_dir c = false -> c_saved t' = c_saved t.
Proof.
  intros S B O VB VO step_no cstep cval monitor c data outs val t s t' s' ms mvs H D. unfold calib_train in H.
  assert (SV : forall f t0 s0, c_save S c f t0 s0 = t0) by (intros; unfold c_save; now rewrite D).
  assert (BT : forall epoch bs t0 s0, c_saved (fst (fst (c_batches S B O step_no cstep c epoch bs t0 s0))) = c_saved t0).
  { intros epoch bs. induction bs as [|[b o] r IH]; intros t0 s0; [reflexivity|]. cbn [c_batches]. destruct (cstep s0 b o (step_no s0)) as [s1 m]. specialize (IH (c_step_end S c epoch t0 s1) s1). destruct (c_batches S B O step_no cstep c epoch r (c_step_end S c epoch t0 s1) s1) as [[t2 s2] rows]. cbn [fst] in *. rewrite IH. unfold c_step_end. destruct (c_save_every c); [|reflexivity]. destruct (_ && _); [now rewrite SV|reflexivity]. }
  destruct (c_epochs_loop S B O VB VO step_no cstep cval monitor c (combine data outs) _ (c_epochs c) 0 t s) as [[[[t1 s1] ms1] mvs1]|] eqn:L; [|discriminate]. cbn [bind] in H. injection H as <- <- <- <-. rewrite SV.
  revert L. generalize (match val with Some p => Some (combine (fst p) (snd p)) | None => None end) as vs. generalize (combine data outs) as bs. intros bs vs. generalize 0%nat as epoch. generalize (c_epochs c) as k. intros k. revert t s t1 s1 ms1 mvs1. induction k as [|k IH]; intros t s t1 s1 ms1 mvs1 epoch H; cbn [c_epochs_loop] in H.
  - now injection H as <- <- <- <-.
  - assert (B1 := BT epoch bs t s). destruct (c_batches S B O step_no cstep c epoch bs t s) as [[t2 s2] rows]. cbn [fst] in B1. destruct (mean_metrics rows) as [m|]; [|discriminate]. cbn [bind] in H.
    destruct (if c_should_validate c epoch then vs else None) as [v|].
    + destruct (c_validate S VB VO cval monitor c v t2 s2) as [[t3 mv]|] eqn:V; [|discriminate]. cbn [bind] in H.
      assert (V1 : c_saved t3 = c_saved t2). { unfold c_validate in V. destruct (mean_metrics _); [|discriminate]. cbn [bind] in V. destruct (is_active (c_stop c)). destruct (monitor _); [|discriminate]. injection V as <- _. destruct (has_improved _); [now rewrite SV|reflexivity]. now injection V as <- _. }
      destruct (is_active (c_stop c) && should_stop (c_es t3)). injection H as <- <- <- <-. congruence.
      destruct (c_epochs_loop S B O VB VO step_no cstep cval monitor c bs vs k (Datatypes.S epoch) t3 s2) as [[[[t4 s4] ms4] mvs4]|] eqn:L; [|discriminate]. cbn [bind] in H. injection H as <- <- <- <-. apply IH in L. congruence.
    + destruct (c_epochs_loop S B O VB VO step_no cstep cval monitor c bs vs k (Datatypes.S epoch) t2 s2) as [[[[t4 s4] ms4] mvs4]|] eqn:L; [|discriminate]. cbn [bind] in H. injection H as <- <- <- <-. apply IH in L. congruence.
Qed.
(** one full-batch step per epoch *)
Theorem output_calib_steps :
  forall S T O step_no (cstep : S -> T -> O -> nat -> S * list Q) (cval : S -> T -> O -> list Q) monitor c targets outputs val t s t' s' ms mvs,
  output_calib_train step_no cstep cval monitor c targets outputs val t s = Ok (t', s', ms, mvs) ->
  let step := fun s => fst (cstep s targets outputs (step_no s)) in
  (length ms <= c_epochs c)%nat /\ (is_active (c_stop c) = false -> length ms = c_epochs c) /\ s' = times (length ms) step s /\
  (forall i, (i < length ms)%nat -> is_mean_of [snd (cstep (times i step s) targets outputs (step_no (times i step s)))] (nth i ms [])) /\
  match val with
  | None => mvs = []
  | Some (vt, vo) => Forall2 (fun e m => is_mean_of [cval (times (1 + e) step s) vt vo] m) (validation_epochs (c_eval_every c) (length ms)) mvs
  end.
Proof.
  intros S T O step_no cstep cval monitor c targets outputs val t s t' s' ms mvs H step. apply calib_epochs in H. cbv zeta in H. destruct H as [A [B [C [D E]]]].
  split; [exact A|]. split; [exact B|]. split; [exact C|]. split; [exact D|]. destruct val as [[vt vo]|]; exact E.
Qed.
