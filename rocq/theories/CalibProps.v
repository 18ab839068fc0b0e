(** Properties C93-C98: calibration training, losses, flows and objective. *)
From Coq Require Import List Arith ZArith QArith Bool String Reals Lia.
From Verif Require Import Lib QuantModel TrainModel TrainSpec MetricSpec TempModel TempSpec PredModel PredSpec LikModel CalibModel CalibSpec CalibProofs CalibProofs2 CalibProofs3 CalibCases.
From Verif Require Import Lit.
Import ListNotations.
Local Notation length := List.length.
Local Notation concat := List.concat.
Open Scope Q_scope.
Open Scope list_scope.

(** C93 *)
Theorem C93_epochs : forall S B O VB VO step_no (cstep : S -> B -> O -> nat -> S * list Q) (cval : S -> VB -> VO -> list Q) monitor c data outs val t s t' s' ms mvs,
  calib_train S B O VB VO step_no cstep cval monitor c data outs val t s = Ok (t', s', ms, mvs) ->
  let epoch := calib_pass step_no cstep (combine data outs) in
  (length ms <= c_epochs c)%nat
  /\ (is_active (c_stop c) = false -> length ms = c_epochs c)
  /\ s' = times (length ms) epoch s
  /\ (forall i, (i < length ms)%nat -> is_mean_of (calib_reports step_no cstep (combine data outs) (times i epoch s)) (nth i ms []))
  /\ match val with
     | None => mvs = []
     | Some (vb, vo) => Forall2 (fun e m => is_mean_of (map (fun p => cval (times (1 + e) epoch s) (fst p) (snd p)) (combine vb vo)) m)
                                (validation_epochs (c_eval_every c) (length ms)) mvs
     end.
Proof. exact (@calib_epochs). Qed.
Print Assumptions C93_epochs.
Theorem C93_early_stopping : forall S B O VB VO step_no (cstep : S -> B -> O -> nat -> S * list Q) (cval : S -> VB -> VO -> list Q) monitor c data outs val t s t' s' ms mvs p,
  calib_train S B O VB VO step_no cstep cval monitor c data outs val t s = Ok (t', s', ms, mvs) ->
  c_stop c = {| patience := Some p; mode := Some "min"%string; min_delta := min_delta (c_stop c) |} -> (0 < p)%Z -> c_es t = stopping0 ->
  exists vals, map monitor mvs = map Some vals /\
  forall R, improvements (min_delta (c_stop c)) vals R ->
    (forall j, (j < length vals)%nat -> ~ stalled (Z.to_nat p) (firstn j vals) R) /\
    ((length ms < c_epochs c)%nat -> stalled (Z.to_nat p) vals R) /\
    (stalled (Z.to_nat p) vals R -> exists e, length ms = Datatypes.S e /\ In e (validation_epochs (c_eval_every c) (length ms))).
Proof. exact (@calib_early_stopping). Qed.
Print Assumptions C93_early_stopping.
Example C93_case_improvements : improvements 0 [3; 1; 2; 2]%Q (fun i => (i <= 1)%nat) /\ stalled 1 [3; 1; 2; 2]%Q (fun i => (i <= 1)%nat).
Proof.
  split; [|exists 2%nat; cbn; split; [lia|intros l H; lia]].
  intros i H. destruct i as [|[|[|[|i]]]].
  - split; [intros _ j L; lia|intros; lia].
  - split; [intros _ j L _ _; assert (j = 0%nat) by lia; subst j; reflexivity|intros; lia].
  - split; [lia|]. intros A. specialize (A 1%nat ltac:(lia) ltac:(lia) ltac:(lia)). discriminate A.
  - split; [lia|]. intros A. specialize (A 1%nat ltac:(lia) ltac:(lia) ltac:(lia)). discriminate A.
  - cbn in H. lia.
Qed.
Example C93_case_early : exists t s ms mvs, toy_ctrain (toy_cconfig 9 None (Some 2%Z)) [7; 8]%nat = Ok (t, s, ms, mvs) /\
  c_stop (toy_cconfig 9 None (Some 2%Z)) = {| patience := Some 2%Z; mode := Some "min"%string; min_delta := min_delta (c_stop (toy_cconfig 9 None (Some 2%Z))) |} /\ is_active (c_stop (toy_cconfig 9 None (Some 2%Z))) = true.
Proof. do 4 eexists. repeat split; vm_compute; reflexivity. Qed.
Theorem C93_succeeds : forall S B O VB VO step_no (cstep : S -> B -> O -> nat -> S * list Q) (cval : S -> VB -> VO -> list Q) monitor c data outs val t s,
  data <> [] -> outs <> [] -> (forall vb vo, val = Some (vb, vo) -> vb <> [] /\ vo <> []) ->
  (is_active (c_stop c) = true -> forall m, monitor m <> None) ->
  exists r, calib_train S B O VB VO step_no cstep cval monitor c data outs val t s = Ok r.
Proof. exact (@calib_succeeds). Qed.
Print Assumptions C93_succeeds.
Theorem C93_empty_fails : forall S B O VB VO step_no (cstep : S -> B -> O -> nat -> S * list Q) (cval : S -> VB -> VO -> list Q) monitor c data outs val t s,
  data = [] \/ outs = [] -> (0 < c_epochs c)%nat -> calib_train S B O VB VO step_no cstep cval monitor c data outs val t s = Err TypeError.
Proof. exact (@calib_empty_fails). Qed.
Print Assumptions C93_empty_fails.
Theorem C93_truncated : forall S B O VB VO step_no (cstep : S -> B -> O -> nat -> S * list Q) (cval : S -> VB -> VO -> list Q) monitor c data outs val t s data' outs', length data = length outs ->
  calib_train S B O VB VO step_no cstep cval monitor c (data ++ data') outs val t s = calib_train S B O VB VO step_no cstep cval monitor c data outs val t s /\
  calib_train S B O VB VO step_no cstep cval monitor c data (outs ++ outs') val t s = calib_train S B O VB VO step_no cstep cval monitor c data outs val t s.
Proof. exact (@calib_truncated). Qed.
Print Assumptions C93_truncated.
Theorem C93_keys : forall S B O VB VO step_no (cstep : S -> B -> O -> nat -> S * list Q) (cval : S * list nat -> VB -> VO -> list Q) monitor c data outs val t s t' s' l ms mvs,
  (forall s b o key, step_no (fst (cstep s b o key)) = Datatypes.S (step_no s)) ->
  calib_train (S * list nat) B O VB VO (fun x => step_no (fst x)) (recording cstep) cval monitor c data outs val t (s, []) = Ok (t', (s', l), ms, mvs) ->
  l = seq (step_no s) (length ms * Nat.min (length data) (length outs)) /\ NoDup l.
Proof. exact (@calib_keys). Qed.
Print Assumptions C93_keys.
Theorem C93_checkpoints : forall S B O VB VO step_no (cstep : S -> B -> O -> nat -> S * list Q) (cval : S -> VB -> VO -> list Q) monitor c data outs val t s t' s' ms mvs n,
  calib_train S B O VB VO step_no cstep cval monitor c data outs val t s = Ok (t', s', ms, mvs) ->
  c_save_dir c = true -> c_save_every c = Some n -> (0 < n)%nat -> c_saved t = [] ->
  let epoch := calib_pass step_no cstep (combine data outs) in
  periodic_saves (c_saved t') = flat_map (fun e => if (e mod n =? 0)%nat then calib_states step_no cstep (combine data outs) (times e epoch s) else []) (seq 0 (length ms)) /\
  exists best, forced_saves (c_saved t') = best ++ [s'] /\ Forall (fun x => exists e, (e < length ms)%nat /\ x = times (1 + e) epoch s) best /\
    (is_active (c_stop c) = false -> best = []).
Proof. exact (@calib_checkpoints). Qed.
Print Assumptions C93_checkpoints.
Example C93_case_saving : c_save_dir (toy_cconfig 3 (Some 2%nat) None) = true /\ c_save_every (toy_cconfig 3 (Some 2%nat) None) = Some 2%nat.
Proof. split; reflexivity. Qed.
Theorem C93_no_directory : forall S B O VB VO step_no (cstep : S -> B -> O -> nat -> S * list Q) (cval : S -> VB -> VO -> list Q) monitor c data outs val t s t' s' ms mvs,
  calib_train S B O VB VO step_no cstep cval monitor c data outs val t s = Ok (t', s', ms, mvs) -> c_save_dir c = false -> c_saved t' = c_saved t.
Proof. exact (@calib_no_directory). Qed.
Print Assumptions C93_no_directory.
Theorem C93_full_batch : forall S T O step_no (cstep : S -> T -> O -> nat -> S * list Q) (cval : S -> T -> O -> list Q) monitor c targets outputs val t s t' s' ms mvs,
  output_calib_train step_no cstep cval monitor c targets outputs val t s = Ok (t', s', ms, mvs) ->
  let step := fun s => fst (cstep s targets outputs (step_no s)) in
  (length ms <= c_epochs c)%nat /\ (is_active (c_stop c) = false -> length ms = c_epochs c) /\ s' = times (length ms) step s /\
  (forall i, (i < length ms)%nat -> is_mean_of [snd (cstep (times i step s) targets outputs (step_no (times i step s)))] (nth i ms [])) /\
  match val with
  | None => mvs = []
  | Some (vt, vo) => Forall2 (fun e m => is_mean_of [cval (times (1 + e) step s) vt vo] m) (validation_epochs (c_eval_every c) (length ms)) mvs
  end.
Proof. exact (@output_calib_steps). Qed.
Print Assumptions C93_full_batch.
Theorem C93_device_validation : forall rows cols outs i r j, (i < length outs)%nat -> (r < rows)%nat -> (j < cols)%nat ->
  length (device_val_outputs rows cols outs) = (length outs * rows)%nat /\
  nth j (nth (i * rows + r) (device_val_outputs rows cols outs) []) 0%Q = (total (map (fun o => nth j (nth r o []) 0%Q) outs) / nQ (length outs))%Q.
Proof. exact (@device_val_spec). Qed.
Print Assumptions C93_device_validation.
Theorem C93_device_validation_refuted : exists rows cols outs, Forall (fun o => length o = rows /\ Forall (fun r => length r = cols) o) outs /\
  exists i j, (i < rows * length outs)%nat /\ ~ (nth j (nth i (device_val_outputs rows cols outs) []) 0 == nth j (nth i (concat outs) []) 0)%Q.
Proof. exact (@device_val_refuted). Qed.
Print Assumptions C93_device_validation_refuted.
Example C93_case : exists t s ms mvs, toy_ctrain (toy_cconfig 3 (Some 2%nat) None) [7; 8]%nat = Ok (t, s, ms, mvs) /\
  s = [(10, 7); (20, 8); (10, 7); (20, 8); (10, 7); (20, 8)]%nat /\ map (@List.length Q) ms = [1; 1; 1]%nat /\
  map (fun x => (fst x, length (snd x))) (c_saved t) = [(false, 1); (false, 2); (false, 5); (false, 6); (true, 6)]%nat.
Proof. exact toy_calib_run. Qed.
Example C93_case_stop : exists t s ms mvs, toy_ctrain (toy_cconfig 9 None (Some 2%Z)) [7; 8]%nat = Ok (t, s, ms, mvs) /\ length ms = 4%nat /\
  map (fun x => (fst x, length (snd x))) (c_saved t) = [(true, 2); (true, 8)]%nat.
Proof. exact toy_calib_stop. Qed.
Example C93_case_short : exists t s ms mvs, toy_ctrain (toy_cconfig 1 None None) [7]%nat = Ok (t, s, ms, mvs) /\ s = [(10, 7)]%nat.
Proof. exact toy_calib_short. Qed.

(** C94 *)
Theorem C94_loss : forall P M O T (f : P -> bool -> option M -> O -> O * M) (loss_fn : O -> T -> Q) params targets outputs return_aux,
  known_aux ["outputs"; "mutable"]%string return_aux ->
  let calibrated := fst (f params (in_aux "mutable" return_aux) None outputs) in
  exists aux, oc_loss (Some f) loss_fn params targets outputs (Some None) return_aux = Ok (loss_fn calibrated targets, aux) /\
  (return_aux = [] <-> aux = None) /\
  forall a, aux = Some a ->
    (oc_outputs a = Some calibrated \/ oc_outputs a = None) /\ (In "outputs"%string return_aux <-> oc_outputs a = Some calibrated) /\
    (oc_mutable_aux a = Some None \/ oc_mutable_aux a = None) /\ (In "mutable"%string return_aux <-> oc_mutable_aux a = Some None).
Proof. exact (@oc_loss_value). Qed.
Print Assumptions C94_loss.
Example C94_case_known : known_aux ["outputs"; "mutable"]%string ["mutable"; "outputs"]%string /\ ~ known_aux ["outputs"; "mutable"]%string ["calib_mutable"]%string.
Proof. split; [intros a H; cbn in *; tauto|]. intros H. specialize (H _ (or_introl eq_refl)). cbn in H. intuition congruence. Qed.
Theorem C94_loss_identity : forall P M O T (loss_fn : O -> T -> Q) (params : P) targets outputs return_aux,
  known_aux ["outputs"; "mutable"]%string return_aux ->
  exists aux, oc_loss (M := M) None loss_fn params targets outputs (Some None) return_aux = Ok (loss_fn outputs targets, aux).
Proof. exact (@oc_loss_identity). Qed.
Print Assumptions C94_loss_identity.
Theorem C94_loss_rejects : forall P M O T (cal : option (P -> bool -> option M -> O -> O * M)) (loss_fn : O -> T -> Q) params targets outputs mutable return_aux,
  (~ known_aux ["outputs"; "mutable"]%string return_aux \/ mutable = None) -> oc_loss cal loss_fn params targets outputs mutable return_aux = Err TypeError.
Proof. exact (@oc_loss_rejects). Qed.
Print Assumptions C94_loss_rejects.
Theorem C94_second_step_refuted : forall P M O T (f : P -> bool -> option M -> O -> O * M) (loss_fn : O -> T -> Q) params targets outputs m,
  exists a w, oc_loss (Some f) loss_fn params targets outputs (Some (Some (Frozen m))) ["outputs"; "mutable"]%string =
    Ok (loss_fn (fst (f params true (Some m) outputs)) targets, Some a) /\ oc_mutable_aux a = Some (Some w) /\
  (forall params' targets' outputs' return_aux, known_aux ["outputs"; "mutable"]%string return_aux ->
     oc_loss (Some f) loss_fn params' targets' outputs' (Some (Some w)) return_aux = Err AttributeError) /\
  (forall R (layer : O -> R) params' outputs', oc_method (Some f) layer (Some {| oc_params := params'; oc_mutable := Some w |}) true outputs' = Err AttributeError).
Proof. exact (@oc_second_step). Qed.
Print Assumptions C94_second_step_refuted.
Theorem C94_predictions : forall P M O R (f : P -> bool -> option M -> O -> O * M) (layer : O -> R) state outputs,
  (forall cal st, oc_method (P := P) (M := M) cal layer st false outputs = Ok (layer outputs)) /\
  (forall cal, oc_method (P := P) (M := M) cal layer None true outputs = Err ValueError) /\
  (oc_method None layer (Some state) true outputs = Ok (layer outputs)) /\
  (oc_mutable state = None -> oc_method (Some f) layer (Some state) true outputs = Ok (layer (fst (f (oc_params state) false None outputs)))) /\
  (forall m, oc_mutable state = Some (Frozen m) -> oc_method (Some f) layer (Some state) true outputs = Ok (layer (fst (f (oc_params state) false (Some m) outputs)))).
Proof. exact (@oc_method_spec). Qed.
Print Assumptions C94_predictions.
Example C94_case : exists v a, oc_loss (Some toy_temp) toy_sq 2 1 6 (Some None) ["outputs"]%string = Ok (v, Some a) /\ (v == 4)%Q /\
  match oc_outputs a with Some o => (o == 3)%Q | None => False end /\ oc_mutable_aux a = None.
Proof. exact toy_oc. Qed.
Example C94_case_predictions : oc_method (M := nat) (Some toy_temp) (fun o => Qle_bool 3 o) (Some {| oc_params := 4; oc_mutable := None |}) true 6 = Ok false /\
  oc_method (M := nat) (Some toy_temp) (fun o => Qle_bool 3 o) (Some {| oc_params := 4; oc_mutable := None |}) false 6 = Ok true.
Proof. exact toy_oc_method. Qed.

(** C95 *)
Theorem C95_loss : forall X O M T (net : bool -> option M -> X -> O * M) (loss_fn : O -> T -> Q) x targets return_aux train,
  known_aux ["outputs"; "calib_mutable"]%string return_aux ->
  let o := fst (net train None x) in
  exists aux, cm_loss (fun tr m => class_apply net tr m x) loss_fn targets None return_aux train None = Ok (loss_fn o targets, aux) /\
    (In "outputs"%string return_aux -> aux_outputs aux = Some o) /\ aux_mutable aux = None.
Proof. exact (@cm_loss_value). Qed.
Print Assumptions C95_loss.
Theorem C95_mutable_refuted : forall X O M T (net : bool -> option M -> X -> O * M) (loss_fn : O -> T -> Q) x targets m,
  (forall return_aux, exists e, cm_loss (fun tr mu => class_apply net tr mu x) loss_fn targets (Some m) return_aux true None = Err e) /\
  (forall return_aux, known_aux ["outputs"; "calib_mutable"]%string return_aux ->
     exists aux, cm_loss (fun tr mu => class_apply net tr mu x) loss_fn targets (Some m) return_aux false None = Ok (loss_fn (fst (net false (Some m) x)) targets, aux)).
Proof. exact (@cm_loss_mutable_fails). Qed.
Print Assumptions C95_mutable_refuted.
Theorem C95_outputs_refuted : forall O M T (apply : bool -> option M -> pyout O M) (loss_fn : O -> T -> Q) targets mutable return_aux train o,
  exists e, cm_loss apply loss_fn targets mutable return_aux train (Some o) = Err e.
Proof. exact (@cm_loss_outputs_fail). Qed.
Print Assumptions C95_outputs_refuted.
Theorem C95_class_dims : forall size width labels,
  (class_dim_check size width (distinct_labels labels) = Ok tt <-> (0 < size)%nat /\ width = distinct_labels labels) /\
  (class_dim_check size width (distinct_labels labels) = Ok tt \/ class_dim_check size width (distinct_labels labels) = Err ValueError).
Proof. exact (@class_dim_spec). Qed.
Print Assumptions C95_class_dims.
Theorem C95_distinct_labels : forall labels ls, NoDup ls -> (forall y, In y ls <-> In y labels) -> distinct_labels labels = length ls.
Proof. exact (@distinct_labels_spec). Qed.
Print Assumptions C95_distinct_labels.
Theorem C95_output_dims : forall width labels ls, NoDup ls -> (forall y, In y ls <-> In y labels) ->
  (oc_class_check width labels = Ok tt <-> width = length ls) /\
  (oc_class_check width labels = Ok tt \/ oc_class_check width labels = Err ValueError).
Proof. exact (@oc_class_spec). Qed.
Print Assumptions C95_output_dims.
Example C95_case_labels : NoDup [0; 1; 2]%Z /\ (forall y, In y [0; 1; 2]%Z <-> In y [2; 0; 1; 0; 2]%Z).
Proof. split; [lit|]. intros y. cbn. tauto. Qed.
Theorem C95_reg_dims : forall first width,
  (reg_dim_check first width = Ok tt <-> exists d, first = Some d /\ (0 < d)%nat /\ width = (2 * d)%nat) /\
  (reg_dim_check first width = Ok tt \/ reg_dim_check first width = Err ValueError).
Proof. exact (@reg_dim_spec). Qed.
Print Assumptions C95_reg_dims.
Example C95_case : (exists a, cm_loss (fun tr m => class_apply toy_net tr m 3) toy_sq 1 None ["outputs"]%string true None = Ok (toy_sq 3 1, a)) /\
  cm_loss (fun tr m => class_apply toy_net tr m 3) toy_sq 1 (Some 5%Q) ["outputs"; "mutable"]%string true None = Err TypeError /\
  (exists a, cm_loss (fun tr m => class_apply toy_net tr m 3) toy_sq 1 (Some 5%Q) ["outputs"]%string false None = Ok (toy_sq (3 + 5) 1, a)).
Proof. exact toy_cm. Qed.
Example C95_case_dims : class_dim_check 100 3 (distinct_labels [2; 0; 1; 0; 2]%Z) = Ok tt /\ class_dim_check 100 3 (distinct_labels [2; 0; 0; 2]%Z) = Err ValueError /\ reg_dim_check (Some 2%nat) 4 = Ok tt.
Proof. exact toy_dims. Qed.

(** C96 *)
Theorem C96_output_calibration : forall St V Status (vo vt : option V) (restored init : result St) restore (train_fn : St -> option (V * V) -> result (St * Status)),
  (oc_calibrate vo vt restored init restore train_fn = Err ValueError \/ (vo = None <-> vt = None)) /\
  ((vo = None /\ vt <> None \/ vo <> None /\ vt = None) -> oc_calibrate vo vt restored init restore train_fn = Err ValueError) /\
  forall s status, oc_calibrate vo vt restored init restore train_fn = Ok (s, status) ->
    exists s0, (if restore then restored else init) = Ok s0 /\ (vo = None <-> vt = None) /\
      (vo = None -> train_fn s0 None = Ok (s, status)) /\ (forall o t, vo = Some o -> vt = Some t -> train_fn s0 (Some (t, o)) = Ok (s, status)).
Proof. exact (@oc_calibrate_spec). Qed.
Print Assumptions C96_output_calibration.
Theorem C96_calib_model : forall St Status dump dir (restored init : result St) restore from_current current (train_fn : St -> result (St * Status)),
  (dump = true -> dir = false -> cm_calibrate dump dir restored init restore from_current current train_fn = Err ValueError) /\
  (restore = false -> from_current = true -> current = None -> exists e, cm_calibrate dump dir restored init restore from_current current train_fn = Err e) /\
  forall s status, cm_calibrate dump dir restored init restore from_current current train_fn = Ok (s, status) ->
    (dump = true -> dir = true) /\
    exists s0, train_fn s0 = Ok (s, status) /\
      (restore = true -> restored = Ok s0) /\ (restore = false -> from_current = true -> current = Some s0) /\ (restore = false -> from_current = false -> init = Ok s0).
Proof. exact (@cm_calibrate_spec). Qed.
Print Assumptions C96_calib_model.
Theorem C96_prob_model : forall A P M Status (calib_ok : result unit) val_ok has (restored : option (result (P * M))) (train_fn : post_state A P M -> P * M -> result (P * M * Status)) dump dir state,
  (forall e, calib_ok = Err e -> pm_calibrate calib_ok val_ok has restored train_fn dump dir state = Err e) /\
  (calib_ok = Ok tt -> val_ok = None \/ val_ok = Some (Ok tt) -> has = true -> state = None -> pm_calibrate calib_ok val_ok has restored train_fn dump dir state = Err ValueError) /\
  forall status st dumped, pm_calibrate calib_ok val_ok has restored train_fn dump dir state = Ok (status, st, dumped) ->
    calib_ok = Ok tt /\ (forall r, val_ok = Some r -> r = Ok tt) /\
    (has = false -> status = None /\ st = state /\ dumped = false) /\
    (has = true -> exists ps p0 m0 p m v, state = Some ps /\
        (restored = None -> p0 = ps_calib_params ps /\ m0 = ps_calib_mutable ps) /\ (forall r, restored = Some r -> r = Ok (p0, m0)) /\
        train_fn ps (p0, m0) = Ok (p, m, v) /\ status = Some v /\
        st = Some {| ps_rest := ps_rest ps; ps_calib_params := p; ps_calib_mutable := m |} /\ (dumped = true <-> dump = true /\ dir = true)).
Proof. exact (@pm_calibrate_spec). Qed.
Print Assumptions C96_prob_model.
Theorem C96_train_then_calibrate : forall F Sp C (fit : result (F * Sp)) nb (calibrate : Sp -> result (option C * Sp)),
  (forall e, fit = Err e -> pm_train fit nb calibrate = Err e) /\
  forall fs s, fit = Ok (fs, s) ->
    ((nb = None \/ nb = Some 0%nat) -> pm_train fit nb calibrate = Ok (fs, None, s)) /\
    (forall n, nb = Some n -> (0 < n)%nat -> (forall cs s', calibrate s = Ok (cs, s') -> pm_train fit nb calibrate = Ok (fs, cs, s')) /\ (forall e, calibrate s = Err e -> pm_train fit nb calibrate = Err e)).
Proof. exact (@pm_train_spec). Qed.
Print Assumptions C96_train_then_calibrate.
Example C96_case : pm_calibrate (A := nat) (Ok tt) None true None (fun ps s => Ok ((fst s + 1, snd s)%nat, ps_rest ps)) true true (Some {| ps_rest := 9; ps_calib_params := 4; ps_calib_mutable := 5 |})%nat =
  Ok (Some 9, Some {| ps_rest := 9; ps_calib_params := 5; ps_calib_mutable := 5 |}, true)%nat /\
  pm_calibrate (A := nat) (P := nat) (M := nat) (Status := nat) (Err ValueError) None false None (fun _ _ => Err TypeError) true true None = Err ValueError.
Proof. exact toy_flow. Qed.
Example C96_case_start : cm_calibrate (St := nat) true true (Ok 1%nat) (Ok 2%nat) false true (Some 3%nat) (fun s => Ok (10 * s, s)%nat) = Ok (30, 3)%nat /\
  cm_calibrate (St := nat) true false (Ok 1%nat) (Ok 2%nat) false true (Some 3%nat) (fun s => Ok (10 * s, s)%nat) = Err ValueError.
Proof. exact toy_start. Qed.

(** C97 *)
Theorem C97_check : forall X (eqb : X -> X -> bool), (forall x y, eqb x y = true <-> x = y) -> forall max_iter (first second : list X),
  (check_not_random eqb max_iter first second = Err ValueError <->
     exists i x y, (i <= max_iter)%nat /\ nth_error first i = Some x /\ nth_error second i = Some y /\ x <> y) /\
  (check_not_random eqb max_iter first second = Ok tt \/ check_not_random eqb max_iter first second = Err ValueError).
Proof. exact (@not_random_spec). Qed.
Print Assumptions C97_check.
Theorem C97_late_difference_refuted : exists (first second : list nat), length first = length second /\ first <> second /\ check_not_random Nat.eqb 3 first second = Ok tt.
Proof. exact (@not_random_refuted). Qed.
Print Assumptions C97_late_difference_refuted.
Example C97_case : check_not_random Nat.eqb 3 [1; 2; 3]%nat [1; 2; 3]%nat = Ok tt /\ check_not_random Nat.eqb 3 [1; 2; 3]%nat [1; 3; 2]%nat = Err ValueError.
Proof. exact toy_random. Qed.

(** C98 *)
Theorem C98_samples : forall K W X O (post : K -> W) (net : W -> X -> O) (keys : list K) (batches : list (list X)) dk dx d0,
  let '(outs, size) := sample_outputs post net keys batches in
  size = length (concat batches) /\ length outs = length batches /\
  (forall i s j, (i < length batches)%nat -> (s < length keys)%nat -> (j < length (nth i batches []))%nat ->
     nth j (nth s (nth i outs []) []) d0 = net (post (nth s keys dk)) (nth j (nth i batches []) dx)) /\
  (forall s, (s < length keys)%nat -> concat (map (fun o => nth s o []) outs) = map (net (post (nth s keys dk))) (concat batches)).
Proof. exact (@sample_outputs_spec). Qed.
Print Assumptions C98_samples.
Theorem C98_distributed : forall K W X O split (post : K -> W) (net : W -> X -> O) d keys (batches : list (list X)) dk dx d0 n s i r,
  (n < length batches)%nat -> (s < length keys)%nat -> (i < d)%nat -> (r < length (nth n batches []) / d)%nat ->
  let outs := fst (sample_outputs_distributed split post net d keys batches) in
  let w := (length (nth n batches []) / d)%nat in
  nth (i * w + r) (nth s (nth n outs []) []) d0 = net (post (split (nth s keys dk) i)) (nth (i * w + r) (nth n batches []) dx).
Proof. exact (@distributed_outputs). Qed.
Print Assumptions C98_distributed.
Theorem C98_distributed_size : forall K W X O split (post : K -> W) (net : W -> X -> O) d keys batches,
  snd (sample_outputs_distributed split post net d keys batches) = (d * length batches)%nat.
Proof. exact (@distributed_size). Qed.
Print Assumptions C98_distributed_size.
Theorem C98_distributed_refuted : exists (split : nat -> nat -> nat) (post : nat -> nat) (net : nat -> nat -> nat) d keys batches,
  let '(outs, size) := sample_outputs_distributed split post net d keys batches in
  size <> length (concat batches) /\ (exists b, batches = [b] /\ nth 0 b 0%nat = nth 2 b 0%nat) /\ exists o, outs = [[o]] /\ nth 0 o 0%nat <> nth 2 o 0%nat.
Proof. exact (@distributed_refuted). Qed.
Print Assumptions C98_distributed_refuted.
Theorem C98_split : forall X O (d0 : O) (dx : X) d (b : list X) (outs : list (list O)), (0 < d)%nat -> Forall (fun o => length o = length b) outs ->
  ((length b mod d <> 0)%nat -> split_outputs d0 d (length b) outs = Err ValueError) /\
  ((length b mod d = 0)%nat -> exists parts, split_outputs d0 d (length b) outs = Ok parts /\ length parts = d /\
    forall i s r, (i < d)%nat -> (s < length outs)%nat -> (r < length b / d)%nat ->
      let j := (i * (length b / d) + r)%nat in
      nth r (nth s (nth i parts []) []) d0 = nth j (nth s outs []) d0 /\ nth r (nth i (device_rows d b) []) dx = nth j b dx).
Proof. exact (@split_outputs_spec). Qed.
Print Assumptions C98_split.
Example C98_case : sample_outputs (fun k => (10 * k)%nat) Nat.add [1; 2]%nat [[3; 4]; [5]]%nat = ([[[13; 14]; [23; 24]]; [[15]; [25]]], 3)%nat /\
  split_outputs 0%nat 2 4 [[1; 2; 3; 4]; [5; 6; 7; 8]]%nat = Ok [[[1; 2]; [5; 6]]; [[3; 4]; [7; 8]]]%nat.
Proof. exact toy_samples. Qed.
Open Scope R_scope.
Theorem C98_objective : forall n lls, lls <> [] -> calib_objective n lls = - log_average (map (dataset_scaled n) lls).
Proof. exact (@objective_meaning). Qed.
Print Assumptions C98_objective.
Theorem C98_outputs : forall outs j, outs <> [] -> ensemble_outputs_mean outs j = rtotal (map (fun o => nth j o 0) outs) / INR (length outs).
Proof. exact (@outputs_mean_spec). Qed.
Print Assumptions C98_outputs.
Theorem C98_objective_bounds : forall n lls, lls <> [] ->
  calib_objective n lls <= rtotal (map (fun ll => - dataset_scaled n ll) lls) / INR (length lls) /\
  forall lo hi, (forall ll, In ll lls -> lo <= dataset_scaled n ll <= hi) -> - hi <= calib_objective n lls <= - lo.
Proof. exact (@objective_bounds). Qed.
Print Assumptions C98_objective_bounds.
Theorem C98_objective_single : forall n ll, calib_objective n [ll] = - dataset_scaled n ll.
Proof. exact (@objective_single). Qed.
Print Assumptions C98_objective_single.
Theorem C98_objective_pointwise_refuted : exists n lls, Forall (fun ll => length ll = n) lls /\ lls <> [] /\ - pointwise_log_average lls n < calib_objective n lls.
Proof. exact (@objective_pointwise_refuted). Qed.
Print Assumptions C98_objective_pointwise_refuted.
Theorem C98_devices : forall n b lls, (0 < b)%nat -> lls <> [] -> Forall (fun ll => length ll = b) lls ->
  device_objective n (map (fun ll => [ll]) lls) = calib_objective n [concat lls].
Proof. exact (@device_single). Qed.
Print Assumptions C98_devices.
Example C98_case_devices : Forall (fun ll => length ll = 2%nat) [[ln (1 / 2); ln (1 / 4)]; [ln (1 / 4); ln (1 / 2)]].
Proof. repeat constructor. Qed.
Theorem C98_devices_refuted : exists n (dev1 dev2 : list (list R)), length dev1 = length dev2 /\
  device_objective n [dev1; dev2] < calib_objective n (map (fun p => fst p ++ snd p) (combine dev1 dev2)).
Proof. exact (@device_refuted). Qed.
Print Assumptions C98_devices_refuted.
Example C98_case_objective : calib_objective 2 [[ln (1 / 2); ln (1 / 4)]; [ln (1 / 4); ln (1 / 2)]] = ln 8.
Proof. exact toy_joint. Qed.
