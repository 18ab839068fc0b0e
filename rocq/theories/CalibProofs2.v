(** Proofs: losses, predictions and flows of calibration. *)
From Coq Require Import List Arith ZArith QArith Bool String Lia.
From Verif Require Import Lib QuantModel TrainModel LikModel CalibModel CalibSpec.
Import ListNotations.
Local Notation length := List.length.
Local Notation concat := List.concat.
Open Scope list_scope.

(** ---- output_calib_model/loss.py ---- *)
Lemma in_aux_spec s l : in_aux s l = true <-> In s l.
Proof. unfold in_aux. rewrite existsb_exists. split. intros [x [A B]]. apply String.eqb_eq in B. now subst. intros A. exists s. split; [exact A|apply String.eqb_refl]. Qed.
Lemma filter_nil_iff {A} (f : A -> bool) l : length (filter f l) = 0%nat <-> forall x, In x l -> f x = false.
Proof.
  induction l as [|a l IH]; cbn. split; [intros _ x []|reflexivity].
  destruct (f a) eqn:E; cbn. split; [discriminate|]. intros H. specialize (H a (or_introl eq_refl)). congruence.
  rewrite IH. split. intros H x [<-|I]; auto. intros H x I. apply H. now right.
Qed.
Lemma known_filter names l : ((length (filter (fun s => negb (in_aux s names)) l) =? 0)%nat = true <-> known_aux names l).
Proof.
  rewrite Nat.eqb_eq, filter_nil_iff. unfold known_aux. split; intros H s I; specialize (H s I).
  apply negb_false_iff in H. now apply in_aux_spec. apply negb_false_iff. now apply in_aux_spec.
Qed.
Theorem oc_loss_value :
  forall P M O T (f : P -> bool -> option M -> O -> O * M) (loss_fn : O -> T -> Q) params targets outputs return_aux,
  known_aux ["outputs"; "mutable"]%string return_aux ->
  let calibrated := fst (f params (in_aux "mutable" return_aux) None outputs) in
  exists aux, oc_loss (Some f) loss_fn params targets outputs (Some None) return_aux = Ok (loss_fn calibrated targets, aux) /\
  (return_aux = [] <-> aux = None) /\
  forall a, aux = Some a ->
    (oc_outputs a = Some calibrated \/ oc_outputs a = None) /\ (In "outputs"%string return_aux <-> oc_outputs a = Some calibrated) /\
    (oc_mutable_aux a = Some None \/ oc_mutable_aux a = None) /\ (In "mutable"%string return_aux <-> oc_mutable_aux a = Some None).
Proof.
  intros P M O T f loss_fn params targets outputs ra K calibrated. unfold oc_loss. apply known_filter in K. rewrite K. cbn [negb manager_apply bind].
  eexists. split; [reflexivity|]. split.
  - destruct ra; cbn; split; congruence.
  - intros a H. destruct (length ra =? 0)%nat; [discriminate|]. injection H as <-. cbn [oc_outputs oc_mutable_aux].
    rewrite <- !in_aux_spec. unfold calibrated. destruct (in_aux "outputs" ra), (in_aux "mutable" ra); cbn; intuition congruence.
Qed.
Theorem oc_loss_identity :
  forall P M O T (loss_fn : O -> T -> Q) (params : P) targets outputs return_aux,
  known_aux ["outputs"; "mutable"]%string return_aux ->
  exists aux, oc_loss (M := M) None loss_fn params targets outputs (Some None) return_aux = Ok (loss_fn outputs targets, aux).
Proof. intros P M O T loss_fn params targets outputs ra K. unfold oc_loss. apply known_filter in K. rewrite K. cbn. eexists. reflexivity. Qed.
Theorem oc_loss_rejects :
  forall P M O T (cal : option (P -> bool -> option M -> O -> O * M)) (loss_fn : O -> T -> Q) params targets outputs mutable return_aux,
  (~ known_aux ["outputs"; "mutable"]%string return_aux \/ mutable = None) -> oc_loss cal loss_fn params targets outputs mutable return_aux = Err TypeError.
Proof.
  intros P M O T cal loss_fn params targets outputs mutable ra H. unfold oc_loss. destruct (length (filter _ ra) =? 0)%nat eqn:E; [|reflexivity]. cbn [negb].
  destruct H as [H| ->]; [|reflexivity]. exfalso. apply H. now apply known_filter.
Qed.
(** a calibrator with mutable variables works for one step only *)
Theorem oc_second_step :
  forall P M O T (f : P -> bool -> option M -> O -> O * M) (loss_fn : O -> T -> Q) params targets outputs m,
  exists a w, oc_loss (Some f) loss_fn params targets outputs (Some (Some (Frozen m))) ["outputs"; "mutable"]%string =
    Ok (loss_fn (fst (f params true (Some m) outputs)) targets, Some a) /\ oc_mutable_aux a = Some (Some w) /\
  (forall params' targets' outputs' return_aux, known_aux ["outputs"; "mutable"]%string return_aux ->
     oc_loss (Some f) loss_fn params' targets' outputs' (Some (Some w)) return_aux = Err AttributeError) /\
  (forall R (layer : O -> R) params' outputs', oc_method (Some f) layer (Some {| oc_params := params'; oc_mutable := Some w |}) true outputs' = Err AttributeError).
Proof.
  intros P M O T f loss_fn params targets outputs m. eexists. exists (Wrapped (snd (f params true (Some m) outputs))). split; [reflexivity|]. split; [reflexivity|]. split.
  - intros params' targets' outputs' ra K. unfold oc_loss. apply known_filter in K. rewrite K. reflexivity.
  - reflexivity.
Qed.
(** evaluation never changes the variables and uses the calibrator in evaluation mode *)
Theorem oc_method_spec :
  forall P M O R (f : P -> bool -> option M -> O -> O * M) (layer : O -> R) state outputs,
  (forall cal st, oc_method (P := P) (M := M) cal layer st false outputs = Ok (layer outputs)) /\
  (forall cal, oc_method (P := P) (M := M) cal layer None true outputs = Err ValueError) /\
  (oc_method None layer (Some state) true outputs = Ok (layer outputs)) /\
  (oc_mutable state = None -> oc_method (Some f) layer (Some state) true outputs = Ok (layer (fst (f (oc_params state) false None outputs)))) /\
  (forall m, oc_mutable state = Some (Frozen m) -> oc_method (Some f) layer (Some state) true outputs = Ok (layer (fst (f (oc_params state) false (Some m) outputs)))).
Proof.
  intros P M O R f layer [p mu] outputs. repeat split; try reflexivity; intros; cbn in *; subst; reflexivity.
Qed.

(** ---- calib_model/loss.py ---- *)
Theorem cm_loss_value :
  forall X O M T (net : bool -> option M -> X -> O * M) (loss_fn : O -> T -> Q) x targets return_aux train,
  known_aux ["outputs"; "calib_mutable"]%string return_aux ->
  let o := fst (net train None x) in
  exists aux, cm_loss (fun tr m => class_apply net tr m x) loss_fn targets None return_aux train None = Ok (loss_fn o targets, aux) /\
    (In "outputs"%string return_aux -> aux_outputs aux = Some o) /\ aux_mutable aux = None.
Proof.
  intros X O M T net loss_fn x targets ra train K o. unfold cm_loss, lik_checks.
  assert (NM : in_aux "mutable" ra = false). { destruct (in_aux "mutable" ra) eqn:E; [|reflexivity]. apply in_aux_spec, K in E. cbn in E. intuition discriminate. }
  assert (SUP : (length (filter (fun s => negb (supported s)) ra) =? 0)%nat = true). { apply known_filter. intros s I. apply K in I. cbn in *. tauto. }
  rewrite SUP, NM. unfold class_apply. rewrite !andb_false_r. cbn.
  eexists. split; [reflexivity|]. cbn [aux_outputs aux_mutable]. split; [|reflexivity]. intros I. apply in_aux_spec in I. now rewrite I.
Qed.
Theorem cm_loss_mutable_fails :
  forall X O M T (net : bool -> option M -> X -> O * M) (loss_fn : O -> T -> Q) x targets m,
  (forall return_aux, exists e, cm_loss (fun tr mu => class_apply net tr mu x) loss_fn targets (Some m) return_aux true None = Err e) /\
  (forall return_aux, known_aux ["outputs"; "calib_mutable"]%string return_aux ->
     exists aux, cm_loss (fun tr mu => class_apply net tr mu x) loss_fn targets (Some m) return_aux false None = Ok (loss_fn (fst (net false (Some m) x)) targets, aux)).
Proof.
  intros X O M T net loss_fn x targets m. split.
  - intros ra. unfold cm_loss, lik_checks. destruct (negb _); [eexists; reflexivity|]. cbn [andb negb]. rewrite !andb_false_r. cbn [andb]. rewrite !andb_true_r. destruct (in_aux "mutable" ra); cbn; eexists; reflexivity.
  - intros ra K. unfold cm_loss, lik_checks.
    assert (NM : in_aux "mutable" ra = false). { destruct (in_aux "mutable" ra) eqn:E; [|reflexivity]. apply in_aux_spec, K in E. cbn in E. intuition discriminate. }
    assert (SUP : (length (filter (fun s => negb (supported s)) ra) =? 0)%nat = true). { apply known_filter. intros s I. apply K in I. cbn in *. tauto. }
    rewrite SUP, NM. cbn. eexists. reflexivity.
Qed.
Theorem cm_loss_outputs_fail :
  forall O M T (apply : bool -> option M -> pyout O M) (loss_fn : O -> T -> Q) targets mutable return_aux train o,
  exists e, cm_loss apply loss_fn targets mutable return_aux train (Some o) = Err e.
Proof. intros. unfold cm_loss. destruct (lik_checks _ _ _ _); cbn; eexists; reflexivity. Qed.
(** which calibration data pass the dimension checks *)
Theorem class_dim_spec : forall size width labels,
  (class_dim_check size width (distinct_labels labels) = Ok tt <-> (0 < size)%nat /\ width = distinct_labels labels) /\
  (class_dim_check size width (distinct_labels labels) = Ok tt \/ class_dim_check size width (distinct_labels labels) = Err ValueError).
Proof.
  intros size width labels. unfold class_dim_check. destruct (Nat.eqb_spec size 0).
  - split; [|now right]. split; [discriminate|lia].
  - destruct (Nat.eqb_spec width (distinct_labels labels)); (split; [|auto]). split; [|reflexivity]. intros _. split; [lia|assumption]. split; [discriminate|lia].
Qed.
Theorem distinct_labels_spec : forall labels ls, NoDup ls -> (forall y, In y ls <-> In y labels) -> distinct_labels labels = length ls.
Proof.
  intros labels ls N H. unfold distinct_labels. apply Nat.le_antisymm.
  - apply NoDup_incl_length; [apply NoDup_nodup|]. intros y I. apply nodup_In in I. now apply H.
  - apply NoDup_incl_length; [exact N|]. intros y I. apply nodup_In. now apply H.
Qed.
Theorem oc_class_spec : forall width labels ls, NoDup ls -> (forall y, In y ls <-> In y labels) ->
  (oc_class_check width labels = Ok tt <-> width = length ls) /\
  (oc_class_check width labels = Ok tt \/ oc_class_check width labels = Err ValueError).
Proof.
  intros width labels ls N H. unfold oc_class_check. rewrite (distinct_labels_spec labels ls N H).
  destruct (Nat.eqb_spec width (length ls)); (split; [|auto]); split; intro; try reflexivity; try discriminate; congruence.
Qed.
Theorem reg_dim_spec : forall first width,
  (reg_dim_check first width = Ok tt <-> exists d, first = Some d /\ (0 < d)%nat /\ width = (2 * d)%nat) /\
  (reg_dim_check first width = Ok tt \/ reg_dim_check first width = Err ValueError).
Proof.
  intros [[|d]|] width; unfold reg_dim_check.
  - split; [|now right]. split; [discriminate|]. intros [d [E [L _]]]. injection E as <-. lia.
  - destruct (Nat.eqb_spec width (2 * Datatypes.S d)); (split; [|auto]).
    + split; [|reflexivity]. intros _. exists (Datatypes.S d). split; [reflexivity|]. split; [lia|assumption].
    + split; [discriminate|]. intros [d' [E [_ W]]]. injection E as <-. lia.
  - split; [|now right]. split; [discriminate|]. intros [d [E _]]. discriminate.
Qed.

(** ---- flows ---- *)
Theorem oc_calibrate_spec :
  forall St V Status (vo vt : option V) (restored init : result St) restore (train_fn : St -> option (V * V) -> result (St * Status)),
  (oc_calibrate vo vt restored init restore train_fn = Err ValueError \/ (vo = None <-> vt = None)) /\
  ((vo = None /\ vt <> None \/ vo <> None /\ vt = None) -> oc_calibrate vo vt restored init restore train_fn = Err ValueError) /\
  forall s status, oc_calibrate vo vt restored init restore train_fn = Ok (s, status) ->
    exists s0, (if restore then restored else init) = Ok s0 /\ (vo = None <-> vt = None) /\
      (vo = None -> train_fn s0 None = Ok (s, status)) /\ (forall o t, vo = Some o -> vt = Some t -> train_fn s0 (Some (t, o)) = Ok (s, status)).
Proof.
  intros St V Status vo vt restored init restore train_fn. unfold oc_calibrate. split; [|split].
  - destruct vo, vt; auto; right; split; congruence.
  - intros [[-> H]|[H ->]]; [destruct vt|destruct vo]; congruence.
  - intros s status H. destruct vo as [o|], vt as [t|]; try discriminate.
    + destruct (if restore then restored else init) as [s0|]; [|discriminate]. cbn in H. exists s0. split; [reflexivity|]. split; [split; discriminate|]. split; [discriminate|]. intros o' t' E1 E2. now injection E1 as <-; injection E2 as <-.
    + destruct (if restore then restored else init) as [s0|]; [|discriminate]. cbn in H. exists s0. split; [reflexivity|]. split; [tauto|]. split; [auto|discriminate].
Qed.
Theorem cm_calibrate_spec :
  forall St Status dump dir (restored init : result St) restore from_current current (train_fn : St -> result (St * Status)),
  (dump = true -> dir = false -> cm_calibrate dump dir restored init restore from_current current train_fn = Err ValueError) /\
  (restore = false -> from_current = true -> current = None -> exists e, cm_calibrate dump dir restored init restore from_current current train_fn = Err e) /\
  forall s status, cm_calibrate dump dir restored init restore from_current current train_fn = Ok (s, status) ->
    (dump = true -> dir = true) /\
    exists s0, train_fn s0 = Ok (s, status) /\
      (restore = true -> restored = Ok s0) /\ (restore = false -> from_current = true -> current = Some s0) /\ (restore = false -> from_current = false -> init = Ok s0).
Proof.
  intros St Status dump dir restored init restore fc current train_fn. unfold cm_calibrate. split; [|split].
  - now intros -> ->.
  - intros -> -> ->. destruct (dump && negb dir); eexists; reflexivity.
  - intros s status H. destruct (dump && negb dir) eqn:D; [discriminate|]. split. { intros ->. now destruct dir. }
    destruct restore.
    + destruct restored as [s0|]; [|discriminate]. exists s0. split; [exact H|]. repeat split; congruence.
    + destruct fc.
      * destruct current as [s0|]; [|discriminate]. exists s0. split; [exact H|]. repeat split; congruence.
      * destruct init as [s0|]; [|discriminate]. exists s0. split; [exact H|]. repeat split; congruence.
Qed.
Theorem pm_calibrate_spec :
  forall A P M Status (calib_ok : result unit) val_ok has (restored : option (result (P * M))) (train_fn : post_state A P M -> P * M -> result (P * M * Status)) dump dir state,
  (forall e, calib_ok = Err e -> pm_calibrate calib_ok val_ok has restored train_fn dump dir state = Err e) /\
  (calib_ok = Ok tt -> val_ok = None \/ val_ok = Some (Ok tt) -> has = true -> state = None -> pm_calibrate calib_ok val_ok has restored train_fn dump dir state = Err ValueError) /\
  forall status st dumped, pm_calibrate calib_ok val_ok has restored train_fn dump dir state = Ok (status, st, dumped) ->
    calib_ok = Ok tt /\ (forall r, val_ok = Some r -> r = Ok tt) /\
    (has = false -> status = None /\ st = state /\ dumped = false) /\
    (has = true -> exists ps p0 m0 p m v, state = Some ps /\
        (restored = None -> p0 = ps_calib_params ps /\ m0 = ps_calib_mutable ps) /\ (forall r, restored = Some r -> r = Ok (p0, m0)) /\
        train_fn ps (p0, m0) = Ok (p, m, v) /\ status = Some v /\
        st = Some {| ps_rest := ps_rest ps; ps_calib_params := p; ps_calib_mutable := m |} /\ (dumped = true <-> dump = true /\ dir = true)).
Proof.
  intros A P M Status calib_ok val_ok has restored train_fn dump dir state. unfold pm_calibrate. split; [|split].
  - now intros e ->.
  - intros -> V -> ->. now destruct V as [-> | ->].
  - intros status st dumped H. destruct calib_ok as [[]|]; [|discriminate]. cbn [bind] in H. split; [reflexivity|].
    assert (V : match val_ok with Some r => r | None => Ok tt end = Ok tt) by (destruct val_ok as [[[]|]|]; cbn in *; congruence). rewrite V in H. cbn [bind] in H.
    split. { intros r ->. exact V. } destruct has; cbn [negb] in H; (split; [intros Hh; try discriminate|intros Hh; try discriminate]).
    + destruct state as [ps|]; [|discriminate]. destruct (match restored with Some r => r | None => Ok (ps_calib_params ps, ps_calib_mutable ps) end) as [[p0 m0]|] eqn:R; [|discriminate]. cbn [bind] in H.
      destruct (train_fn ps (p0, m0)) as [[[p m] v]|] eqn:T; [|discriminate]. cbn [bind] in H. injection H as <- <- <-. exists ps, p0, m0, p, m, v. split; [reflexivity|].
      split. { intros ->. now injection R as <- <-. } split. { now intros r ->. } split; [exact T|]. split; [reflexivity|]. split; [reflexivity|]. apply andb_true_iff.
    + now injection H as <- <- <-.
Qed.
Theorem pm_train_spec :
  forall F Sp C (fit : result (F * Sp)) nb (calibrate : Sp -> result (option C * Sp)),
  (forall e, fit = Err e -> pm_train fit nb calibrate = Err e) /\
  forall fs s, fit = Ok (fs, s) ->
    ((nb = None \/ nb = Some 0%nat) -> pm_train fit nb calibrate = Ok (fs, None, s)) /\
    (forall n, nb = Some n -> (0 < n)%nat -> (forall cs s', calibrate s = Ok (cs, s') -> pm_train fit nb calibrate = Ok (fs, cs, s')) /\ (forall e, calibrate s = Err e -> pm_train fit nb calibrate = Err e)).
Proof.
  intros F Sp C fit nb calibrate. unfold pm_train. split. { now intros e ->. } intros fs s ->. cbn [bind]. split. { now intros [-> | ->]. }
  intros n -> L. destruct n; [lia|]. split. { now intros cs s' ->. } now intros e ->.
Qed.

(** ---- utils/data.py ---- *)
Theorem not_random_spec :
  forall X (eqb : X -> X -> bool), (forall x y, eqb x y = true <-> x = y) -> forall max_iter (first second : list X),
  (check_not_random eqb max_iter first second = Err ValueError <->
     exists i x y, (i <= max_iter)%nat /\ nth_error first i = Some x /\ nth_error second i = Some y /\ x <> y) /\
  (check_not_random eqb max_iter first second = Ok tt \/ check_not_random eqb max_iter first second = Err ValueError).
Proof.
  intros X eqb E max_iter first second. unfold check_not_random. destruct (existsb _ _) eqn:D; (split; [|auto]); split; try discriminate; try reflexivity.
  - intros _. apply existsb_exists in D. destruct D as [[x y] [I N]]. cbn in N. apply negb_true_iff in N.
    apply In_nth_error in I. destruct I as [i I].
    assert (LI : (i < Datatypes.S max_iter)%nat). { assert (i < length (firstn (Datatypes.S max_iter) (combine first second)))%nat by (apply nth_error_Some; congruence). rewrite firstn_length in H. lia. }
    assert (I2 : nth_error (combine first second) i = Some (x, y)). { rewrite <- I. clear - LI. revert i LI. generalize (Datatypes.S max_iter) as k. generalize (combine first second) as l. induction l as [|a l IH]; intros k i L. now destruct k, i. destruct k; [lia|]. destruct i; cbn; [reflexivity|]. apply IH. lia. }
    exists i, x, y. split; [lia|]. clear - I2 N E. revert first second I2. induction i as [|i IH]; intros [|a f] [|b g] I2; try discriminate.
    + cbn in *. injection I2 as -> ->. repeat split. intros ->. assert (eqb y y = true) by now apply E. congruence.
    + cbn in *. apply IH. exact I2.
  - intros [i [x [y [L [A [B N]]]]]]. exfalso.
    assert (I : In (x, y) (firstn (Datatypes.S max_iter) (combine first second))).
    { clear - L A B. assert (L' : (i < Datatypes.S max_iter)%nat) by lia. clear L. revert i first second A B L'. generalize (Datatypes.S max_iter) as k. induction k as [|k IH]; intros i first second A B L; [lia|]. destruct i, first as [|a f], second as [|b g]; try discriminate; cbn in *. left. congruence. right. apply (IH i); auto. lia. }
    assert (X1 : existsb (fun p => negb (eqb (fst p) (snd p))) (firstn (Datatypes.S max_iter) (combine first second)) = true).
    { apply existsb_exists. exists (x, y). split; [exact I|]. cbn. apply negb_true_iff. destruct (eqb x y) eqn:Q; [|reflexivity]. apply E in Q. contradiction. }
    congruence.
Qed.
Theorem not_random_refuted : exists (first second : list nat), length first = length second /\ first <> second /\ check_not_random Nat.eqb 3 first second = Ok tt.
Proof. exists [0; 0; 0; 0; 1]%nat, [0; 0; 0; 0; 2]%nat. repeat split. discriminate. Qed.
