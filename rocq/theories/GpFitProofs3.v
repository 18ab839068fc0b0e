(** Statements about whole fits of SNGP posteriors. *)
From Coq Require Import List Arith ZArith QArith Bool String Reals Lia.
From Verif Require Import Lib QuantModel PredModel LikModel CalibModel TrainModel TrainSpec TrainProofs TrainProofs2 TrainProofs3 TrainProofs4 DescModel DescSpec DescProofs DescProofs2 DescProofs3 SwagProofs3 SngpModel SngpSpec GpFitModel GpFitSpec GpFitProofs GpFitProofs2.
Import ListNotations.
Open Scope list_scope.
Local Notation length := List.length.

Lemma clip_of (G : Type) (clip_by : Q -> G -> G) (h : hyper) (g : G) :
  (if Qlt_bool 0 (or_zero 0%Q (h_norm h)) then clip_by (or_zero 0%Q (h_norm h)) else fun g => g) g
  = match h_norm h with Some b => if Qlt_le_dec 0 b then clip_by b g else g | None => g end.
Proof.
  destruct (h_norm h) as [b|]; cbn [or_zero]; [|reflexivity]. unfold Qlt_bool.
  destruct (Qlt_le_dec 0 b) as [L|L]; destruct (Qle_bool b 0) eqn:E; cbn [negb]; try reflexivity.
  - apply Qle_bool_iff in E. exfalso. apply (Qlt_not_le _ _ L E).
  - exfalso. assert (Qle_bool b 0 = true) by (apply Qle_bool_iff; exact L). congruence.
Qed.

Theorem sngp_fit_spec : forall (P E X T K G OS Pr U C : Type) (extract : P -> option K -> bool -> E -> X -> list vec * E) (dense : P -> vec -> list R) chol n ridge momentum factor e0
    (predict : list (list R) -> Pr) (fold_in : nat -> K) (diff : (P -> Q) -> P -> G) gadd gdiv zeros_like clip_by (opt : G -> OS -> P -> P * OS) (log_prior : P -> Q)
    (calibrator : option (bool -> option C -> list (list R) -> list (list R) * C)) calib_mutable (log_prob : list (list R) -> list T -> list Q) n_train n_val
    (metrics : option (list (Pr -> option U -> list T -> Q))) training_metrics callbacks h monitor cfg bs vs (s s' : tstate P OS G (option (E * mat))) em prec ms mvs,
  (forall f g p, (forall q, f q = g q) -> diff f p = diff g p) -> (forall a, h_accumulation h = Some a -> (a <= 1)%nat) -> mutable s = Some (em, prec) ->
  sngp_fit P E X T K G OS Pr U ridge momentum predict fold_in diff gadd gdiv zeros_like clip_by opt callbacks h
    (map_setting P (E * mat) X T (list (list R)) K Pr U (gp_net P E X K extract dense chol n ridge momentum factor e0) log_prior calibrator calib_mutable log_prob n_train n_val metrics training_metrics)
    monitor cfg bs vs s = Ok (s', ms, mvs) ->
  let cal := fun o => match calibrator with None => o | Some f => fst (f false (match calib_mutable with Some c => c | None => None end) o) end in
  let objective := fun N o (ys : list T) p => (- (total_of (log_prob o ys) * (inject_Z (Z.of_nat N) / inject_Z (Z.of_nat (length ys))) + log_prior p))%Q in
  let trained := fun key p e x => cal (map (dense p) (fst (extract p (Some key) true e x))) in
  let clip := fun g => match h_norm h with Some b => if Qlt_le_dec 0 b then clip_by b g else g | None => g end in
  let update := gradient_update diff clip opt fold_in (fun key p e (b : X * list T) => objective n_train (trained key p e (fst b)) (snd b) p)
    (fun key p e b => snd (extract p (Some key) true e (fst b))) in
  let at_ := fun e i => descend update (step s) (before e i bs) (params s, opt_state s, em) in
  let key := fun e i => fold_in (step s + e * length bs + i)%nat in
  let features := fun e => map (fun ib => let '(p, _, m) := at_ e (fst ib) in fst (extract p (Some (key e (fst ib))) true m (fst (snd ib)))) (combine (seq 0 (length bs)) bs) in
  (length ms <= n_epochs cfg)%nat /\ (is_active (stop_config cfg) = false -> length ms = n_epochs cfg)
  /\ step s' = (step s + length ms * length bs)%nat
  /\ (exists em' prec', mutable s' = Some (em', prec') /\ (params s', opt_state s', em') = at_ (length ms) 0%nat
        /\ match length ms with O => prec' = prec | S e => forall i j, prec' i j = epoch_precision ridge momentum (features e) i j end)
  /\ (forall e, (e < length ms)%nat ->
        is_mean_of (map (fun ib => let '(p, _, m) := at_ e (fst ib) in let o := trained (key e (fst ib)) p m (fst (snd ib)) in let ys := snd (snd ib) in
            objective n_train o ys p :: match metrics with Some fs => if training_metrics then map (fun f => f (predict o) None ys) fs else [] | None => [] end)
          (combine (seq 0 (length bs)) bs)) (nth e ms []))
  /\ match vs with
     | None => mvs = []
     | Some v => (0 < ridge)%R -> (0 <= factor)%R -> (forall m, momentum = Some m -> 0 < m)%R -> (forall A, (exists L, cholesky_factor n A L) -> cholesky_factor n A (chol A)) ->
         Forall2 (fun e row => let '(p, _, m) := at_ (S e) 0%nat in
           exists shown, Forall2 (fun b o => gp_rows n ridge factor (epoch_precision ridge momentum (features e)) (dense p) (fst (extract p None false m (fst b))) o) v shown
           /\ is_mean_of (map (fun bo => let o := cal (snd bo) in let ys := snd (fst bo) in
                objective n_val o ys p :: match metrics with Some fs => map (fun f => f (predict o) None ys) fs | None => [] end) (combine v shown)) row)
           (validation_epochs (eval_every cfg) (length ms)) mvs
     end.
Proof.
  intros P E X T K G OS Pr U C extract dense chol n ridge momentum factor e0 predict fold_in diff gadd gdiv zeros_like clip_by opt log_prior calibrator calib_mutable log_prob n_train n_val
    metrics training_metrics callbacks h monitor cfg bs vs s s' em prec ms mvs DE HA HM RUN cal objective trained clip update at_ key features.
  unfold sngp_fit in RUN. destruct (check_momentum momentum) as [[]|] eqn:CM; [|discriminate RUN]. cbn [bind] in RUN. rewrite HM in RUN. cbn [run_kwargs] in RUN.
  set (k := or_zero 0%nat (h_accumulation h)) in *. set (norm := or_zero 0%Q (h_norm h)) in *.
  assert (K1 : (k <= 1)%nat) by (unfold k; destruct (h_accumulation h) as [a|] eqn:EA; cbn; [apply HA; reflexivity|lia]).
  set (cfg' := {| accumulation := k; n_epochs := n_epochs cfg; eval_every := eval_every cfg; save_dir := save_dir cfg; save_every := save_every cfg; stop_config := stop_config cfg |}) in *.
  set (tstep := fit_step _ _ _ _ _ _ _ _ _ _ _ _ _ _ _ _ _ _ _ _ _) in RUN.
  set (vstep := fit_validation _ _ _ _ _ _ _ _ _ _ _ _) in RUN.
  set (start := fun s => fold_left _ _ s) in RUN.
  destruct (train _ tstep vstep start _ _ monitor cfg' bs vs _ (Ok s)) as [[[[t1 s1] ms1] mvs1]|] eqn:ET; [|discriminate RUN].
  cbn [bind] in RUN. destruct s1 as [s2|]; [|discriminate RUN]. cbn [bind] in RUN. injection RUN as Z1 Z2 Z3. subst s2 ms1 mvs1.
  destruct (@train_runs_epochs _ _ _ _ tstep vstep start (fun s => s) (fun s => s) monitor cfg' bs vs _ (Ok s) _ _ ms mvs ET K1 (fun x => eq_refl)) as (A1 & A2 & A3 & A4 & A5).
  assert (CE : forall g, (if Qlt_bool 0 norm then clip_by norm else fun g => g) g = clip g) by (intros g; apply clip_of).
  assert (H0 : holds P E G OS s (params s, opt_state s, em) prec (step s)) by (split; [cbn [fst snd]; now rewrite HM|reflexivity]).
  assert (BZ : forall e, at_ e 0%nat = descend update (step s) (passes e bs) (params s, opt_state s, em)) by (intros e; unfold at_, before; cbn [firstn]; now rewrite app_nil_r).
  pose proof (times_holds P E X T K G OS Pr U C extract dense chol n ridge momentum factor e0 predict fold_in diff DE gadd gdiv zeros_like clip_by opt log_prior calibrator calib_mutable log_prob n_train n_val metrics training_metrics
     clip k norm K1 CE callbacks bs s _ _ _ H0) as TH.
  assert (FE : forall e, GpFitProofs2.along update (feats P E X T K OS extract fold_in) (step s + e * length bs) bs (descend update (step s) (passes e bs) (params s, opt_state s, em)) = features e).
  { intros e. rewrite along_map. unfold features. apply map_ext. intros [i b]. cbn [fst snd]. unfold at_, before. rewrite descend_app, passes_length. unfold feats, key.
    destruct (descend update _ (firstn i bs) _) as [[p o] m]. reflexivity. }
  assert (PE : forall e i j, precision_of P E X T K G OS C extract dense ridge momentum fold_in diff opt log_prior calibrator calib_mutable log_prob n_train clip bs (step s) (params s, opt_state s, em) prec (S e) i j
     = epoch_precision ridge momentum (features e) i j).
  { intros e i j. cbn [precision_of]. rewrite <- precision_is. rewrite <- (FE e). reflexivity. }
  split; [exact A1|]. split; [exact A2|].
  destruct (TH (length ms)) as (s1 & T1 & HS & HJ). assert (T2 : Ok s' = Ok s1) by (rewrite A3; exact T1). injection T2 as T2. subst s1. split; [exact HJ|]. split.
  { do 2 eexists. split; [exact (f_equal snd HS)|]. split.
    - rewrite BZ. change (params s', opt_state s') with (fst (params s', opt_state s', mutable s')). rewrite HS. cbn [fst]. symmetry. apply surjective_pairing.
    - destruct (length ms) as [|e]; [reflexivity|]. intros i j. apply PE. }
  split.
  - intros e He. specialize (A4 e He). revert A4. apply mean_rows_eq.
    etransitivity; [exact (pass_reports P E X T K G OS Pr U C extract dense chol n ridge momentum factor e0 predict fold_in diff DE gadd gdiv zeros_like clip_by opt log_prior calibrator calib_mutable log_prob n_train n_val metrics training_metrics
       clip k norm K1 CE callbacks bs s _ _ _ e H0)|].
    rewrite along_map. apply map_ext. intros [i b]. cbn [fst snd]. unfold at_, before. rewrite descend_app, passes_length. unfold rep, key. fold update.
    change (upd P E X T K G OS C extract dense fold_in diff opt log_prior calibrator calib_mutable log_prob n_train clip) with update.
    destruct (descend update _ (firstn i bs) _) as [[p o] m]. reflexivity.
  - destruct vs as [v|]; [|exact A5]. intros Hr Hf Hm Hchol. change (eval_every cfg') with (eval_every cfg) in A5. revert A5. generalize (validation_epochs (eval_every cfg) (length ms)) as es. intros es A5.
    clear ET A1 A2 A3 A4 HS HJ T1. induction A5 as [|e row es l Y A5 IH]; [constructor|]. constructor; [|exact IH]. clear IH A5.
    destruct (TH (S e)) as (s1 & T1 & HS & HJ).
    assert (Y2 : is_mean_of (map (vstep (Ok s1)) v) row) by (revert Y; apply mean_rows_eq; f_equal; f_equal; exact T1).
    rewrite BZ. change (upd P E X T K G OS C extract dense fold_in diff opt log_prior calibrator calib_mutable log_prob n_train clip) with update in HS.
    set (pr := precision_of _ _ _ _ _ _ _ _ _ _ _ _ _ _ _ _ _ _ _ _ _ _ _ _ _ _) in HS. assert (PR : forall i j, pr i j = epoch_precision ridge momentum (features e) i j) by (intros i j; apply PE).
    clearbody pr. destruct (descend update _ (passes (S e) bs) _) as [[p o] m]. cbn [fst snd] in HS. injection HS as E1 E2 E3.
    exists (map (fun b => fst (gp_net P E X K extract dense chol n ridge momentum factor e0 p None false (Some (m, pr)) (fst b))) v). split.
    + clear Y Y2. induction v as [|b v IHv]; [constructor|]. cbn [map]. constructor; [|exact IHv]. rewrite net_eval. cbn [fst snd].
      apply rows_shown; assumption.
    + revert Y2. apply mean_rows_eq. clear Y. induction v as [|b v IHv]; [reflexivity|]. cbn [map combine fst snd]. rewrite IHv. f_equal.
      unfold vstep, fit_validation. rewrite E1, E3. cbn [s_loss s_n_val map_setting s_metrics s_val_uncertainty]. rewrite map_validation.
      unfold report. cbn [an_loss an_outputs option_map]. destruct metrics; reflexivity.
Qed.
