(** Further statements about whole fits of SNGP posteriors. *)
From Coq Require Import List Arith ZArith QArith Bool String Reals Lra Lia.
From Verif Require Import Lib QuantModel PredModel LikModel CalibModel TrainModel TrainSpec TrainProofs TrainProofs2 TrainProofs3 TrainProofs4 DescModel DescSpec DescProofs DescProofs2 DescProofs3 SwagProofs3 SngpModel SngpSpec GpFitModel GpFitSpec GpFitProofs GpFitProofs2 GpFitProofs3 GpFitCases.
Import ListNotations.
Open Scope list_scope.
Local Notation length := List.length.

Theorem sngp_predictions : forall (P E X K G OS : Type) (extract : P -> option K -> bool -> E -> X -> list vec * E) (dense : P -> vec -> list R) chol n ridge momentum factor e0
    (s : tstate P OS G (option (E * mat))) e prec batches x,
  (0 < ridge)%R -> (0 <= factor)%R -> match momentum with Some m => 0 < m <= 1 | None => True end%R -> (forall A, (exists L, cholesky_factor n A L) -> cholesky_factor n A (chol A)) ->
  mutable s = Some (e, prec) -> (forall i j, prec i j = epoch_precision ridge momentum batches i j) ->
  gp_rows n ridge factor (epoch_precision ridge momentum batches) (dense (params s)) (fst (extract (params s) None false e x))
    (sngp_outputs P E X K G OS extract dense chol n ridge momentum factor e0 s x).
Proof.
  intros P E X K G OS extract dense chol n ridge momentum factor e0 s e prec batches x Hr Hf Hm Hc HM HP. unfold sngp_outputs. rewrite HM, net_eval. cbn [fst snd].
  apply rows_shown; try assumption.
  - destruct momentum as [m|]; [|reflexivity]. apply SngpProofs.momentum_check. lra.
  - intros m ->. lra.
Qed.

Lemma map_combine_seq {A B} (f : A -> B) : forall l k, map (fun ib => f (snd ib)) (combine (seq k (length l)) l) = map f l.
Proof. induction l as [|a l IH]; intros k; [reflexivity|]. cbn [length seq combine map snd]. now rewrite IH. Qed.
Theorem sngp_fixed_features : forall (P E X T K G OS Pr U C : Type) (extract : P -> option K -> bool -> E -> X -> list vec * E) (dense : P -> vec -> list R) chol n ridge factor e0
    (predict : list (list R) -> Pr) (fold_in : nat -> K) (diff : (P -> Q) -> P -> G) gadd gdiv zeros_like clip_by (opt : G -> OS -> P -> P * OS) (log_prior : P -> Q)
    (calibrator : option (bool -> option C -> list (list R) -> list (list R) * C)) calib_mutable (log_prob : list (list R) -> list T -> list Q) n_train n_val
    (metrics : option (list (Pr -> option U -> list T -> Q))) training_metrics callbacks h monitor cfg bs vs (s s' : tstate P OS G (option (E * mat))) ms mvs (phi : X -> list vec),
  (forall f g p, (forall q, f q = g q) -> diff f p = diff g p) -> (forall a, h_accumulation h = Some a -> (a <= 1)%nat) ->
  (forall p key e x, fst (extract p (Some key) true e x) = phi x) ->
  sngp_fit P E X T K G OS Pr U ridge None predict fold_in diff gadd gdiv zeros_like clip_by opt callbacks h
    (map_setting P (E * mat) X T (list (list R)) K Pr U (gp_net P E X K extract dense chol n ridge None factor e0) log_prior calibrator calib_mutable log_prob n_train n_val metrics training_metrics)
    monitor cfg bs vs s = Ok (s', ms, mvs) ->
  ms <> [] -> exists e' prec', mutable s' = Some (e', prec') /\ forall i j, prec' i j = ((if (i =? j)%nat then ridge else 0) + gram (flat_map (fun b => phi (fst b)) bs) i j)%R.
Proof.
  intros P E X T K G OS Pr U C extract dense chol n ridge factor e0 predict fold_in diff gadd gdiv zeros_like clip_by opt log_prior calibrator calib_mutable log_prob n_train n_val
    metrics training_metrics callbacks h monitor cfg bs vs s s' ms mvs phi DE HA HF RUN NM.
  assert (Z : exists em prec, mutable s = Some (em, prec)).
  { unfold sngp_fit in RUN. cbn [check_momentum bind] in RUN. destruct (mutable s) as [[em prec]|]; [now exists em, prec|discriminate RUN]. }
  destruct Z as (em & prec & HM).
  destruct (sngp_fit_spec P E X T K G OS Pr U C extract dense chol n ridge None factor e0 predict fold_in diff gadd gdiv zeros_like clip_by opt log_prior calibrator calib_mutable log_prob n_train n_val
    metrics training_metrics callbacks h monitor cfg bs vs s s' em prec ms mvs DE HA HM RUN) as (_ & _ & _ & (em' & prec' & M1 & _ & M2) & _).
  exists em', prec'. split; [exact M1|]. destruct ms as [|m ms]; [congruence|]. cbn [length] in M2. intros i j. rewrite M2. unfold epoch_precision. cbv zeta.
  match goal with |- context[gram (List.concat ?l) i j] => replace l with (map (fun b : X * list T => phi (fst b)) bs) end.
  - rewrite <- flat_map_concat_map. destruct (i =? j)%nat; [now rewrite Rmult_1_r|now rewrite Rmult_0_r].
  - symmetry. rewrite <- (map_combine_seq (fun b => phi (fst b)) bs 0). apply map_ext. intros [a b]. cbn [fst snd]. destruct (descend _ _ _ _) as [[p o] m0]. apply HF.
Qed.

Theorem sngp_succeeds : forall (P E X T K G OS Pr U C : Type) (extract : P -> option K -> bool -> E -> X -> list vec * E) (dense : P -> vec -> list R) chol n ridge momentum factor e0
    (predict : list (list R) -> Pr) (fold_in : nat -> K) (diff : (P -> Q) -> P -> G) gadd gdiv zeros_like clip_by (opt : G -> OS -> P -> P * OS) (log_prior : P -> Q)
    (calibrator : option (bool -> option C -> list (list R) -> list (list R) * C)) calib_mutable (log_prob : list (list R) -> list T -> list Q) n_train n_val
    (metrics : option (list (Pr -> option U -> list T -> Q))) training_metrics callbacks h monitor cfg bs vs (s : tstate P OS G (option (E * mat))),
  (forall f g p, (forall q, f q = g q) -> diff f p = diff g p) -> (forall a, h_accumulation h = Some a -> (a <= 1)%nat) ->
  let run := sngp_fit P E X T K G OS Pr U ridge momentum predict fold_in diff gadd gdiv zeros_like clip_by opt callbacks h
    (map_setting P (E * mat) X T (list (list R)) K Pr U (gp_net P E X K extract dense chol n ridge momentum factor e0) log_prior calibrator calib_mutable log_prob n_train n_val metrics training_metrics)
    monitor cfg bs vs s in
  (mutable s = None \/ (exists m, momentum = Some m /\ (m < 0 \/ 1 < m)%R) -> run = Err ValueError)
  /\ (mutable s <> None -> (forall m, momentum = Some m -> (0 <= m <= 1)%R) ->
      bs <> [] -> (forall v, vs = Some v -> v <> []) -> (is_active (stop_config cfg) = true -> forall row, monitor row <> None) -> exists res, run = Ok res).
Proof.
  intros P E X T K G OS Pr U C extract dense chol n ridge momentum factor e0 predict fold_in diff gadd gdiv zeros_like clip_by opt log_prior calibrator calib_mutable log_prob n_train n_val
    metrics training_metrics callbacks h monitor cfg bs vs s DE HA run. split.
  - intros [H|(m & -> & H)]; unfold run, sngp_fit.
    + unfold check_momentum. destruct momentum as [m|]; [|cbn [bind]; now rewrite H]. destruct (Rlt_dec m 0); [reflexivity|]. destruct (Rlt_dec 1 m); [reflexivity|]. cbn [bind]. now rewrite H.
    + unfold check_momentum. destruct (Rlt_dec m 0); [reflexivity|]. destruct (Rlt_dec 1 m); [reflexivity|]. lra.
  - intros MN MM NB NV NM. unfold run, sngp_fit.
    assert (CM : check_momentum momentum = Ok tt) by (destruct momentum as [m|]; [apply SngpProofs.momentum_check, MM; reflexivity|reflexivity]). rewrite CM. cbn [bind].
    destruct (mutable s) as [[em prec]|] eqn:HM; [|congruence]. cbn [run_kwargs].
    set (k := or_zero 0%nat (h_accumulation h)) in *. set (norm := or_zero 0%Q (h_norm h)) in *.
    assert (K1 : (k <= 1)%nat) by (unfold k; destruct (h_accumulation h) as [a|] eqn:EA; cbn; [apply HA; reflexivity|lia]).
    set (cfg' := {| accumulation := k; n_epochs := n_epochs cfg; eval_every := eval_every cfg; save_dir := save_dir cfg; save_every := save_every cfg; stop_config := stop_config cfg |}) in *.
    set (tstep := fit_step _ _ _ _ _ _ _ _ _ _ _ _ _ _ _ _ _ _ _ _ _).
    set (vstep := fit_validation _ _ _ _ _ _ _ _ _ _ _ _).
    set (start := fun s : result (tstate P OS G (option (E * mat))) => fold_left _ _ s).
    set (stp := fun s : result (tstate P OS G (option (E * mat))) => match s with Ok s => step s | Err _ => 0%nat end).
    set (t0 := {| es := stopping0; gstep := 0; saved := [] |}).
    assert (KL : (accumulation cfg' <= length bs)%nat) by (destruct bs; [congruence|cbn; lia]).
    destruct (@train_succeeds _ _ _ stp tstep vstep start (fun s => s) (fun s => s) monitor cfg' bs vs t0 (Ok s) NB KL NV NM) as ([[[t' s'] ms] mvs] & TR).
    rewrite TR. cbn [bind].
    destruct (@train_runs_epochs _ _ _ stp tstep vstep start (fun s => s) (fun s => s) monitor cfg' bs vs t0 (Ok s) _ _ ms mvs TR K1 (fun x => eq_refl)) as (_ & _ & A3 & _).
    assert (H0 : holds P E G OS s (params s, opt_state s, em) prec (step s)) by (split; [cbn [fst snd]; now rewrite HM|reflexivity]).
    destruct (times_holds P E X T K G OS Pr U C extract dense chol n ridge momentum factor e0 predict fold_in diff DE gadd gdiv zeros_like clip_by opt log_prior calibrator calib_mutable log_prob n_train n_val metrics training_metrics
     _ k norm K1 (fun g => eq_refl) callbacks bs s _ _ _ H0 (length ms)) as (s1 & T1 & _).
    assert (T2 : s' = Ok s1) by (rewrite A3; exact T1). rewrite T2. cbn [bind]. eexists. reflexivity.
Qed.

Theorem final_features_refuted : exists s' e' prec' ms mvs,
  g_fit None None (g_cfg 1) g_batches None (g_state (Some (0%nat, fun _ _ => 7%R))) = Ok (s', ms, mvs) /\ mutable s' = Some (e', prec') /\ params s' = (0 + 1 + 1)%R
  /\ prec' 0%nat 0%nat = (1 + 2 * 2)%R
  /\ prec' 0%nat 0%nat <> ((if (0 =? 0)%nat then 1 else 0) + gram (flat_map (fun b => fst (g_extract (params s') None false e' (fst b))) g_batches) 0%nat 0%nat)%R.
Proof.
  do 5 eexists. split; [reflexivity|]. cbn [mutable params]. split; [reflexivity|]. split; [reflexivity|]. split.
  - unfold update_precision, batch_precision, initial_precision, eye. cbn. rewrite sqrt_1. ring.
  - unfold update_precision, batch_precision, initial_precision, eye. cbn. unfold gram. cbn. rewrite sqrt_1. lra.
Qed.
Lemma case_fit : exists s' e' prec' ms mvs,
  g_fit None (Some [5%R]) (g_cfg 2) g_batches None (g_state (Some (0%nat, fun _ _ => 7%R))) = Ok (s', ms, mvs) /\ mutable s' = Some (e', prec') /\ e' = 4%nat
  /\ params s' = (0 + 1 + 1 + 1 + 1)%R /\ prec' 0%nat 0%nat = 41%R /\ prec' 0%nat 1%nat = 40%R.
Proof.
  do 5 eexists. split; [reflexivity|]. cbn [mutable params]. split; [reflexivity|]. split; [reflexivity|]. split; [reflexivity|].
  unfold update_precision, batch_precision, initial_precision, eye. cbn. rewrite sqrt_1. split; ring.
Qed.
Lemma case_momentum : exists s' e' prec' ms mvs,
  g_fit (Some (1/2)%R) None (g_cfg 1) g_batches None (g_state (Some (0%nat, fun _ _ => 7%R))) = Ok (s', ms, mvs) /\ mutable s' = Some (e', prec')
  /\ prec' 0%nat 0%nat = (9/4)%R /\ prec' 0%nat 1%nat = 2%R.
Proof.
  assert (CM : check_momentum (Some (1/2)%R) = Ok tt) by (apply SngpProofs.momentum_check; lra).
  unfold g_fit, sngp_fit. rewrite CM.
  do 5 eexists. split; [reflexivity|]. cbn [mutable params]. split; [reflexivity|].
  unfold update_precision, batch_precision, initial_precision, eye. cbn. rewrite sqrt_1. split; field.
Qed.
Lemma case_rejected : g_fit None None (g_cfg 1) g_batches None (g_state None) = Err ValueError
  /\ g_fit (Some 2%R) None (g_cfg 1) g_batches None (g_state (Some (0%nat, fun _ _ => 7%R))) = Err ValueError.
Proof.
  split; [reflexivity|]. unfold g_fit, sngp_fit, check_momentum. destruct (Rlt_dec 2 0); [reflexivity|]. destruct (Rlt_dec 1 2); [reflexivity|lra].
Qed.
