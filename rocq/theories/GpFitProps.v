(** Properties of whole fits of SNGP posteriors (C161). *)
From Coq Require Import List Arith ZArith QArith Bool String Reals.
From Verif Require Import Lib QuantModel TrainModel TrainSpec TrainProofs4 DescModel DescSpec SngpModel SngpSpec GpFitModel GpFitSpec GpFitProofs GpFitProofs3 GpFitProofs4 GpFitCases.
From Verif Require Import Lit LapModel LapSpec PredSpec TempSpec.
Import ListNotations.
Open Scope list_scope.
Local Notation length := List.length.

(** C161: a fit of SNGP is gradient descent on minus the log joint probability of the unscaled logits; the precision
    matrix it ends with is that of the features of the last epoch, each at the parameters of its own update;
    validation sees logits scaled by the variances of the epoch just finished *)
Theorem C161_fit : forall (P E X T K G OS Pr U C : Type) (extract : P -> option K -> bool -> E -> X -> list vec * E) (dense : P -> vec -> list R) chol n ridge momentum factor e0
    (predict : list (list R) -> Pr) (fold_in : nat -> K) (diff : (P -> Q) -> P -> G) gadd gdiv zeros_like clip_by (opt : G -> OS -> P -> P * OS) (log_prior : P -> Q)
    (calibrator : option (bool -> option C -> list (list R) -> list (list R) * C)) calib_mutable (log_prob : list (list R) -> list T -> list Q) n_train n_val
    (metrics : option (list (Pr -> option U -> list T -> Q))) training_metrics callbacks h monitor cfg bs vs (s s' : tstate P OS G (option (E * mat))) em prec ms mvs,
  (forall f g p, (forall q, f q = g q) -> diff f p = diff g p) -> (forall a, h_accumulation h = Some a -> (a <= 1)%nat) -> mutable s = Some (em, prec) ->
  sngp_fit P E X T K G OS Pr U ridge momentum predict fold_in diff gadd gdiv zeros_like clip_by opt callbacks h
    (map_setting P (E * mat) X T (list (list R)) K Pr U (gp_net P E X K extract dense chol n ridge momentum factor e0) log_prior calibrator calib_mutable log_prob n_train n_val metrics training_metrics)
    monitor cfg bs vs s = Ok (s', ms, mvs) ->
  let cal := fun o => match calibrator with None => o | Some f => fst (f false (match calib_mutable with Some c => c | None => None end) o) end in
  let objective := fun N o (ys : list T) p => (- (total_of (log_prob o ys) * (inject_Z (Z.of_nat N) / inject_Z (Z.of_nat (length ys))) + log_prior p))%Q in
  let trained := fun key p e x => cal (map (dense p) (fst (extract p (Some key) true e x))) in
  let clip := fun g => match h_norm h with Some b => if Qlt_le_dec 0 b then clip_by b g else g | None => g end in
  let update := gradient_update diff clip opt fold_in (fun key p e (b : X * list T) => objective n_train (trained key p e (fst b)) (snd b) p)
    (fun key p e b => snd (extract p (Some key) true e (fst b))) in
  let at_ := fun e i => descend update (step s) (before e i bs) (params s, opt_state s, em) in
  let key := fun e i => fold_in (step s + e * length bs + i)%nat in
  let features := fun e => map (fun ib => let '(p, _, m) := at_ e (fst ib) in fst (extract p (Some (key e (fst ib))) true m (fst (snd ib)))) (combine (seq 0 (length bs)) bs) in
  (length ms <= n_epochs cfg)%nat /\ (is_active (stop_config cfg) = false -> length ms = n_epochs cfg)
  /\ step s' = (step s + length ms * length bs)%nat
  /\ (exists em' prec', mutable s' = Some (em', prec') /\ (params s', opt_state s', em') = at_ (length ms) 0%nat
        /\ match length ms with O => prec' = prec | S e => forall i j, prec' i j = epoch_precision ridge momentum (features e) i j end)
  /\ (forall e, (e < length ms)%nat ->
        is_mean_of (map (fun ib => let '(p, _, m) := at_ e (fst ib) in let o := trained (key e (fst ib)) p m (fst (snd ib)) in let ys := snd (snd ib) in
            objective n_train o ys p :: match metrics with Some fs => if training_metrics then map (fun f => f (predict o) None ys) fs else [] | None => [] end)
          (combine (seq 0 (length bs)) bs)) (nth e ms []))
  /\ match vs with
     | None => mvs = []
     | Some v => (0 < ridge)%R -> (0 <= factor)%R -> (forall m, momentum = Some m -> 0 < m)%R -> (forall A, (exists L, cholesky_factor n A L) -> cholesky_factor n A (chol A)) ->
         Forall2 (fun e row => let '(p, _, m) := at_ (S e) 0%nat in
           exists shown, Forall2 (fun b o => gp_rows n ridge factor (epoch_precision ridge momentum (features e)) (dense p) (fst (extract p None false m (fst b))) o) v shown
           /\ is_mean_of (map (fun bo => let o := cal (snd bo) in let ys := snd (fst bo) in
                objective n_val o ys p :: match metrics with Some fs => map (fun f => f (predict o) None ys) fs | None => [] end) (combine v shown)) row)
           (validation_epochs (eval_every cfg) (length ms)) mvs
     end.
Proof. exact (@sngp_fit_spec). Qed.
Print Assumptions C161_fit.

(** C161: the rows of the fitted posterior are logits divided by sqrt(1 + factor * variance) *)
Theorem C161_predictions : forall (P E X K G OS : Type) (extract : P -> option K -> bool -> E -> X -> list vec * E) (dense : P -> vec -> list R) chol n ridge momentum factor e0
    (s : tstate P OS G (option (E * mat))) e prec batches x,
  (0 < ridge)%R -> (0 <= factor)%R -> match momentum with Some m => 0 < m <= 1 | None => True end%R -> (forall A, (exists L, cholesky_factor n A L) -> cholesky_factor n A (chol A)) ->
  mutable s = Some (e, prec) -> (forall i j, prec i j = epoch_precision ridge momentum batches i j) ->
  gp_rows n ridge factor (epoch_precision ridge momentum batches) (dense (params s)) (fst (extract (params s) None false e x))
    (sngp_outputs P E X K G OS extract dense chol n ridge momentum factor e0 s x).
Proof. exact (@sngp_predictions). Qed.
Print Assumptions C161_predictions.

(** C161: without momentum the variance is at most the squared length of the features, which it equals away from
    the features of the last epoch, and is below the ridge penalty at those features *)
Theorem C161_variance : forall n ridge batches f v, (0 < ridge)%R -> gp_variance n ridge (epoch_precision ridge None batches) f v ->
  (0 <= v <= inner n f f)%R
  /\ ((forall g, In g (List.concat batches) -> inner n g f = 0%R) -> v = inner n f f)
  /\ (In f (List.concat batches) -> (v <= ridge * inner n f f / (ridge + inner n f f))%R /\ (v < ridge)%R).
Proof. exact (@variance_of_fit). Qed.
Print Assumptions C161_variance.
Example C161_case_variance : gp_variance 2 1 (epoch_precision 1 None [[fun i => match i with O => 1 | _ => 0 end]]) (fun _ => 1) (3 / 2) /\
  exists L, cholesky_factor 2 (epoch_precision 4 None [[fun i => match i with O => 0 | _ => sqrt 5 end]]) L.
Proof.
  split.
  - exists (fun i => match i with O => 1 / 2 | _ => 1 end)%R. split; [intros [|[|i]] H; try lia|]; unfold epoch_precision, gram, inner, rover; cbn; lra.
  - exists (fun i j => match i, j with O, O => 2 | S O, S O => 3 | _, _ => 0 end)%R.
    split; [intros i j H; assert (E : i = 0%nat /\ j = 1%nat) by lia; destruct E as [-> ->]; reflexivity|]. split; [intros [|[|i]] H; try lia; lra|].
    assert (S5 : (sqrt 5 * sqrt 5 = 5)%R) by (apply sqrt_sqrt; lra).
    intros [|[|i]] [|[|j]] H H'; try lia; unfold epoch_precision, gram, rover; cbn; lra.
Qed.

(** C161: if the parameters that are trained do not affect the features, the matrix is that of the whole training data,
    whatever the number of epochs and the batches *)
Theorem C161_fixed_features : forall (P E X T K G OS Pr U C : Type) (extract : P -> option K -> bool -> E -> X -> list vec * E) (dense : P -> vec -> list R) chol n ridge factor e0
    (predict : list (list R) -> Pr) (fold_in : nat -> K) (diff : (P -> Q) -> P -> G) gadd gdiv zeros_like clip_by (opt : G -> OS -> P -> P * OS) (log_prior : P -> Q)
    (calibrator : option (bool -> option C -> list (list R) -> list (list R) * C)) calib_mutable (log_prob : list (list R) -> list T -> list Q) n_train n_val
    (metrics : option (list (Pr -> option U -> list T -> Q))) training_metrics callbacks h monitor cfg bs vs (s s' : tstate P OS G (option (E * mat))) ms mvs (phi : X -> list vec),
  (forall f g p, (forall q, f q = g q) -> diff f p = diff g p) -> (forall a, h_accumulation h = Some a -> (a <= 1)%nat) ->
  (forall p key e x, fst (extract p (Some key) true e x) = phi x) ->
  sngp_fit P E X T K G OS Pr U ridge None predict fold_in diff gadd gdiv zeros_like clip_by opt callbacks h
    (map_setting P (E * mat) X T (list (list R)) K Pr U (gp_net P E X K extract dense chol n ridge None factor e0) log_prior calibrator calib_mutable log_prob n_train n_val metrics training_metrics)
    monitor cfg bs vs s = Ok (s', ms, mvs) ->
  ms <> [] -> exists e' prec', mutable s' = Some (e', prec') /\ forall i j, prec' i j = ((if (i =? j)%nat then ridge else 0) + gram (flat_map (fun b => phi (fst b)) bs) i j)%R.
Proof. exact (@sngp_fixed_features). Qed.
Print Assumptions C161_fixed_features.

(** C161: which fits succeed *)
Theorem C161_succeeds : forall (P E X T K G OS Pr U C : Type) (extract : P -> option K -> bool -> E -> X -> list vec * E) (dense : P -> vec -> list R) chol n ridge momentum factor e0
    (predict : list (list R) -> Pr) (fold_in : nat -> K) (diff : (P -> Q) -> P -> G) gadd gdiv zeros_like clip_by (opt : G -> OS -> P -> P * OS) (log_prior : P -> Q)
    (calibrator : option (bool -> option C -> list (list R) -> list (list R) * C)) calib_mutable (log_prob : list (list R) -> list T -> list Q) n_train n_val
    (metrics : option (list (Pr -> option U -> list T -> Q))) training_metrics callbacks h monitor cfg bs vs (s : tstate P OS G (option (E * mat))),
  (forall f g p, (forall q, f q = g q) -> diff f p = diff g p) -> (forall a, h_accumulation h = Some a -> (a <= 1)%nat) ->
  let run := sngp_fit P E X T K G OS Pr U ridge momentum predict fold_in diff gadd gdiv zeros_like clip_by opt callbacks h
    (map_setting P (E * mat) X T (list (list R)) K Pr U (gp_net P E X K extract dense chol n ridge momentum factor e0) log_prior calibrator calib_mutable log_prob n_train n_val metrics training_metrics)
    monitor cfg bs vs s in
  (mutable s = None \/ (exists m, momentum = Some m /\ (m < 0 \/ 1 < m)%R) -> run = Err ValueError)
  /\ (mutable s <> None -> (forall m, momentum = Some m -> (0 <= m <= 1)%R) ->
      bs <> [] -> (forall v, vs = Some v -> v <> []) -> (is_active (stop_config cfg) = true -> forall row, monitor row <> None) -> exists res, run = Ok res).
Proof. exact (@sngp_succeeds). Qed.
Print Assumptions C161_succeeds.

(** C161: otherwise the matrix need not be that of the training data at the fitted parameters *)
Theorem C161_final_features_refuted : exists s' e' prec' ms mvs,
  g_fit None None (g_cfg 1) g_batches None (g_state (Some (0%nat, fun _ _ => 7%R))) = Ok (s', ms, mvs) /\ mutable s' = Some (e', prec') /\ params s' = (0 + 1 + 1)%R
  /\ prec' 0%nat 0%nat = (1 + 2 * 2)%R
  /\ prec' 0%nat 0%nat <> ((if (0 =? 0)%nat then 1 else 0) + gram (flat_map (fun b => fst (g_extract (params s') None false e' (fst b))) g_batches) 0%nat 0%nat)%R.
Proof. exact (@final_features_refuted). Qed.
Print Assumptions C161_final_features_refuted.

Example C161_case_fit : exists s' e' prec' ms mvs,
  g_fit None (Some [5%R]) (g_cfg 2) g_batches None (g_state (Some (0%nat, fun _ _ => 7%R))) = Ok (s', ms, mvs) /\ mutable s' = Some (e', prec') /\ e' = 4%nat
  /\ params s' = (0 + 1 + 1 + 1 + 1)%R /\ prec' 0%nat 0%nat = 41%R /\ prec' 0%nat 1%nat = 40%R.
Proof. exact case_fit. Qed.
Example C161_case_momentum : exists s' e' prec' ms mvs,
  g_fit (Some (1/2)%R) None (g_cfg 1) g_batches None (g_state (Some (0%nat, fun _ _ => 7%R))) = Ok (s', ms, mvs) /\ mutable s' = Some (e', prec')
  /\ prec' 0%nat 0%nat = (9/4)%R /\ prec' 0%nat 1%nat = 2%R.
Proof. exact case_momentum. Qed.
Example C161_case_rejected : g_fit None None (g_cfg 1) g_batches None (g_state None) = Err ValueError
  /\ g_fit (Some 2%R) None (g_cfg 1) g_batches None (g_state (Some (0%nat, fun _ _ => 7%R))) = Err ValueError.
Proof. exact case_rejected. Qed.
