(** Properties C53, C54, C77 and C78: log joint probability, kernel regression, model
    managers and priors.  Proofs are in LikProofs.v and LikProofs2.v. *)
From Coq Require Import List Arith ZArith QArith Bool Reals Lra String.
From Verif Require Import Lib ConfRegModel MetricSpec TempModel PredModel PredSpec LikModel LikSpec LikProofs LikProofs2.
Import ListNotations.
Local Notation length := List.length.
Local Notation concat := List.concat.
Open Scope Q_scope.

(** C53: mini-batch log joint probability *)
Theorem C53_value : forall (O M C T : Type) (apply : bool -> option M -> pyout O M) manager log_prob (targets : list T) n_data mutable cp (cm : option (option C)) return_aux train outputs v aux,
  lik_log_joint apply manager log_prob targets n_data mutable cp cm return_aux train outputs = Ok (v, aux) ->
  exists o, (outputs = Some o \/ (outputs = None /\ (apply train mutable = Arr o \/ exists m, apply train mutable = Tup o m))) /\
    v == scaled_sum n_data (length targets) (log_prob (match manager with Some (Some f) => fst (f (in_aux "calib_mutable" return_aux) (match cm with Some c => c | None => None end) o) | _ => o end) targets).
Proof. exact (@lik_value). Qed.
Print Assumptions C53_value.
Theorem C53_unbiased : forall (X T O : Type) (predict : list X -> list O) (score : O -> T -> Q) (batches : list (list (X * T))) b,
  (forall xs, length (predict xs) = length xs) -> (0 < b)%nat -> batches <> [] -> (forall l, In l batches -> length l = b) ->
  exists values, Forall2 (fun batch v => exists w, lik_log_joint (M := unit) (C := unit) (fun _ _ => Arr (predict (map fst batch))) (Some None) (fun os ts => zip_with score os ts) (map snd batch) (length (concat batches)) None true None [] false None = Ok (w, None) /\ w == v) batches values /\
    total values / nQ (length batches) == total (concat (map (fun batch => zip_with score (predict (map fst batch)) (map snd batch)) batches)).
Proof. exact (@lik_unbiased). Qed.
Print Assumptions C53_unbiased.
Theorem C53_unequal_batches_refuted : exists (batches : list (list Q)), (forall l, In l batches -> l <> []) /\
  ~ total (map (fun l => scaled_sum (length (concat batches)) (length l) l) batches) / nQ (length batches) == total (concat batches).
Proof. exact (@lik_biased_refuted). Qed.
Print Assumptions C53_unequal_batches_refuted.
Theorem C53_checks : forall return_aux train og mg, lik_checks return_aux train og mg = Ok tt <-> consistent_request return_aux train og mg.
Proof. exact (@lik_checks_iff). Qed.
Print Assumptions C53_checks.
Theorem C53_check_errors : forall return_aux train og mg e, lik_checks return_aux train og mg = Err e ->
  e = ValueError \/ (e = TypeError /\ exists s, In s return_aux /\ ~ (s = "outputs" \/ s = "mutable" \/ s = "calib_mutable")%string).
Proof. exact (@lik_checks_errors). Qed.
Print Assumptions C53_check_errors.
Theorem C53_consistent : forall (O M C T : Type) (apply : bool -> option M -> pyout O M) manager log_prob (targets : list T) n_data mutable cp (cm : option (option C)) return_aux train outputs v aux,
  lik_log_joint apply manager log_prob targets n_data mutable cp cm return_aux train outputs = Ok (v, aux) ->
  consistent_request return_aux train (match outputs with Some _ => true | None => false end) (match mutable with Some _ => true | None => false end).
Proof. exact (@lik_inconsistent). Qed.
Print Assumptions C53_consistent.
Theorem C53_updated_mutable : forall (X O M C T : Type) (net : bool -> option M -> X -> O * M) x (manager : option (bool -> option C -> O -> O * C)) log_prob (targets : list T) n_data m,
  exists v aux, lik_log_joint (fun train mutable => class_apply net train mutable x) (Some manager) log_prob targets n_data (Some m) true None ["mutable"%string] true None = Ok (v, Some aux) /\
    aux_mutable aux = Some (Some (snd (net true (Some m) x))) /\ aux_outputs aux = None /\ aux_calib aux = None.
Proof. exact (@lik_updated_mutable). Qed.
Print Assumptions C53_updated_mutable.
Theorem C53_evaluation : forall (X O M C T : Type) (net : bool -> option M -> X -> O * M) x (manager : option (bool -> option C -> O -> O * C)) log_prob (targets : list T) n_data m,
  exists v, lik_log_joint (fun train mutable => class_apply net train mutable x) (Some manager) log_prob targets n_data m true None [] false None = Ok (v, None).
Proof. exact (@lik_evaluation). Qed.
Print Assumptions C53_evaluation.
Theorem C53_no_manager_refuted : forall (X O M C T : Type) (net : bool -> option M -> X -> O * M) x (log_prob : O -> list T -> list Q) (targets : list T) n_data m o,
  lik_log_joint (C := C) (fun train mutable => class_apply net train mutable x) None log_prob targets n_data (Some m) true None ["mutable"%string] true None = Err TypeError /\
  lik_log_joint (C := C) (fun train mutable => class_apply net train mutable x) None log_prob targets n_data None true None [] false (Some o) = Err UnboundLocalErr.
Proof. exact (@lik_no_manager_refuted). Qed.
Print Assumptions C53_no_manager_refuted.
Theorem C53_joint : forall (A : Type) log_prior (lik : list string -> result (Q * option A)) l v aux, lik l = Ok (v, aux) ->
  joint_log_prob log_prior lik (Some l) = Ok (v + log_prior, aux) /\ joint_neg_log_prob log_prior lik (Some l) = Ok (- (v + log_prior), aux).
Proof. exact (@joint_sum). Qed.
Print Assumptions C53_joint.
Theorem C53_joint_error : forall (A : Type) log_prior (lik : list string -> result (Q * option A)) l e, lik l = Err e -> joint_log_prob log_prior lik (Some l) = Err e.
Proof. exact (@joint_error). Qed.
Print Assumptions C53_joint_error.
Theorem C53_negative_default_refuted : forall (A : Type) log_prior (lik : list string -> result (Q * option A)) r, joint_neg_log_prob log_prior lik None <> Ok r.
Proof. exact (@joint_neg_default). Qed.
Print Assumptions C53_negative_default_refuted.
Example C53_case : lik_log_joint (M := nat) (C := nat) (fun _ _ => Arr [1; 2]) (Some (Some (fun _ _ o => (map (Qmult 2) o, 0%nat)))) (fun os ts => zip_with Qplus os ts) [10; 20] 8 None true None [] false None = Ok (36 * (8 / 2), None)
  /\ scaled_sum 8 2 [12; 24] == 144 /\ joint_log_prob (- (5)) (fun _ => Ok (144, None : option unit)) (Some []) = Ok (139, None)
  /\ lik_checks ["mutable"%string] true false true = Ok tt /\ lik_checks [] true false true = Err ValueError /\ lik_checks ["loss"%string] true false true = Err TypeError.
Proof. repeat split. Qed.
(** C77: model managers and model states *)
Theorem C77_auxiliary : forall (X O M : Type) (net : bool -> option M -> X -> O * M) train mutable x,
  match class_apply net train mutable x with
  | Tup o m => train = true /\ (exists m0, mutable = Some m0) /\ (o, m) = net true mutable x
  | Arr o => (train = false \/ mutable = None) /\ o = fst (net train mutable x)
  end.
Proof. exact (@class_apply_aux). Qed.
Print Assumptions C77_auxiliary.
Theorem C77_regression_outputs : forall (X M : Type) (net var : bool -> option M -> X -> list (list Q) * M) train frozen x,
  let ms := fst (net train None x) in let vs := fst (var train None x) in length ms = length vs ->
  ((forall i, (i < length ms)%nat -> length (nth i ms []) = length (nth i vs [])) ->
   exists rows, reg_apply net var train frozen None x = Ok (Arr rows) /\ length rows = length ms /\
     forall i, (i < length ms)%nat -> let row := nth i rows [] in firstn (length row / 2) row = nth i ms [] /\ skipn (length row / 2) row = nth i vs []) /\
  ((exists i, (i < length ms)%nat /\ length (nth i ms []) <> length (nth i vs [])) -> reg_apply net var train frozen None x = Err ValueError).
Proof. exact (@reg_apply_rows). Qed.
Print Assumptions C77_regression_outputs.
Theorem C77_regression_frozen_refuted : forall (X M : Type) (net var : bool -> option M -> X -> list (list Q) * M) train m x, reg_apply net var train true (Some m) x = Err ValueError.
Proof. exact (@reg_frozen_refuted). Qed.
Print Assumptions C77_regression_frozen_refuted.
Theorem C77_regression_mutable_refuted : exists (net var : bool -> option nat -> unit -> list (list Q) * nat) m,
  (exists o a, reg_apply net var false false (Some m) tt = Ok (Tup o a)) /\
  (exists o a, reg_apply net var true false (Some m) tt = Ok (Tup o a) /\ rm_lik_log_var a <> Some (snd (var true (rm_lik_log_var m) tt)) /\ rm_lik_log_var a = Some (snd (net true (rm_model m) tt))).
Proof. exact (@reg_mutable_refuted). Qed.
Print Assumptions C77_regression_mutable_refuted.
Theorem C77_split : forall (A : Type) (d : list (string * list (string * A))) params mutable, split_variables d = Ok (params, mutable) ->
  map fst params = map fst d /\
  (forall i k v, nth_error d i = Some (k, v) -> exists p, nth_error params i = Some (k, p) /\ In ("params"%string, p) v) /\
  (forall m, mutable = Some m -> map fst m = map fst d /\ forall i k v, nth_error d i = Some (k, v) -> exists w, nth_error m i = Some (k, w) /\ forall e, In e w <-> In e v /\ fst e <> "params"%string) /\
  (mutable = None <-> forall k v e, In (k, v) d -> In e v -> fst e = "params"%string).
Proof. exact (@split_spec). Qed.
Print Assumptions C77_split.
Example C77_case : reg_apply (M := nat) (X := unit) (fun _ _ _ => ([[1; 2]; [3; 4]], 0%nat)) (fun _ _ _ => ([[5; 6]; [7; 8]], 0%nat)) true false None tt = Ok (Arr [[1; 2; 5; 6]; [3; 4; 7; 8]])
  /\ split_variables [("model", [("params", 1%nat); ("batch_stats", 2%nat)]); ("lik_log_var", [("params", 3%nat)])]%string
     = Ok ([("model", 1%nat); ("lik_log_var", 3%nat)]%string, Some [("model", [("batch_stats", 2%nat)]); ("lik_log_var", [])]%string)
  /\ split_variables [("model", [("batch_stats", 2%nat)])]%string = Err KeyError.
Proof. repeat split. Qed.
Open Scope R_scope.
(** C54: Nadaraya-Watson kernel regression *)
Theorem C54_lengths : forall inputs targets, (exists r, nw_init inputs targets = Ok r) <-> length inputs = length targets.
Proof. exact (@nw_lengths). Qed.
Print Assumptions C54_lengths.
Theorem C54_weighted_mean : forall kernel bandwidth inputs targets r x, (forall u, 0 < kernel u) -> 0 < bandwidth -> inputs <> [] ->
  nw_init inputs targets = Ok r -> rstd targets <> 0 ->
  nw_predict kernel bandwidth r x = Some (weighted_mean (map (fun xi => kernel ((x - xi) / bandwidth)) inputs) targets).
Proof. exact (@nw_weighted_mean). Qed.
Print Assumptions C54_weighted_mean.
Theorem C54_range : forall kernel bandwidth inputs targets r x lo hi v, (forall u, 0 < kernel u) -> 0 < bandwidth -> inputs <> [] ->
  nw_init inputs targets = Ok r -> (forall y, In y targets -> lo <= y <= hi) -> nw_predict kernel bandwidth r x = Some v -> lo <= v <= hi.
Proof. exact (@nw_bounds). Qed.
Print Assumptions C54_range.
Theorem C54_defined : forall kernel bandwidth inputs targets r x, (forall u, 0 < kernel u) -> 0 < bandwidth -> targets <> [] ->
  nw_init inputs targets = Ok r -> ((exists v, nw_predict kernel bandwidth r x = Some v) <-> exists y y', In y targets /\ In y' targets /\ y <> y').
Proof. exact (@nw_defined). Qed.
Print Assumptions C54_defined.
Theorem C54_constant_refuted : forall kernel bandwidth inputs targets r x, targets <> [] -> nw_init inputs targets = Ok r ->
  (forall y y', In y targets -> In y' targets -> y = y') -> nw_predict kernel bandwidth r x = None.
Proof. exact (@nw_constant_refuted). Qed.
Print Assumptions C54_constant_refuted.
Theorem C54_kernel : forall x y, 0 < gaussian_kernel x /\ gaussian_kernel (- x) = gaussian_kernel x /\ gaussian_kernel x = exp (normal_log_density x 0 1) /\ (Rabs x <= Rabs y -> gaussian_kernel y <= gaussian_kernel x).
Proof. exact (@kernel_shape). Qed.
Print Assumptions C54_kernel.
Example C54_case : weighted_mean [1; 1; 2] [3; 5; 8] = 6.
Proof. unfold weighted_mean, sum_R; cbn [map combine fold_right fst snd]; lra. Qed.
(** C78: Gaussian priors *)
Theorem C78_isotropic : forall log_var params, isotropic_log_prob log_var params = sum_R (map (fun x => normal_log_density x 0 (exp log_var)) params).
Proof. exact (@isotropic_density). Qed.
Print Assumptions C78_isotropic.
Theorem C78_diagonal : forall log_vars params, length log_vars = length params ->
  diagonal_log_prob log_vars params = sum_R (map (fun p => normal_log_density (snd p) 0 (exp (fst p))) (combine log_vars params)).
Proof. exact (@diagonal_density). Qed.
Print Assumptions C78_diagonal.
Theorem C78_constant_diagonal : forall log_var params, diagonal_log_prob (repeat log_var (length params)) params = isotropic_log_prob log_var params.
Proof. exact (@diagonal_constant). Qed.
Print Assumptions C78_constant_diagonal.
Theorem C78_mode : forall log_var params, isotropic_log_prob log_var params <= isotropic_log_prob log_var (repeat 0 (length params)) /\
  (isotropic_log_prob log_var params = isotropic_log_prob log_var (repeat 0 (length params)) -> forall x, In x params -> x = 0).
Proof. exact (@isotropic_mode). Qed.
Print Assumptions C78_mode.
Theorem C78_shrinkage : forall log_var a b, length a = length b -> (forall i, Rabs (nth i a 0) <= Rabs (nth i b 0)) -> isotropic_log_prob log_var b <= isotropic_log_prob log_var a.
Proof. exact (@isotropic_shrink). Qed.
Print Assumptions C78_shrinkage.
Theorem C78_sample_scale : forall log_var noise, isotropic_sample log_var noise = map (fun e => sqrt (exp log_var) * e) noise.
Proof. exact (@sample_scale). Qed.
Print Assumptions C78_sample_scale.
Theorem C78_diagonal_sample_scale : forall log_vars noise, diagonal_sample log_vars noise = map (fun p => sqrt (exp (fst p)) * snd p) (combine log_vars noise).
Proof. exact (@diagonal_sample_scale). Qed.
Print Assumptions C78_diagonal_sample_scale.
Theorem C78_constant_sample : forall log_var noise, diagonal_sample (repeat log_var (length noise)) noise = isotropic_sample log_var noise.
Proof. exact (@diagonal_sample_constant). Qed.
Print Assumptions C78_constant_sample.
Example C78_case : isotropic_log_prob 0 [1; 2] = - / 2 * (5 + 2 * ln (2 * PI)).
Proof. unfold isotropic_log_prob, rsquares, rsum; cbn [map fold_right List.length INR]; rewrite Ropp_0, exp_0; lra. Qed.
