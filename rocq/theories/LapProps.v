(** Properties C79 to C83: starting states, Laplace and ADVI posteriors.  Proofs are in LapProofs*.v. *)
From Coq Require Import List Arith ZArith QArith Bool Reals Lra String Permutation Sorting.Sorted.
From Verif Require Import Lib ConfClassModel NestedModel NestedSpec FreezeModel FreezeSpec TempModel TempSpec PredModel PredSpec LapModel LapSpec LapProofs LapProofs2 LapProofs3 LapProofs4.
Import ListNotations.
Local Notation length := List.length.
Local Notation concat := List.concat.
Open Scope Q_scope.

(** C79: where a fit starts *)
Theorem C79_start : forall (S : Type) (kind : S -> state_kind) allowed dump dir restore cur current map st,
  fit_start kind allowed dump dir restore cur current map = Ok st <->
  (dump = true -> dir = true) /\
  match restore with
  | Some r => exists s, r = Ok s /\ In (kind s) allowed /\ st = FromCheckpoint s
  | None => if cur then exists s, current = Some (Ok s) /\ In (kind s) allowed /\ st = FromCurrent s
            else st = if map then FromMap else Fresh
  end.
Proof. exact (@fit_start_spec). Qed.
Print Assumptions C79_start.
Theorem C79_errors : forall (S : Type) (kind : S -> state_kind) allowed dump dir restore cur current map,
  (dump = true -> dir = false -> fit_start kind allowed dump dir restore cur current map = Err ValueError) /\
  (dump = false -> forall s, ~ In (kind s) allowed -> fit_start kind allowed dump dir (Some (Ok s)) cur current map = Err ValueError) /\
  (dump = false -> fit_start kind allowed dump dir None true None map = Err AttributeError).
Proof. exact (@fit_start_errors). Qed.
Print Assumptions C79_errors.
Theorem C79_laplace : forall (S : Type) (kind : S -> state_kind) dump dir cur current st,
  laplace_start kind dump dir None false current cur = Ok st -> cur = true /\ st = FromMap.
Proof. exact (@laplace_needs_start). Qed.
Print Assumptions C79_laplace.
Example C79_case : fit_start (S := nat) (fun _ => MapKind) [MapKind; LaplaceKind] false false None true (Some (Ok 7%nat)) true = Ok (FromCurrent 7%nat)
  /\ fit_start (S := nat) (fun _ => SwagKind) [MapKind; LaplaceKind] false false (Some (Ok 3%nat)) true (Some (Ok 7%nat)) true = Err ValueError
  /\ laplace_start (S := nat) (fun _ => MapKind) false false None false None false = Err ValueError.
Proof. repeat split. Qed.
(** C81: state conversion and prior tuning *)
Theorem C81_components : forall (A : Type) (means others : list (string * A)),
  (forall k, In k (map fst means) -> assoc_get k others <> None) ->
  exists d, pair_components means others = Ok d /\ first_components d = means /\ map fst (second_components d) = map fst means /\
    (NoDup (map fst means) -> forall k, In k (map fst means) -> assoc_get k (second_components d) = assoc_get k others).
Proof. exact (@components_roundtrip). Qed.
Print Assumptions C81_components.
Theorem C81_missing_component : forall (A : Type) (means others : list (string * A)) k, In k (map fst means) -> assoc_get k others = None -> pair_components means others = Err KeyError.
Proof. exact (@components_missing). Qed.
Print Assumptions C81_missing_component.
Theorem C81_tuning_first_best : forall score n prior lo hi g c, tune_cv score n prior lo hi g true = Ok c ->
  exists before after, linspace lo hi g ++ [prior] = before ++ c :: after /\
    (forall c', In c' before -> score c < score c') /\ (forall c', In c' after -> score c <= score c').
Proof. exact (@tuning_best). Qed.
Print Assumptions C81_tuning_first_best.
Theorem C81_tuning_not_worse : forall score n prior lo hi g c, tune_cv score n prior lo hi g true = Ok c -> score c <= score prior /\ (In c (linspace lo hi g) \/ c = prior).
Proof. exact (@tuning_not_worse). Qed.
Print Assumptions C81_tuning_not_worse.
Theorem C81_tuning_total : forall score n prior lo hi g, (0 < n)%nat -> exists c, tune_cv score n prior lo hi g true = Ok c.
Proof. exact (@tuning_total). Qed.
Print Assumptions C81_tuning_total.
Theorem C81_tuning_local_refuted : forall score n prior lo hi g c, tune_cv score n prior lo hi g false <> Ok c /\ tune_prior_log_var score n prior lo hi g false "cv" <> Ok c.
Proof. exact (@tuning_local_refuted). Qed.
Print Assumptions C81_tuning_local_refuted.
Theorem C81_tuning_modes : forall score n prior lo hi g d mode, mode <> "cv"%string ->
  tune_prior_log_var score n prior lo hi g d mode = Err (if String.eqb mode "marginal_lik" then NotImplementedErr else ValueError).
Proof. exact (@tuning_modes). Qed.
Print Assumptions C81_tuning_modes.
Example C81_case : pair_components [("a", 1%nat); ("b", 2%nat)]%string [("b", 4%nat); ("a", 3%nat)]%string = Ok [("a", (1, 3)%nat); ("b", (2, 4)%nat)]%string
  /\ exists c, tune_cv (fun x => (x - 1) * (x - 1)) 2 (5 # 4) (- (3)) 3 3 true = Ok c /\ c == 5 # 4.
Proof. split; [reflexivity|]. eexists. split; reflexivity. Qed.
(** C83: order of raveled parameters *)
Open Scope list_scope.
Theorem C83_order : forall (V : Type) (t : tree (list V)) sel, NoDup sel -> (forall p, In p sel -> p <> [] /\ exists v, leaf_at t p v) ->
  exists ps flat, Permutation ps sel /\ StronglySorted path_lt ps /\ ravel_trainable t sel = Ok flat /\ ravel_paths t ps = Ok flat.
Proof. exact (@ravel_trainable_order). Qed.
Print Assumptions C83_order.
Example C83_case_hypotheses : let t := Dict [("w", Leaf [1; 2]); ("a", Dict [("k", Leaf [3])])]%string in let sel := [["w"]; ["a"; "k"]]%string in
  NoDup sel /\ (forall p, In p sel -> p <> [] /\ exists v, leaf_at t p v) /\ StronglySorted path_lt [["a"; "k"]; ["w"]]%string.
Proof.
  cbn zeta. split; [repeat constructor; cbn; intuition discriminate|]. split; [|repeat constructor].
  intros p [<-|[<-|[]]]; (split; [discriminate|eexists; reflexivity]).
Qed.
Theorem C83_sorted_preserved : forall (V : Type) (t : tree (list V)) sel, (forall p, In p sel -> p <> [] /\ exists v, leaf_at t p v) ->
  StronglySorted path_lt sel -> ravel_trainable t sel = ravel_paths t sel.
Proof. exact (@ravel_trainable_sorted). Qed.
Print Assumptions C83_sorted_preserved.
Theorem C83_preserved_refuted : exists (t : tree (list nat)) f paths a b, get_trainable_paths t (Some f) = Ok paths /\ ravel_trainable t paths = Ok a /\ ravel_paths t paths = Ok b /\ a <> b.
Proof. exact (@ravel_trainable_refuted). Qed.
Print Assumptions C83_preserved_refuted.
Example C83_case : ravel_trainable (Dict [("b", Leaf [1; 2]); ("a", Dict [("y", Leaf [3]); ("x", Leaf [4])])])%nat%string [["b"]; ["a"; "x"]]%string = Ok [4; 1; 2]%nat
  /\ ravel_paths (Dict [("b", Leaf [1; 2]); ("a", Dict [("y", Leaf [3]); ("x", Leaf [4])])])%nat%string [["b"]; ["a"; "x"]]%string = Ok [1; 2; 4]%nat.
Proof. split; reflexivity. Qed.
Open Scope R_scope.
(** C80: Laplace approximation *)
Theorem C80_gauss_newton : forall n H lam z J p, eigen_decomposition n H lam z -> ggn_point n lam z J p = - quad n H (fun o => J o p).
Proof. exact (@ggn_quadratic). Qed.
Print Assumptions C80_gauss_newton.
Theorem C80_nonnegative : forall n H lam z J p, eigen_decomposition n H lam z -> (forall v, quad n H v <= 0) -> 0 <= ggn_point n lam z J p.
Proof. exact (@ggn_nonneg). Qed.
Print Assumptions C80_nonnegative.
Theorem C80_batching : forall (X : Type) (point : X -> nat -> R) loader p, ggn_loader point loader p = rtotal (map (fun x => point x p) (concat loader)).
Proof. exact (@ggn_batching). Qed.
Print Assumptions C80_batching.
Theorem C80_classification_hessian : forall o y v, (y < length o)%nat ->
  second_derivative_at_0 (fun t => class_log_prob (moved o v t) y) (quad (length o) (softmax_hessian (fun i => nth i (softmax o) 0)) v).
Proof. exact (@classification_hessian). Qed.
Print Assumptions C80_classification_hessian.
Theorem C80_classification_nonnegative : forall o lam z J p, o <> [] -> eigen_decomposition (length o) (softmax_hessian (fun i => nth i (softmax o) 0)) lam z -> 0 <= ggn_point (length o) lam z J p.
Proof. exact (@classification_ggn_nonneg). Qed.
Print Assumptions C80_classification_nonnegative.
Theorem C80_regression_hessian : forall y m lv v, second_derivative_at_0 (fun t => normal_log_density y (m + t * v 0%nat) (exp (lv + t * v 1%nat))) (quad 2 (gaussian_hessian y m lv) v).
Proof. exact (@regression_hessian). Qed.
Print Assumptions C80_regression_hessian.
Theorem C80_regression_refuted : forall plv, exists y m lv J lam z, orthonormal 2 z /\ eigen_decomposition 2 (gaussian_hessian y m lv) lam z /\ laplace_std plv (ggn_point 2 lam z J 0) = None.
Proof. exact (@regression_std_refuted). Qed.
Print Assumptions C80_regression_refuted.
Theorem C80_std : forall plv h, 0 <= h -> exists s, laplace_std plv h = Some s /\ 0 < s /\ / (s * s) = exp (- plv) + h /\ s <= sqrt (exp plv).
Proof. exact (@laplace_std_spec). Qed.
Print Assumptions C80_std.
Theorem C80_std_hessian : forall plv h h' s s', h <= h' -> laplace_std plv h = Some s -> laplace_std plv h' = Some s' -> s' <= s.
Proof. exact (@laplace_std_anti). Qed.
Print Assumptions C80_std_hessian.
Theorem C80_std_prior : forall plv plv' h s s', plv <= plv' -> laplace_std plv h = Some s -> laplace_std plv' h = Some s' -> s <= s'.
Proof. exact (@laplace_std_prior_mono). Qed.
Print Assumptions C80_std_prior.
Theorem C80_sample : forall mean plv h e, 0 <= h -> exists s, laplace_std plv h = Some s /\ laplace_sample mean plv h e = Some (mean + s * e) /\ laplace_sample mean plv h 0 = Some mean.
Proof. exact (@laplace_sample_spec). Qed.
Print Assumptions C80_sample.
Theorem C80_log_prob : forall lps, lps <> [] -> exp (mc_log_prob lps) = rtotal (map exp lps) / INR (length lps).
Proof. exact (@mc_average). Qed.
Print Assumptions C80_log_prob.
Example C80_case : ggn_point 2 (fun k => match k with O => -1 | _ => -2 end) (fun o k => if (o =? k)%nat then 1 else 0) (fun o p => match o with O => 3 | _ => 4 end) 0 = 41.
Proof. unfold ggn_point, ztj, isum, rsum; cbn [seq map fold_right Nat.eqb]; lra. Qed.
(** C82: Gaussian distribution and ADVI *)
Theorem C82_density : forall mean std x, (forall s, In s std -> 0 < s) -> diag_log_prob mean std x = rtotal (map (fun q => normal_log_density (snd q) (fst (fst q)) (snd (fst q) * snd (fst q))) (combine (combine mean std) x)).
Proof. exact (@diag_density). Qed.
Print Assumptions C82_density.
Theorem C82_sample : forall mean std noise, length std = length mean -> length noise = length mean ->
  length (diag_sample mean std noise) = length mean /\
  forall i m s z, nth_error mean i = Some m -> nth_error std i = Some s -> nth_error noise i = Some z -> nth_error (diag_sample mean std noise) i = Some (m + s * z).
Proof. exact diag_sample_entry. Qed.
Print Assumptions C82_sample.
Theorem C82_sample_density : forall mean std noise, length std = length mean -> length noise = length mean -> Forall (fun s => 0 < s) std ->
  diag_log_prob mean std (diag_sample mean std noise) = diag_log_prob (map (fun _ => 0) noise) (map (fun _ => 1) noise) noise - rtotal (map ln std).
Proof. exact diag_sample_density. Qed.
Print Assumptions C82_sample_density.
Example C82_case_sample : diag_sample [1; 2] [3; 4] [5; 6] = [1 + 3 * 5; 2 + 4 * 6] /\ Forall (fun s => 0 < s) [3; 4].
Proof. split; [reflexivity|repeat constructor; lra]. Qed.
Theorem C82_inverse : forall mean log_std u, length mean = length u -> length log_std = length u ->
  let v := fst (advi_forward mean log_std u) in fst (advi_backward mean log_std v) = u /\ snd (advi_backward mean log_std v) = - snd (advi_forward mean log_std u).
Proof. exact (@advi_inverse). Qed.
Print Assumptions C82_inverse.
Theorem C82_inverse_back : forall mean log_std v, length mean = length v -> length log_std = length v ->
  fst (advi_forward mean log_std (fst (advi_backward mean log_std v))) = v.
Proof. exact (@advi_inverse_back). Qed.
Print Assumptions C82_inverse_back.
Theorem C82_change_of_variables : forall lb mean log_std u, length mean = length u -> length log_std = length u ->
  advi_base_log_prob lb u - snd (advi_forward mean log_std u) =
  rtotal (map (fun q => normal_log_density (snd q) (fst (fst q)) (exp (snd (fst q) + lb) * exp (snd (fst q) + lb))) (combine (combine mean log_std) (fst (advi_forward mean log_std u)))).
Proof. exact (@advi_density). Qed.
Print Assumptions C82_change_of_variables.
Theorem C82_elbo : forall nlj lb mean log_std us, (forall u, In u us -> length mean = length u /\ length log_std = length u) ->
  advi_loss nlj mean log_std us + mean_R (map (advi_base_log_prob lb) us) =
  mean_R (map (fun u => let v := fst (advi_forward mean log_std u) in
    nlj v + rtotal (map (fun q => normal_log_density (snd q) (fst (fst q)) (exp (snd (fst q) + lb) * exp (snd (fst q) + lb))) (combine (combine mean log_std) v))) us).
Proof. exact (@advi_elbo). Qed.
Print Assumptions C82_elbo.
Example C82_case : advi_forward [1; 2] [0; 0] [3; 4] = ([1 + 1 * 3; 2 + 1 * 4], 0 + (0 + 0)).
Proof. unfold advi_forward, rsum; cbn [combine map fold_right fst snd]; now rewrite exp_0. Qed.
