(** Property theorems of the tuning of the prior log-variance of a Laplace posterior (C147). *)
From Coq Require Import List Arith Bool Reals.
From Verif Require Import Lib TempSpec PredSpec DrawModel TuneModel TuneSpec TuneProofs TuneProofs2 TuneCases.
Import ListNotations.
Local Open Scope R_scope.
Local Open Scope nat_scope.

(** C147: the log-variance that is tuned is the best of the grid and the prior *)
Theorem C147_chosen : forall X label noise (ll : list R -> X -> R) mean hess zero p loader n lo hi g,
  length mean = length hess -> 1 <= n -> concat loader <> [] -> definite (Scalar (match g with 0 => p | _ => lo end)) hess ->
  let goal := fun v => objective ll (fun i => member mean hess (Scalar v) (noise (tuning_key label zero n i))) n (concat loader) in
  exists v before after, tune label noise ll mean hess zero (Scalar p) loader n lo hi g true 1 = Ok v /\
    map (grid_point lo hi g) (seq 0 g) ++ [p] = before ++ v :: after /\ definite (Scalar v) hess /\
    (forall v', In v' before -> definite (Scalar v') hess -> (goal v' < goal v)%R) /\ (forall v', In v' after -> definite (Scalar v') hess -> (goal v' <= goal v)%R).
Proof. exact (@tuning_chooses). Qed.
Print Assumptions C147_chosen.
Theorem C147_fit : forall X label noise (ll : list R -> X -> R) mean hess zero p loader,
  length mean = length hess -> concat loader <> [] -> definite (Scalar (-3)) hess ->
  let goal := fun v => objective ll (fun i => member mean hess (Scalar v) (noise (tuning_key label zero 5 i))) 5 (concat loader) in
  exists v, fit_end label noise ll mean hess zero (Scalar p) (Some loader) true None 1 = (Scalar v, Ok tt) /\
    (v = p \/ exists i, i < 20 /\ v = (-3 + INR i * (6 / 19))%R) /\
    (definite (Scalar p) hess -> (goal p <= goal v)%R) /\
    forall i, i < 20 -> definite (Scalar (-3 + INR i * (6 / 19))) hess -> (goal (-3 + INR i * (6 / 19))%R <= goal v)%R.
Proof. exact (@fit_tuned). Qed.
Print Assumptions C147_fit.
Theorem C147_nonnegative : forall c hess, Forall (fun h => (0 <= h)%R) hess -> definite c hess.
Proof. exact (@nonnegative_definite). Qed.
Print Assumptions C147_nonnegative.
Theorem C147_draw : forall noise mean hess stored given k, length mean = length hess ->
  let c := match given with Some v => v | None => stored end in
  fits c (length hess) ->
  (definite c hess -> draw noise mean hess stored given k = Ok (Some (member mean hess c (noise k)))) /\
  (~ definite c hess -> draw noise mean hess stored given k = Ok None).
Proof. exact (@draw_value). Qed.
Print Assumptions C147_draw.
Theorem C147_not_tuned : forall X label noise (ll : list R -> X -> R) mean hess zero prior val tuning devices d,
  (val = None \/ tuning = false -> fit_end label noise ll mean hess zero prior val tuning devices d = (prior, Ok tt)) /\
  (forall loader m, val = Some loader -> loader <> [] -> tuning = true -> devices = Some m -> fit_end label noise ll mean hess zero prior val tuning devices d = (prior, Err UnboundLocalErr)) /\
  (forall loader, val = Some loader -> tuning = true -> devices = None -> d <> 1 -> fit_end label noise ll mean hess zero prior val tuning devices d = (prior, Err TypeError)).
Proof. exact (@fit_untuned). Qed.
Print Assumptions C147_not_tuned.
Theorem C147_local_refuted : forall X label noise (ll : list R -> X -> R) mean hess zero prior loader n lo hi g d,
  tune label noise ll mean hess zero prior loader n lo hi g false d = Err (match loader with [] => ValueError | _ => UnboundLocalErr end).
Proof. exact (@tuning_local). Qed.
Print Assumptions C147_local_refuted.
Theorem C147_devices_refuted : forall X label noise (ll : list R -> X -> R) mean hess zero prior loader n lo hi g d,
  d <> 1 -> 1 <= g \/ (exists p, prior = Scalar p) -> tune label noise ll mean hess zero prior loader n lo hi g true d = Err TypeError.
Proof. exact (@tuning_devices). Qed.
Print Assumptions C147_devices_refuted.
Theorem C147_diagonal_refuted : forall X label noise (ll : list R -> X -> R) mean hess zero vs loader n lo hi g,
  length mean = length hess -> length vs = length hess -> 2 <= length vs -> 1 <= n -> concat loader <> [] -> 1 <= g -> definite (Scalar lo) hess ->
  let goal := fun c => objective ll (fun i => member mean hess c (noise (tuning_key label zero n i))) n (concat loader) in
  let chosen := tune label noise ll mean hess zero (Vector vs) loader n lo hi g true 1 in
  (chosen = Err TypeError /\ definite (Vector vs) hess /\ forall i, i < g -> definite (Scalar (grid_point lo hi g i)) hess -> (goal (Scalar (grid_point lo hi g i)) < goal (Vector vs))%R) \/
  (exists i, i < g /\ chosen = Ok (grid_point lo hi g i) /\ (definite (Vector vs) hess -> (goal (Vector vs) <= goal (Scalar (grid_point lo hi g i)))%R) /\
     forall j, j < g -> definite (Scalar (grid_point lo hi g j)) hess -> (goal (Scalar (grid_point lo hi g j)) <= goal (Scalar (grid_point lo hi g i)))%R).
Proof. exact (@tuning_vector). Qed.
Print Assumptions C147_diagonal_refuted.
Theorem C147_nan_refuted : forall X label noise (ll : list R -> X -> R) mean hess zero prior loader n lo hi g,
  length mean = length hess -> fits prior (length hess) -> 1 <= n -> concat loader <> [] -> 1 <= g -> ~ definite (Scalar lo) hess ->
  tune label noise ll mean hess zero prior loader n lo hi g true 1 = Ok lo.
Proof. exact (@tuning_nan). Qed.
Print Assumptions C147_nan_refuted.
Example C147_case : tune (fun n => n) ones falling [0%R] [3%R] [] (Scalar 1) [[5%R]] 1 0 2 1 true 1 = Ok 0%R.
Proof. exact case_tune. Qed.
Example C147_case_nan : fit_end (fun n => n) ones falling [0%R] [(-30)%R] [] (Scalar (-5)) (Some [[5%R]]) true None 1 = (Scalar (-3), Ok tt)
  /\ draw ones [0%R] [(-30)%R] (Scalar (-3)) None [] = Ok None /\ (exists theta, draw ones [0%R] [(-30)%R] (Scalar (-5)) None [] = Ok (Some theta)).
Proof. exact case_nan. Qed.
