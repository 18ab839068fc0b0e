(** Properties C140 to C142: random keys in fitting posteriors and drawing from them.  Proofs are in NoiseProofs*.v. *)
From Coq Require Import List Arith Bool QArith Reals String.
From Verif Require Import Lib NestedModel NestedSpec FreezeModel FreezeSpec LapSpec McmcModel DrawModel DrawSpec NoiseModel NoiseSpec NoiseProofs NoiseProofs2 NoiseProofs3 NoiseCases.
From Verif Require Import Lit.
Import ListNotations.
Local Notation length := List.length.
Local Notation concat := List.concat.
Local Open Scope nat_scope.

(** C140: a key for every leaf, and the noise of stochastic gradient samplers *)
Theorem C140_tree_keys : forall label A (t : tree A) k, unique_keys t -> exists number,
  (forall p q a b, leaf_at t p a -> leaf_at t q b -> path_lt p q -> number p < number q)
  /\ (forall q a, leaf_at t q a -> number q < length (leaves t))
  /\ unique_keys (generate_rng_like_tree label k t)
  /\ (forall q k', leaf_at (generate_rng_like_tree label k t) q k' <-> exists a, leaf_at t q a /\ k' = k ++ [Cut (label (length (leaves t))) (number q)]).
Proof. exact (@tree_keys). Qed.
Print Assumptions C140_tree_keys.
Example C140_case_tree : let t := Dict [("w", Leaf 1); ("a", Dict [("k", Leaf 2)])]%string in unique_keys t /\ leaf_at t ["a"; "k"]%string 2 /\ path_lt ["a"; "k"]%string ["w"]%string.
Proof. cbn zeta. split; [uniq|]. split; [reflexivity|]. now apply plt_head. Qed.
Theorem C140_tree_normals : forall label A Sh Z (dflt : Z) (shape : A -> Sh) normal (t : tree A) k, unique_keys t -> exists t',
  generate_random_normal_like_tree label dflt shape normal k t = Ok t'
  /\ forall q z, leaf_at t' q z <-> exists a k', leaf_at t q a /\ leaf_at (generate_rng_like_tree label k t) q k' /\ z = normal k' (shape a).
Proof. exact (@tree_normals). Qed.
Print Assumptions C140_tree_normals.
Theorem C140_sghmc_noise : forall label P normal leaves i j decay resample schedule k gs, i < leaves ->
  sghmc_run label P normal leaves i j decay resample schedule k gs =
  sghmc_driven P decay resample schedule (fun t => normal (noise_key label leaves k t i) j) 0 0%R (pc_init P) gs.
Proof. exact (@sghmc_stream). Qed.
Print Assumptions C140_sghmc_noise.
Theorem C140_cyclical_noise : forall label P normal leaves i j cycle ratio schedule k gs, i < leaves ->
  cyclical_run label P normal leaves i j cycle ratio schedule k gs =
  cyclical_driven P cycle ratio schedule (fun t => normal (noise_key label leaves k t i) j) 0 0 (pc_init P) gs.
Proof. exact (@cyclical_stream). Qed.
Print Assumptions C140_cyclical_noise.
Theorem C140_noise_keys_independent : forall label leaves s k, independent (run_noise_keys label leaves s k).
Proof. exact (@run_noise_independent). Qed.
Print Assumptions C140_noise_keys_independent.
Theorem C140_runs_draw : forall label P normal normal' leaves i j decay resample schedule cycle ratio k gs, i < leaves ->
  (forall a, In a (run_noise_keys label leaves (length gs) k) -> normal a j = normal' a j) ->
  sghmc_run label P normal leaves i j decay resample schedule k gs = sghmc_run label P normal' leaves i j decay resample schedule k gs
  /\ cyclical_run label P normal leaves i j cycle ratio schedule k gs = cyclical_run label P normal' leaves i j cycle ratio schedule k gs.
Proof. exact (@runs_draw). Qed.
Print Assumptions C140_runs_draw.
Example C140_case :
  generate_rng_like_tree same_label [Fold 9] toy_params
  = Dict [("a", Leaf [Fold 9; Cut 3 0]); ("w", Dict [("bias", Leaf [Fold 9; Cut 3 1]); ("kernel", Leaf [Fold 9; Cut 3 2])])]%string
  /\ generate_random_normal_like_tree same_label (0, []) (fun s => s) (fun k s => (s, k)) [] toy_params
  = Ok (Dict [("a", Leaf (1, [Cut 3 0])); ("w", Dict [("bias", Leaf (2, [Cut 3 1])); ("kernel", Leaf (4, [Cut 3 2]))])]%string)
  /\ run_noise_keys same_label 3 2 [] = [[Cut 2 0; Cut 3 0]; [Cut 2 0; Cut 3 1]; [Cut 2 0; Cut 3 2]; [Cut 2 1; Cut 2 0; Cut 3 0]; [Cut 2 1; Cut 2 0; Cut 3 1]; [Cut 2 1; Cut 2 0; Cut 3 2]].
Proof. vm_compute. repeat split. Qed.

(** C141: sessions of requests to one generator *)
Theorem C141_request_independent : forall label k r, independent (request_keys label k r).
Proof. exact (@request_keys_independent). Qed.
Print Assumptions C141_request_independent.
Theorem C141_session_independent : forall label g rs, proper label rs -> independent (session label g rs).
Proof. exact (@session_independent). Qed.
Print Assumptions C141_session_independent.
Example C141_case_proper : proper same_label [Sampler 3 1; Init 2; Call (Average 4)].
Proof.
  split; [repeat constructor; cbn; try discriminate; try lia|]. intros l1 a b l2 E. destruct l1 as [|x [|y [|z l1]]]; inversion E; subst; cbn; try discriminate; try exact I. destruct l1; discriminate.
Qed.
Theorem C141_sample_keys : forall label p k, independent (sample_keys label p k) /\ Forall (derived k) (sample_keys label p k).
Proof. exact (@sample_keys_refine). Qed.
Print Assumptions C141_sample_keys.
Theorem C141_refinement : forall (f : key -> list key) ks,
  (forall k, independent (f k) /\ Forall (derived k) (f k)) -> independent ks -> independent (flat_map f ks).
Proof. exact (@refine_independent). Qed.
Print Assumptions C141_refinement.
Example C141_case_refinement : (forall k, independent [k ++ [Fold 0]; k ++ [Fold 1]] /\ Forall (derived k) [k ++ [Fold 0]; k ++ [Fold 1]]) /\ independent [[Fold 0]; [Fold 1]].
Proof.
  split.
  - intros k. split; [|repeat constructor; eexists; reflexivity]. repeat constructor; intros [ms E]; rewrite <- app_assoc in E; apply app_inv_head in E; discriminate E.
  - repeat constructor; intros [ms E]; discriminate E.
Qed.
Theorem C141_posterior_draws : forall label p g (to_posterior : key -> bool) rs, proper label rs ->
  independent (flat_map (fun k => if to_posterior k then sample_keys label p k else [k]) (session label g rs)).
Proof. exact (@posterior_draws). Qed.
Print Assumptions C141_posterior_draws.
Theorem C141_direct_refuted : forall label g r rs, draws_request r -> ~ independent (session label g (Direct :: r :: rs)).
Proof. exact (@direct_then_any). Qed.
Print Assumptions C141_direct_refuted.
Theorem C141_sampler_refuted : forall label g leaves s r r' rs, 1 <= leaves -> 1 <= s -> label leaves = label 2 -> draws_request r' ->
  ~ independent (session label g (Sampler leaves s :: r :: r' :: rs)).
Proof. exact (@sampler_like_generator). Qed.
Print Assumptions C141_sampler_refuted.
Example C141_case :
  session same_label [] [Sampler 3 1; Init 2; Call (Average 2)]
  = [[Cut 2 0; Cut 2 0; Cut 3 0]; [Cut 2 0; Cut 2 0; Cut 3 1]; [Cut 2 0; Cut 2 0; Cut 3 2]; [Cut 2 0; Cut 2 0; Cut 2 1]; [Cut 2 0; Cut 2 0; Cut 2 0; Cut 2 0]; [Cut 2 0; Cut 2 0; Cut 2 0; Cut 2 1]]
  /\ sample_keys same_label SwagOf [Fold 1] = [[Fold 1; Cut 3 1]; [Fold 1; Cut 3 2]; [Fold 1; Cut 3 0]].
Proof. vm_compute. repeat split. Qed.

(** C142: whole fits *)
Theorem C142_fits_independent : forall label g fits cs, Forall (fit_program label) fits -> proper label cs ->
  independent (session label g (concat fits ++ cs)).
Proof. exact (@fits_independent). Qed.
Print Assumptions C142_fits_independent.
Example C142_case_hypotheses : Forall (fit_program same_label) [fit_map Classifier false 2; fit_ensemble Classifier Nothing false 2 3] /\ proper same_label [Call (Average 4)].
Proof.
  split; [repeat constructor|]. split; [repeat constructor; cbn; try discriminate; try lia|]. intros l1 a b l2 E. destruct l1 as [|x l1]; inversion E. destruct l1; discriminate.
Qed.
Theorem C142_generator_uses : forall m o (freeze : bool) leaves size s n (val : bool),
  let first := match o with AfterMap _ => if freeze then 4 else 0 | _ => 0 end in
  let each := match o with Available => 1 | _ => 3 end in
  length (fit_ensemble m o freeze size s) = first + size * each
  /\ length (fit_sampler m o freeze leaves s) = first + 1 + each
  /\ length (fit_advi m o s val) = match o with Available => 2 | AfterMap _ => 6 | Nothing => 4 end
  /\ length (calibrate n val s) = (if val then 3 else 2)
  /\ rmap (@length _) (fit_swag m o s) = match o with Available => Ok 1 | AfterMap _ => Ok 5 | Nothing => Err ValueError end
  /\ rmap (@length _) (fit_laplace m o) = match o with Available => Ok 0 | AfterMap _ => Ok 4 | Nothing => Err ValueError end.
Proof. exact (@generator_uses). Qed.
Print Assumptions C142_generator_uses.
Theorem C142_uses_advance : forall label g rs cs, session label g (rs ++ cs) =
  session label g rs ++ session label (g ++ repeat (Cut (label 2) 0) (length rs)) cs.
Proof. exact (@uses_advance). Qed.
Print Assumptions C142_uses_advance.
Theorem C142_ensemble_members : forall label g m freeze size s,
  session label g (fit_ensemble m Nothing freeze size s) =
  flat_map (fun i => session label (g ++ repeat (Cut (label 2) 0) (3 * i)) (fit_map m false s)) (seq 0 size).
Proof. exact (@ensemble_members). Qed.
Print Assumptions C142_ensemble_members.
Theorem C142_map_fit_keys : forall label g m s,
  session label g (fit_map m false s) =
  (let k := g ++ [Cut (label 2) 0] in map (fun i => k ++ [Cut (label (init_parts m)) i]) (seq 1 (init_parts m - 1)))
  ++ (let k := g ++ [Cut (label 2) 0; Cut (label 2) 0] in map (fun i => k ++ [Cut (label 3) i]) (seq 1 2))
  ++ (let k := g ++ [Cut (label 2) 0; Cut (label 2) 0; Cut (label 2) 0] in map (fun i => k ++ [Fold i]) (seq 0 s)).
Proof. exact (@map_fit_keys). Qed.
Print Assumptions C142_map_fit_keys.
Theorem C142_flow_validation : forall label g s rs, exists l,
  session label g (FlowTraining s true :: rs) = flat_map (fun i => let k := g ++ [Cut (label 2) 0; Fold i] in [k ++ [Cut (label 2) 0]; k ++ [Cut (label 2) 1; Cut (label 2) 1]]) (seq 0 s)
     ++ [g ++ [Cut (label 2) 0; Cut (label 2) 1; Cut (label 2) 1]] ++ l.
Proof. exact (@flow_validation). Qed.
Print Assumptions C142_flow_validation.
Theorem C142_sampler_reuse_refuted : forall label g m freeze leaves s, 2 <= leaves -> 1 <= s -> label leaves = label (init_parts m) ->
  let k := g ++ [Cut (label 2) 0] in
  let init := k ++ [Cut (label 2) 0] in
  reused (init ++ [Cut (label (init_parts m)) 1]) (session label g (fit_sampler m Nothing freeze leaves s))
  /\ noise_key label leaves k 0 1 = init ++ [Cut (label (init_parts m)) 1].
Proof. exact (@sampler_reuse). Qed.
Print Assumptions C142_sampler_reuse_refuted.
Example C142_case :
  length (session same_label [] (fit_ensemble Classifier Nothing false 2 3)) = 14
  /\ session same_label [] (fit_map Classifier false 2)
  = [[Cut 2 0; Cut 3 1]; [Cut 2 0; Cut 3 2]; [Cut 2 0; Cut 2 0; Cut 3 1]; [Cut 2 0; Cut 2 0; Cut 3 2]; [Cut 2 0; Cut 2 0; Cut 2 0; Fold 0]; [Cut 2 0; Cut 2 0; Cut 2 0; Fold 1]]
  /\ fit_swag Regressor Nothing 3 = Err ValueError
  /\ nth 1 (session same_label [] (fit_sampler Classifier Nothing false 3 1)) [] = nth 3 (session same_label [] (fit_sampler Classifier Nothing false 3 1)) [].
Proof. vm_compute. repeat split. Qed.
