(** Proofs for FlowModel.v: from fit to draws. *)
From Coq Require Import List Arith ZArith QArith Bool String Lia.
From Verif Require Import Lib NestedModel NestedSpec FreezeSpec LapModel FlatModel FlatSpec FlatProofs FlatProofs3 FlatProofs4 QuantModel PredModel LikModel CalibModel TrainModel TrainSpec TrainProofs4 DescModel DescSpec DescProofs FlowModel FlowSpec FlowProofs FlowProofs2.
Import ListNotations.
Open Scope list_scope.
Local Notation length := List.length.

Lemma before_0 : forall B e (bs : list B), before e 0 bs = passes e bs.
Proof. intros B e bs. unfold before. now rewrite app_nil_r. Qed.

Lemma advi_whole : forall (M X T O K G OS Pr Un C : Type) (ex : Q -> Q) (split : K -> K * K) (normal : K -> nat -> nat -> list (list Q)) (predict : O -> Pr) (fold_in : nat -> K)
    (diff : (flow -> Q) -> flow -> G) gadd gdiv zeros_like clip_by (opt : G -> OS -> flow -> flow * OS) (opt_init : flow -> OS) std lb n_samples normals run_key
    (init : list (string * tree (list Q))) (m m' : option M) (net : tree (list Q) -> option K -> bool -> option M -> X -> O * M) (log_prior : tree (list Q) -> Q)
    (calibrator : option (bool -> option C -> O -> O * C)) calib_mutable (log_prob : O -> list T -> list Q) n_train n_val
    (metrics : option (list (Pr -> option Un -> list T -> Q))) training_metrics h monitor cfg bs vs state ms mvs,
  let d := length (ravel (wrap init)) in
  (forall f g p, (forall q, f q = g q) -> diff f p = diff g p) -> (forall a, h_accumulation h = Some a -> (a <= 1)%nat) ->
  (forall key n, length (normal key n d) = n /\ Forall (fun z => length z = d) (normal key n d)) -> length (normals d) = d ->
  (forall g o f, length (fl_mean (fst (opt g o f))) = length (fl_mean f) /\ length (fl_log_std (fst (opt g o f))) = length (fl_log_std f)) ->
  unique_keys (Dict init) ->
  advi_fit M X T O K G OS Pr Un ex split normal predict fold_in diff gadd gdiv zeros_like clip_by opt opt_init std lb n_samples normals run_key init m
    net log_prior calibrator calib_mutable log_prob n_train n_val metrics training_metrics h monitor cfg bs vs = Ok (state, m', ms, mvs) ->
  exists arranged, (forall v, length v = d -> same_structure (wrap init) (arranged v) /\ ravel (arranged v) = v) /\
  let draws := fun key f => map (fun z => arranged (placed ex lb (fl_mean f) (fl_log_std f) z)) (normal (snd (split (snd (split key)))) n_samples d) in
  let outputs := fun key p m x => let o := fst (net p (Some key) true m x) in
    match calibrator with None => o | Some f => fst (f false (match calib_mutable with Some c => c | None => None end) o) end in
  let negative_log_joint := fun o (ys : list T) p => (- (total_of (log_prob o ys) * (inject_Z (Z.of_nat n_train) / inject_Z (Z.of_nat (length ys))) + log_prior p))%Q in
  let objective := fun key f m (b : X * list T) =>
    (average_of (map (fun p => negative_log_joint (outputs (fst (split key)) p m (fst b)) (snd b) p) (draws key f)) - average_of (map (fun _ => total_of (fl_log_std f)) (draws key f)))%Q in
  let clip := fun g => match h_norm h with Some b => if Qlt_le_dec 0 b then clip_by b g else g | None => g end in
  let update := gradient_update diff clip opt fold_in objective
    (fun key f m b => match m with
                      | Some _ => option_map (fun p => snd (net p (Some (fst (split key))) true m (fst b))) (nth_error (draws key f) (n_samples - 1))
                      | None => None end) in
  let f0 := {| fl_mean := ravel (wrap init); fl_log_std := map (fun z => (std * z)%Q) (normals d) |} in
  let '(f, _, mu) := descend update 0 (passes (length ms) bs) (f0, opt_init f0, m) in
  (length ms <= n_epochs cfg)%nat /\ (is_active (stop_config cfg) = false -> length ms = n_epochs cfg)
  /\ same_structure (wrap init) (wrap (first_components state)) /\ ravel (wrap (first_components state)) = fl_mean f
  /\ same_structure (wrap init) (wrap (second_components state)) /\ ravel (wrap (second_components state)) = fl_log_std f
  /\ m' = mu
  /\ forall key, exists z, normal (snd (split key)) 1%nat d = [z] /\ advi_draw K ex split normal lb init state key = Ok (arranged (placed ex lb (fl_mean f) (fl_log_std f) z)).
Proof.
  intros M X T O K G OS Pr Un C ex split normal predict fold_in diff gadd gdiv zeros_like clip_by opt opt_init std lb n_samples normals run_key init m m' net log_prior calibrator calib_mutable log_prob n_train n_val metrics training_metrics h monitor cfg bs vs state ms mvs
    d DE HA HN HI SZ UK RUN.
  exists (unravel_like init). split.
  { intros v L. unfold unravel_like. pose proof (unique_wrap init UK) as UW. split; [now apply cut_tree_structure|]. now apply ravel_cut. }
  intros dr outs nlj0 obj clip update f0. unfold advi_fit in RUN. fold d in RUN.
  change (flow_init std normals (ravel (wrap init)) None) with f0 in RUN.
  destruct (advi_run _ _ _ _ _ _ _ _ _ _ _ _ _ _ _ _ _ _ _ _ _ _ _ (advi_start M G OS opt_init f0 m)) as [[[s ms1] mvs1]|] eqn:E; [|discriminate].
  cbn [bind] in RUN. destruct (advi_state init (fl_mean (params s)) (fl_log_std (params s))) as [st|] eqn:ST; [|discriminate]. cbn [bind] in RUN.
  injection RUN as Z1 Z2 Z3 Z4. subst st ms1 mvs1.
  pose proof (flow_fit _ _ _ _ _ _ _ _ _ _ C ex split normal predict fold_in diff gadd gdiv zeros_like clip_by opt lb d n_samples (unravel_like init) run_key net log_prior calibrator calib_mutable log_prob n_train n_val metrics training_metrics h monitor cfg bs vs _ s ms mvs
    DE HA (fun key => proj1 (HN key n_samples)) E) as F. cbv zeta in F.
  cbn [advi_start params opt_state mutable step] in F. destruct F as (A1 & A2 & A3 & _ & _ & _). rewrite before_0 in A3.
  match type of A3 with _ = ?x => change x with (descend update 0 (passes (length ms) bs) (f0, opt_init f0, m)) in A3 end.
  pose proof (descend_proj _ _ _ (fun x : flow * OS * option M => length (fl_mean (fst (fst x))) = d /\ length (fl_log_std (fst (fst x))) = d) update update (fun x => x)) as DI.
  specialize (DI ltac:(intros j [[f o] mu] b (I1 & I2); split; [reflexivity|]; unfold update, gradient_update; cbn [fst] in I1, I2 |- *;
    match goal with |- context [opt ?g o f] => destruct (SZ g o f) as (J1 & J2); destruct (opt g o f) as [f1 o1]; cbn [fst snd] in *; split; congruence end)).
  specialize (DI (passes (length ms) bs) 0%nat (f0, opt_init f0, m)). destruct DI as (_ & D1 & D2).
  { cbn [fst fl_mean fl_log_std f0]. split; [reflexivity|]. now rewrite map_length. }
  destruct (descend update 0 (passes (length ms) bs) (f0, opt_init f0, m)) as [[f o] mu] eqn:DS. cbn [fst] in D1, D2.
  injection A3 as P1 P2 P3. subst f mu.
  split; [exact A1|]. split; [exact A2|].
  destruct (advi_plain Q (flow_entry ex) init (fl_mean (params s)) (fl_log_std (params s)) (fl_mean (params s)) UK D1 D2 D1) as (st & _ & _ & ES & S1 & S2 & S3 & S4 & _).
  rewrite ST in ES. injection ES as ES. subst st. split; [exact S1|]. split; [exact S2|]. split; [exact S3|]. split; [exact S4|]. split; [symmetry; exact Z2|].
  intros key. destruct (HN (snd (split key)) 1%nat) as (L1 & L2). destruct (normal (snd (split key)) 1%nat d) as [|z [|? ?]] eqn:EN; try discriminate. apply Forall_inv in L2.
  exists z. split; [reflexivity|]. unfold advi_draw, base_sample. fold d. rewrite EN. cbn [map]. unfold advi_sample. rewrite <- !ravel_wrap, S2, S4, forward_placed.
  rewrite unravel_ok; [reflexivity|]. unfold placed. rewrite map_length, !combine_length, D1, D2, L2. unfold d. lia.
Qed.
