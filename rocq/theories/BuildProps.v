(** Properties C129-C131: how probabilistic models are put together, checked and initialised. *)
From Coq Require Import List Arith ZArith QArith Bool String.
From Verif Require Import Lib SchedModel BuildModel BuildSpec BuildProofs BuildProofs2 BuildProofs3 BuildCases.
From Verif Require Import Lit.
Import ListNotations.
Local Notation length := List.length.
Local Notation concat := List.concat.
Open Scope nat_scope.

(** ==== C129 ==== *)

(** the parts of a classifier follow from the approximator and the network *)
Theorem C129_classifier : forall transformers masked net a, from_library a -> kwargs_fine a ->
  exists p, build_classifier transformers masked net a = Ok p /\
    Some (pt_posterior p) = posterior_of a /\
    has_gp_head (pt_manager p) = is_sngp a /\
    head_kwargs (pt_manager p) = method_kwargs a /\
    uses_transformers (pt_manager p) = transformers && nw_pretrained net /\
    (pt_layer p = MaskedLayer <-> transformers = true /\ In (nw_class net) masked).
Proof. exact (@classifier_built). Qed.
Print Assumptions C129_classifier.
Example C129_case_hypotheses : from_library sngp2 /\ kwargs_fine sngp2.
Proof. split; [exact I|]. split; [exists 2%Q; now left|]. intros k v [[= <- <-]|[[= <- <-]|[]]]; cbn; tauto. Qed.
Theorem C129_unknown_raises : forall transformers masked net name, ~ In name library_names ->
  build_classifier transformers masked net (CustomA name) = Err AttributeError /\ build_regressor (CustomA name) = Err AttributeError.
Proof. exact (@unknown_name). Qed.
Print Assumptions C129_unknown_raises.
Example C129_case_unknown : ~ In "vi"%string library_names.
Proof. lit. Qed.
Theorem C129_keywords_required : forall transformers masked net kw, ~ kwargs_fine (SngpA kw) ->
  build_classifier transformers masked net (SngpA kw) = Err TypeError.
Proof. exact (@sngp_bad_keywords). Qed.
Print Assumptions C129_keywords_required.
Example C129_case_keywords : ~ kwargs_fine (SngpA [("ridge_penalty"%string, (1 # 2)%Q)]) /\ ~ kwargs_fine (SngpA [("output_dim"%string, 2%Q); ("ridge"%string, (1 # 2)%Q)]).
Proof. split; intros [[d H] K]; [cbn in H; intuition congruence|]. specialize (K _ _ (or_intror (or_introl eq_refl))). cbn in K. intuition congruence. Qed.

(** SNGP resets the covariance with the ridge penalty of the approximator *)
Theorem C129_callbacks : forall transformers masked net a p, from_library a -> kwargs_fine a ->
  build_classifier transformers masked net a = Ok p ->
  fit_callbacks p = match a with
                    | SngpA kw => Ok [match get "ridge_penalty" kw with Some r => r | None => 1%Q end]
                    | _ => Ok []
                    end.
Proof. exact (@classifier_callbacks). Qed.
Print Assumptions C129_callbacks.

(** a regressor accepts an SNGP approximator, but its fit raises *)
Theorem C129_regressor_sngp_refuted : forall a, from_library a ->
  exists p, build_regressor a = Ok p /\ Some (pt_posterior p) = posterior_of a /\ pt_manager p = RegM /\
            (is_sngp a = false -> fit_callbacks p = Ok []) /\ (is_sngp a = true -> fit_callbacks p = Err AttributeError).
Proof. exact (@regressor_built). Qed.
Print Assumptions C129_regressor_sngp_refuted.

(** every component of every model can draw keys *)
Theorem C129_all_components : forall ops, in_order 0 ops -> exists t, run ops empty_world = Ok t.
Proof. exact (@all_components_draw). Qed.
Print Assumptions C129_all_components.
Example C129_case_in_order : in_order 0 [Build 5 0; Build 6 1; Draw 0 JointC; Draw 1 PriorC; Draw 0 PriorC].
Proof. cbn. lit. Qed.

(** the keys of one generator, whoever draws them, are its stream *)
Theorem C129_streams : forall ops t g seed prior, run ops empty_world = Ok t -> nth_error (builds ops) g = Some (seed, prior) ->
  keys_of_generator g t = rng_gets (length (keys_of_generator g t)) (Seed seed).
Proof. exact (@streams). Qed.
Print Assumptions C129_streams.

(** every component but the prior uses the generator of its model *)
Theorem C129_owners : forall ops t m c g k, run ops empty_world = Ok t -> In (m, c, g, k) t ->
  (c <> PriorC -> g = m) /\
  exists sm sg p, nth_error (builds ops) m = Some (sm, p) /\ nth_error (builds ops) g = Some (sg, p) /\ m <= g.
Proof. exact (@owners). Qed.
Print Assumptions C129_owners.

(** with a prior of its own, the keys of a model depend on its seed only *)
Theorem C129_reproducible : forall ops t m seed prior, run ops empty_world = Ok t ->
  nth_error (builds ops) m = Some (seed, prior) ->
  (forall j s, nth_error (builds ops) j = Some (s, prior) -> j = m) ->
  keys_of_model m t = rng_gets (length (keys_of_model m t)) (Seed seed).
Proof. exact (@reproducible). Qed.
Print Assumptions C129_reproducible.
Theorem C129_different_seeds : forall ops t m m' seed seed' prior prior', run ops empty_world = Ok t ->
  nth_error (builds ops) m = Some (seed, prior) -> nth_error (builds ops) m' = Some (seed', prior') -> seed <> seed' ->
  (forall j s, nth_error (builds ops) j = Some (s, prior) -> j = m) -> (forall j s, nth_error (builds ops) j = Some (s, prior') -> j = m') ->
  forall k, In k (keys_of_model m t) -> ~ In k (keys_of_model m' t).
Proof. exact (@different_seeds). Qed.
Print Assumptions C129_different_seeds.
Example C129_case_seeds : exists t, let ops := [Build 5 0; Build 6 1; Draw 0 JointC; Draw 1 PriorC; Draw 0 PriorC] in run ops empty_world = Ok t /\
  nth_error (builds ops) 0 = Some (5, 0) /\ nth_error (builds ops) 1 = Some (6, 1) /\
  (forall j s, nth_error (builds ops) j = Some (s, 0) -> j = 0) /\ (forall j s, nth_error (builds ops) j = Some (s, 1) -> j = 1) /\ length (keys_of_model 0 t) = 2 /\ length (keys_of_model 1 t) = 1.
Proof. eexists. split; [vm_compute; reflexivity|]. repeat split; intros [|[|[|j]]]; cbn; congruence. Qed.

(** a prior uses the generator of the model built last with it *)
Theorem C129_prior_owner : forall ops m t, run (ops ++ [Draw m PriorC]) empty_world = Ok t ->
  exists t' g k p sm sg, t = t' ++ [(m, PriorC, g, k)] /\ nth_error (builds ops) m = Some (sm, p) /\ nth_error (builds ops) g = Some (sg, p) /\
    (forall j s, nth_error (builds ops) j = Some (s, p) -> j <= g).
Proof. exact (@prior_owner). Qed.
Print Assumptions C129_prior_owner.

(** with the shared default prior, models interfere *)
Theorem C129_shared_prior_refuted : exists t1 t2 t3,
  run [Build 0 0; Draw 0 PriorC] empty_world = Ok t1 /\
  run [Build 0 0; Build 1 0; Draw 0 PriorC; Draw 1 ManagerC] empty_world = Ok t2 /\
  run [Build 0 0; Build 1 0; Draw 1 ManagerC] empty_world = Ok t3 /\
  keys_of_model 0 t1 <> keys_of_model 0 t2 /\ keys_of_model 1 t2 <> keys_of_model 1 t3.
Proof. exact (@shared_prior_refuted). Qed.
Print Assumptions C129_shared_prior_refuted.
Example C129_case :
  (build_classifier true ["FlaxBertForMaskedLM"%string] bert SwagA = Ok {| pt_manager := HfM; pt_layer := MaskedLayer; pt_posterior := SwagP |} /\
   build_classifier true ["FlaxBertForMaskedLM"%string] mlp SghmcA = Ok {| pt_manager := PlainM; pt_layer := PlainLayer; pt_posterior := SghmcP |} /\
   (exists p, build_classifier false [] mlp sngp2 = Ok p /\ fit_callbacks p = Ok [(1 # 2)%Q]) /\
   (exists p, build_regressor sngp2 = Ok p /\ fit_callbacks p = Err AttributeError) /\
   build_classifier true [] mlp (CustomA "vi") = Err AttributeError) /\
  exists t, run [Build 5 0; Build 6 1; Draw 0 JointC; Draw 1 PriorC; Draw 0 PriorC; Draw 0 PredictiveC] empty_world = Ok t /\
    keys_of_model 0 t = rng_gets 3 (Seed 5) /\ keys_of_model 1 t = [Child (Seed 6) 0].
Proof. exact (conj case_parts case_streams). Qed.

(** ==== C130 ==== *)

(** a classifier accepts a loader exactly when it has as many different labels as the network has
    outputs *)
Theorem C130_classifier_accepts : forall V (net_init : key * key -> list nat -> variables V) calibrator d l g,
  makes_params net_init -> match calibrator with None => True | Some f => makes_params f end -> array_loader l ->
  let r := snd (class_check (class_init net_init) (fun _ _ => Ok (ArrayOut [1; d])) calibrator l g) in
  (r = Ok tt <-> labels_of l <> [] /\ distinct_count (labels_of l) d) /\ (r = Ok tt \/ r = Err ValueError).
Proof. exact (@class_check_accepts). Qed.
Print Assumptions C130_classifier_accepts.

(** labels in range with one class missing are rejected *)
Theorem C130_missing_class_refuted : forall V (net_init : key * key -> list nat -> variables V) calibrator d l g missing,
  makes_params net_init -> match calibrator with None => True | Some f => makes_params f end -> array_loader l ->
  (forall y, In y (labels_of l) -> (0 <= y < Z.of_nat d)%Z) -> (0 <= missing < Z.of_nat d)%Z -> ~ In missing (labels_of l) ->
  snd (class_check (class_init net_init) (fun _ _ => Ok (ArrayOut [1; d])) calibrator l g) = Err ValueError.
Proof. exact (@missing_class_refuted). Qed.
Print Assumptions C130_missing_class_refuted.
Example C130_case_hypotheses : makes_params normed /\ makes_params plain /\ array_loader (labels [0; 1; 1]%Z) /\ (forall y, In y (labels_of (labels [0; 1; 1]%Z)) -> (0 <= y < 3)%Z) /\ ~ In 2%Z (labels_of (labels [0; 1; 1]%Z)).
Proof. split; [intros k s; now exists 3|]. split; [intros k s; now exists 3|]. split; [split; [reflexivity|]; intros x y [[= <- <-]|[]]; now exists [5]|]. split; [intros y H; cbn in H; lia|cbn; lia]. Qed.

(** a label out of range can be accepted *)
Theorem C130_out_of_range_refuted : forall V (net_init : key * key -> list nat -> variables V) calibrator g,
  makes_params net_init -> match calibrator with None => True | Some f => makes_params f end ->
  exists l, array_loader l /\ In 7%Z (labels_of l) /\
    snd (class_check (class_init net_init) (fun _ _ => Ok (ArrayOut [1; 2])) calibrator l g) = Ok tt.
Proof. exact (@out_of_range_refuted). Qed.
Print Assumptions C130_out_of_range_refuted.
Theorem C130_dict_inputs_raise : forall V (net_init : key * key -> list nat -> variables V) apply calibrator l g n d y r,
  ld_batches l = (DictShape d, y) :: r -> loader_size l = Ok (S n) ->
  class_check (class_init net_init) apply calibrator l g = (Child g 0, Err TypeError).
Proof. exact (@dict_inputs_raise). Qed.
Print Assumptions C130_dict_inputs_raise.
Example C130_case_dict : loader_size {| ld_batches := [(DictShape [("input_ids"%string, [2; 5])], [0; 1]%Z)]; ld_cached := None |} = Ok 2.
Proof. reflexivity. Qed.

(** an accepted check advances the generator of the model by two keys *)
Theorem C130_keys : forall V init apply (calibrator : option (key * key -> list nat -> variables V)) l g g' r,
  class_check init apply calibrator l g = (g', r) ->
  (g' = g \/ g' = Child g 0 \/ g' = Child (Child g 0) 0) /\ (r = Ok tt -> g' = Child (Child g 0) 0).
Proof. exact (@class_check_keys). Qed.
Print Assumptions C130_keys.

(** a regressor accepts a loader exactly when the targets of its first batch have a second
    dimension equal to the outputs of both networks *)
Theorem C130_regressor_accepts : forall V (net_init var_init : key * key -> list nat -> variables V) calibrator a b x y rest g,
  makes_params net_init -> makes_params var_init -> match calibrator with None => True | Some f => makes_params f end ->
  (forall k s, only_params (net_init k s)) -> (forall k s, only_params (var_init k s)) ->
  let r := snd (reg_check (reg_init net_init var_init) (reg_shapes (fun _ => [1; a]) (fun _ => [1; b])) calibrator ((TupleShape x, y) :: rest) g) in
  (r = Ok tt <-> exists n m tail, y = n :: m :: tail /\ 0 < m /\ a = m /\ b = m).
Proof. exact (@reg_check_accepts). Qed.
Print Assumptions C130_regressor_accepts.
Theorem C130_regressor_first_batch : forall V init apply (calibrator : option (key * key -> list nat -> variables V)) b rest rest' g,
  reg_check init apply calibrator (b :: rest) g = reg_check init apply calibrator (b :: rest') g.
Proof. exact (@reg_check_first_batch). Qed.
Print Assumptions C130_regressor_first_batch.
Theorem C130_regressor_raises : forall V init apply (calibrator : option (key * key -> list nat -> variables V)) g,
  reg_check init apply calibrator [] g = (g, Err ValueError) /\
  (forall x n rest, reg_check init apply calibrator ((TupleShape x, [n]) :: rest) g = (g, Err IndexError)) /\
  (forall x n rest, reg_check init apply calibrator ((TupleShape x, [n; 0]) :: rest) g = (g, Err ValueError)) /\
  (forall d y rest, reg_check init apply calibrator ((DictShape d, y) :: rest) g = (g, Err AttributeError)).
Proof. exact (@reg_check_raises). Qed.
Print Assumptions C130_regressor_raises.

(** networks with mutable variables are always rejected by a regressor *)
Theorem C130_regressor_mutable_refuted : forall V (net_init var_init : key * key -> list nat -> variables V) net_out var_out calibrator x y rest g,
  makes_params net_init -> makes_params var_init ->
  (forall k s, ~ only_params (net_init k s)) \/ (forall k s, ~ only_params (var_init k s)) ->
  is_ok (snd (reg_check (reg_init net_init var_init) (reg_shapes net_out var_out) calibrator ((x, y) :: rest) g)) = false.
Proof. exact (@reg_check_mutable_raises). Qed.
Print Assumptions C130_regressor_mutable_refuted.
Example C130_case_mutable : (forall k s, only_params (plain k s)) /\ (forall k s, ~ only_params (normed k s)).
Proof. split; [intros k s q x [[= <- <-]|[]]; reflexivity|]. intros k s H. now specialize (H _ _ (or_intror (or_introl eq_refl))). Qed.

(** a rejected training loader leaves the posterior alone *)
Theorem C130_train_rejected : forall L Sp F C (check : L -> key -> key * result unit) fit (calib : L -> option L -> Sp -> key -> key * result (C * Sp)) batches tl vl cl st g g' e,
  check tl g = (g', Err e) -> train check (F := F) fit calib batches tl vl cl st g = (g', st, Err e).
Proof. exact (@train_rejected). Qed.
Print Assumptions C130_train_rejected.
Theorem C130_train_accepted : forall L Sp F C (check : L -> key -> key * result unit) fit (calib : L -> option L -> Sp -> key -> key * result (C * Sp)) batches tl v cl st g g1 g2 g3 g4 g5 (f : F) st' c st2,
  check tl g = (g1, Ok tt) -> fit tl (Some v) st g1 = (g2, Ok (f, st')) -> batches cl <> 0 -> check cl g2 = (g3, Ok tt) -> check v g3 = (g4, Ok tt) ->
  calib cl (Some v) st' g4 = (g5, Ok (c, st2)) ->
  train check fit calib batches tl (Some v) (Some cl) st g = (g5, st2, Ok (f, Some c)).
Proof. exact (@train_accepted). Qed.
Print Assumptions C130_train_accepted.

(** calibration and validation loaders are checked after the fit only *)
Theorem C130_calib_late_refuted : forall L Sp F C (check : L -> key -> key * result unit) fit (calib : L -> option L -> Sp -> key -> key * result (C * Sp)) batches tl vl cl st g g1 g2 g3 (f : F) st' e,
  check tl g = (g1, Ok tt) -> fit tl vl st g1 = (g2, Ok (f, st')) -> batches cl <> 0 -> check cl g2 = (g3, Err e) ->
  train check fit calib batches tl vl (Some cl) st g = (g3, st', Err e).
Proof. exact (@calib_checked_after_fit). Qed.
Print Assumptions C130_calib_late_refuted.
Theorem C130_val_late_refuted : forall L Sp F C (check : L -> key -> key * result unit) fit (calib : L -> option L -> Sp -> key -> key * result (C * Sp)) batches tl v cl st g g1 g2 g3 g4 (f : F) st' e,
  check tl g = (g1, Ok tt) -> fit tl (Some v) st g1 = (g2, Ok (f, st')) -> batches cl <> 0 -> check cl g2 = (g3, Ok tt) -> check v g3 = (g4, Err e) ->
  train check fit calib batches tl (Some v) (Some cl) st g = (g4, st', Err e).
Proof. exact (@val_checked_after_fit). Qed.
Print Assumptions C130_val_late_refuted.
Theorem C130_val_unchecked : forall L Sp F C (check check' : L -> key -> key * result unit) (fit : L -> option L -> Sp -> key -> key * result (F * Sp)) (calib : L -> option L -> Sp -> key -> key * result (C * Sp)) batches tl vl st g,
  check tl g = check' tl g ->
  train check fit calib batches tl vl None st g = train check' fit calib batches tl vl None st g.
Proof. exact (@val_unchecked). Qed.
Print Assumptions C130_val_unchecked.
Example C130_case :
  snd (class_check (class_init normed) (fun _ _ => Ok (ArrayOut [1; 3])) None (labels [0; 1; 2; 1]%Z) (Seed 0)) = Ok tt /\
  snd (class_check (class_init normed) (fun _ _ => Ok (ArrayOut [1; 3])) None (labels [0; 1; 1]%Z) (Seed 0)) = Err ValueError /\
  fst (class_check (class_init normed) (fun _ _ => Ok (ArrayOut [1; 3])) None (labels [0; 1; 2; 1]%Z) (Seed 0)) = Child (Child (Seed 0) 0) 0 /\
  snd (reg_check (reg_init plain plain) (reg_shapes (fun _ => [1; 2]) (fun _ => [1; 2])) None [(TupleShape [8; 5], [8; 2]); (TupleShape [8; 5], [8; 9])] (Seed 0)) = Ok tt /\
  snd (reg_check (reg_init plain plain) (reg_shapes (fun _ => [1; 2]) (fun _ => [1; 1])) None [(TupleShape [8; 5], [8; 2])] (Seed 0)) = Err ValueError /\
  snd (reg_check (reg_init normed plain) (reg_shapes (fun _ => [1; 2]) (fun _ => [1; 2])) None [(TupleShape [8; 5], [8; 2])] (Seed 0)) = Err ValueError.
Proof. exact case_checks. Qed.

(** ==== C131 ==== *)

(** the network receives the variables its init made *)
Theorem C131_round_trip : forall V (v : variables V) s, NoDup (map fst v) ->
  mm_init_from_dict [("model"%string, v)] = Ok s ->
  exists u, class_variables s = Ok u /\ forall k, get k u = get k v.
Proof. exact (@variables_round_trip). Qed.
Print Assumptions C131_round_trip.
Example C131_case_round_trip : exists s, let v := normed (Seed 0, Seed 1) [5] in NoDup (map fst v) /\ mm_init_from_dict [("model"%string, v)] = Ok s /\ ms_mutable s <> None.
Proof. eexists. split; [lit|]. split; [reflexivity|discriminate]. Qed.
Theorem C131_mutable : forall V (d : list (string * variables V)) s, mm_init_from_dict d = Ok s ->
  (ms_mutable s = None <-> forall k v, In (k, v) d -> only_params v).
Proof. exact (@mutable_none_iff). Qed.
Print Assumptions C131_mutable.
Theorem C131_no_params_raises : forall V (d : list (string * variables V)), (exists k v, In (k, v) d /\ get "params" v = None) ->
  mm_init_from_dict d = Err KeyError.
Proof. exact (@no_params_raises). Qed.
Print Assumptions C131_no_params_raises.
Example C131_case_no_params : mm_init_from_dict [("model"%string, [("batch_stats"%string, 4)])] = Err KeyError.
Proof. reflexivity. Qed.

(** the state of the joint, and the keys it takes *)
Theorem C131_joint : forall V (net_init : key * key -> list nat -> variables V) apply calibrator s g z v oms o d,
  zeros_shape s = Ok z -> v = net_init (Child (Child g 0) 1, Child (Child g 0) 2) z ->
  mm_init_from_dict [("model"%string, v)] = Ok oms ->
  apply oms (get_inputs_from_shape s) = Ok o -> out_dim o = Ok d ->
  match calibrator with None => True | Some f => makes_params f end ->
  exists js, joint_init (class_init net_init) apply calibrator s g = (Child (Child g 0) 0, Ok js) /\
    js_params js = ms_params oms /\ js_mutable js = ms_mutable oms /\
    match calibrator with
    | None => js_calib_params js = [("output_calibrator"%string, None)] /\ js_calib_mutable js = [("output_calibrator"%string, None)]
    | Some f =>
        let c := f (Child (Child (Child g 0) 0) 1, Child (Child (Child g 0) 0) 2) [1; d] in
        js_calib_params js = [("output_calibrator"%string, get "params" c)] /\
        exists m, js_calib_mutable js = [("output_calibrator"%string, m)] /\
          (m = None <-> only_params c) /\
          (forall k, k <> "params"%string -> match m with Some l => get k l | None => None end = get k c)
    end.
Proof. exact (@joint_init_classification). Qed.
Print Assumptions C131_joint.
Theorem C131_keys : forall (g : key),
  let k1 := Child g 0 in let k2 := Child k1 0 in
  NoDup [fst (class_rngs k1); snd (class_rngs k1); fst (class_rngs k2); snd (class_rngs k2)].
Proof. exact (@init_keys). Qed.
Print Assumptions C131_keys.

(** the variance network of a regressor gets the same key for its parameters and for dropout *)
Theorem C131_variance_key_refuted : forall V (net_init var_init : key * key -> list nat -> variables V) s k, exists k1 k2 k3,
  NoDup [k1; k2; k3] /\
  reg_init net_init var_init (TupleShape s) k = Ok [("model"%string, net_init (k1, k2) (1 :: s)); ("lik_log_var"%string, var_init (k3, k3) (1 :: s))].
Proof. exact (@variance_dropout_key_refuted). Qed.
Print Assumptions C131_variance_key_refuted.
Theorem C131_one_row : forall x : ishape,
  get_inputs_from_shape (get_input_shape x) =
  match x with
  | TupleShape s => TupleShape (1 :: tl s)
  | DictShape d => DictShape (map (fun p => (fst p, 1 :: tl (snd p))) d)
  end.
Proof. exact (@shapes_one_row). Qed.
Print Assumptions C131_one_row.
Example C131_case : exists js,
  joint_init (class_init normed) (fun _ _ => Ok (ArrayOut [1; 3])) (Some plain) (TupleShape [5]) (Seed 0) = (Child (Child (Seed 0) 0) 0, Ok js) /\
  js_params js = [("model"%string, 3)] /\ js_mutable js = Some [("model"%string, [("batch_stats"%string, 4)])] /\
  js_calib_params js = [("output_calibrator"%string, Some 3)] /\ js_calib_mutable js = [("output_calibrator"%string, None)].
Proof. exact case_joint. Qed.
