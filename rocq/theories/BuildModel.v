(** Model of how a probabilistic model is put together and checked:
    fortuna/prob_model/classification.py and regression.py (constructors, _check_output_dim, train,
    calibrate), fortuna/prob_model/base.py:36-48, fortuna/model/model_manager/name_to_model_manager.py,
    fortuna/prob_model/posterior/posterior_approximations.py, the approximators' names and keyword
    arguments, fortuna/model/model_manager/state.py, fortuna/output_calibrator/output_calib_manager
    (init and state), fortuna/prob_model/joint (init and state), fortuna/utils/data.py:35-46 and
    fortuna/utils/random.py. *)
From Coq Require Import List Arith ZArith QArith Bool String.
From Verif Require Import Lib SchedModel.
Import ListNotations.
Local Notation length := List.length.
Local Notation concat := List.concat.
Open Scope nat_scope.
Local Notation "a >>= f" := (bind a f) (at level 61, left associativity).

(** Python dictionaries as association lists *)
Fixpoint get {V} (k : string) (d : list (string * V)) : option V :=
  match d with [] => None | (k', v) :: r => if String.eqb k k' then Some v else get k r end.
Definition get_or {V} (e : error) (k : string) (d : list (string * V)) : result V :=
  match get k d with Some v => Ok v | None => Err e end.

(** ---- approximators (posterior/*/…_approximator.py): the class of the object; SNGP carries its
    posterior_method_kwargs (sngp_approximator.py:68-77), the others return an empty dictionary
    (posterior/base.py:44-46) ---- *)
Inductive approximator :=
| MapA | AdviA | EnsembleA | LaplaceA | SwagA | SngpA (kwargs : list (string * Q)) | SghmcA | CyclicalA | CustomA (name : string).
(** __str__ of each class *)
Definition approx_name (a : approximator) : string :=
  match a with
  | MapA => "map" | AdviA => "advi" | EnsembleA => "deep_ensemble" | LaplaceA => "laplace" | SwagA => "swag"
  | SngpA _ => "sngp" | SghmcA => "sghmc" | CyclicalA => "cyclical_sgld" | CustomA n => n
  end%string.
Definition method_kwargs (a : approximator) : list (string * Q) := match a with SngpA kw => kw | _ => [] end.

(** ---- name_to_model_manager.py:17-27 ---- *)
Inductive manager_class := PlainClass | SngpClass.
Definition managers_table : list (string * manager_class) :=
  [("map", PlainClass); ("advi", PlainClass); ("deep_ensemble", PlainClass); ("laplace", PlainClass);
   ("swag", PlainClass); ("sngp", SngpClass); ("sghmc", PlainClass); ("cyclical_sgld", PlainClass)]%string.
(** ---- posterior_approximations.py:27-37 ---- *)
Inductive posterior_class := MapP | AdviP | EnsembleP | LaplaceP | SwagP | SngpP | SghmcP | CyclicalP.
Definition posteriors_table : list (string * posterior_class) :=
  [("map", MapP); ("advi", AdviP); ("deep_ensemble", EnsembleP); ("laplace", LaplaceP);
   ("swag", SwagP); ("sngp", SngpP); ("sghmc", SghmcP); ("cyclical_sgld", CyclicalP)]%string.

(** ---- classification.py:141-216 ---- *)
Inductive manager := PlainM | SngpM (kwargs : list (string * Q)) | HfM | SngpHfM (kwargs : list (string * Q)) | RegM.
(** the constructors: the plain manager takes no further keyword; the SNGP ones require output_dim
    and know the keywords of model_manager/classification.py:131-141 *)
Definition sngp_keywords : list string :=
  ["output_dim"; "gp_hidden_features"; "normalize_input"; "ridge_penalty"; "momentum"; "mean_field_factor"]%string.
Definition sngp_kwargs_ok (kw : list (string * Q)) : bool :=
  forallb (fun p => existsb (String.eqb (fst p)) sngp_keywords) kw && match get "output_dim" kw with Some _ => true | None => false end.
Definition make_manager (c : manager_class) (kw : list (string * Q)) : result manager :=
  match c with
  | PlainClass => match kw with [] => Ok PlainM | _ => Err TypeError end
  | SngpClass => if sngp_kwargs_ok kw then Ok (SngpM kw) else Err TypeError
  end.
(** the model: its class name and whether it is an instance of FlaxPreTrainedModel (only meaningful
    when the transformers package can be imported) *)
Record network := { nw_class : string; nw_pretrained : bool }.
(** lines 161-216 *)
Definition get_model_manager (transformers : bool) (net : network) (c : manager_class) (kw : list (string * Q)) : result manager :=
  if transformers then
    match nw_pretrained net, c with
    | true, SngpClass => if sngp_kwargs_ok kw then Ok (SngpHfM kw) else Err TypeError
    | true, PlainClass => Ok HfM
    | false, _ => make_manager c kw
    end
  else make_manager c kw.
(** lines 141-159; [masked] are the class names of the mapping of masked language models *)
Inductive output_layer := PlainLayer | MaskedLayer.
Definition get_prob_output_layer (transformers : bool) (masked : list string) (net : network) : output_layer :=
  if transformers then (if existsb (String.eqb (nw_class net)) masked then MaskedLayer else PlainLayer) else PlainLayer.
(** lines 113-139 and regression.py:105-128: the parts of the model *)
Record parts := { pt_manager : manager; pt_layer : output_layer; pt_posterior : posterior_class }.
Definition build_classifier (transformers : bool) (masked : list string) (net : network) (a : approximator) : result parts :=
  let layer := get_prob_output_layer transformers masked net in
  get_or AttributeError (approx_name a) managers_table >>= fun c =>
  get_model_manager transformers net c (method_kwargs a) >>= fun m =>
  get_or AttributeError (approx_name a) posteriors_table >>= fun p =>
  Ok {| pt_manager := m; pt_layer := layer; pt_posterior := p |}.
Definition build_regressor (a : approximator) : result parts :=
  get_or AttributeError (approx_name a) posteriors_table >>= fun p =>
  Ok {| pt_manager := RegM; pt_layer := PlainLayer; pt_posterior := p |}.
(** sngp_posterior.py:46-51: the ridge penalty of the callback is an attribute of the model
    manager, which only the SNGP managers set (model_manager/classification.py:136, 176: the
    default is 1) *)
Definition ridge_penalty_of (m : manager) : result Q :=
  match m with
  | SngpM kw | SngpHfM kw => Ok (match get "ridge_penalty" kw with Some r => r | None => 1%Q end)
  | _ => Err AttributeError
  end.
(** what the fit of the posterior does before anything else: the ridge penalties of the callbacks
    it adds *)
Definition fit_callbacks (p : parts) : result (list Q) :=
  match pt_posterior p with
  | SngpP => ridge_penalty_of (pt_manager p) >>= fun r => Ok [r]
  | _ => Ok []
  end.

(** ---- random generators: base.py:36-48 and utils/random.py:26-75 ---- *)
Inductive component := ManagerC | CalibC | LayerC | PriorC | LikelihoodC | JointC | PosteriorC | PredictiveC.
Definition component_eqb (a b : component) : bool :=
  match a, b with
  | ManagerC, ManagerC | CalibC, CalibC | LayerC, LayerC | PriorC, PriorC
  | LikelihoodC, LikelihoodC | JointC, JointC | PosteriorC, PosteriorC | PredictiveC, PredictiveC => true
  | _, _ => false
  end.
(** objects with a generator: the components the constructor makes for model [m], and prior
    objects, which the caller passes (the default is one object made at import time) *)
Inductive object := Own (m : nat) (c : component) | Prior (id : nat).
Definition object_eqb (a b : object) : bool :=
  match a, b with
  | Own m c, Own m' c' => (m =? m') && component_eqb c c'
  | Prior i, Prior j => i =? j
  | _, _ => false
  end.
(** [w_gens] are the generator objects (generator number m belongs to model number m), [w_priors]
    the priors of the models, [w_rng] the attribute _rng of the objects *)
Record world := { w_gens : list key; w_priors : list nat; w_rng : list (object * nat) }.
Definition empty_world : world := {| w_gens := []; w_priors := []; w_rng := [] |}.
Fixpoint rng_attr (o : object) (h : list (object * nat)) : option nat :=
  match h with [] => None | (o', g) :: r => if object_eqb o o' then Some g else rng_attr o r end.
Definition component_object (m prior : nat) (c : component) : object :=
  match c with PriorC => Prior prior | _ => Own m c end.
(** base.py:41-48: the assignments, in order *)
Definition set_rng_order : list component := [ManagerC; CalibC; LayerC; PriorC; LikelihoodC; JointC; PosteriorC; PredictiveC].
Definition build (seed prior : nat) (w : world) : world :=
  let m := length (w_gens w) in
  {| w_gens := w_gens w ++ [Seed seed];
     w_priors := w_priors w ++ [prior];
     w_rng := fold_left (fun h c => (component_object m prior c, m) :: h) set_rng_order (w_rng w) |}.
(** self.rng.get() of a component of model [m]: the generator and the key *)
Definition set_nth {A} (n : nat) (x : A) (l : list A) : list A := firstn n l ++ match skipn n l with [] => [] | _ :: r => x :: r end.
Definition draw (m : nat) (c : component) (w : world) : result (nat * key * world) :=
  match nth_error (w_priors w) m with
  | None => Err NameError
  | Some prior =>
      match rng_attr (component_object m prior c) (w_rng w) with
      | None => Err AttributeError
      | Some g =>
          match nth_error (w_gens w) g with
          | None => Err AttributeError
          | Some s => let '(s', k) := rng_get s in
                      Ok (g, k, {| w_gens := set_nth g s' (w_gens w); w_priors := w_priors w; w_rng := w_rng w |})
          end
      end
  end.
Inductive op := Build (seed prior : nat) | Draw (m : nat) (c : component).
(** a program: the draws, as (model, component, generator, key) *)
Fixpoint run (ops : list op) (w : world) : result (list (nat * component * nat * key)) :=
  match ops with
  | [] => Ok []
  | Build seed prior :: r => run r (build seed prior w)
  | Draw m c :: r => draw m c w >>= fun '(g, k, w') => run r w' >>= fun t => Ok ((m, c, g, k) :: t)
  end.

(** ---- shapes of inputs: utils/data.py:35-46 ---- *)
Inductive ishape := TupleShape (s : list nat) | DictShape (d : list (string * list nat)).
(** shape of an array without its first dimension *)
Definition get_input_shape (x : ishape) : ishape :=
  match x with TupleShape s => TupleShape (tl s) | DictShape d => DictShape (map (fun p => (fst p, tl (snd p))) d) end.
Definition get_inputs_from_shape (s : ishape) : ishape :=
  match s with TupleShape t => TupleShape (1 :: t) | DictShape d => DictShape (map (fun p => (fst p, 1 :: snd p)) d) end.
(** first dimension of the inputs of a batch, as in data/loader/base.py:40-54 *)
Definition first_dim (s : list nat) : result nat := match s with [] => Err IndexError | n :: _ => Ok n end.
Definition batch_rows (x : ishape) : result nat :=
  match x with
  | TupleShape s => first_dim s
  | DictShape [] => Err IndexError
  | DictShape ((_, s) :: _) => first_dim s
  end.

Section States.
Context {V : Type}.
(** the variables of a flax module: collections by name *)
Definition variables := list (string * V).
(** ---- model_manager/state.py:35-66 ---- *)
Definition not_params (p : string * V) : bool := negb (String.eqb (fst p) "params").
Record mm_state := { ms_params : list (string * V); ms_mutable : option (list (string * variables)) }.
Definition mm_init_from_dict (d : list (string * variables)) : result mm_state :=
  mapM (fun p => get_or KeyError "params" (snd p) >>= fun v => Ok (fst p, v)) d >>= fun params =>
  let mutable := map (fun p => (fst p, filter not_params (snd p))) d in
  let flag := length (filter (fun p => negb (length (snd p) =? 0)) mutable) in
  Ok {| ms_params := params; ms_mutable := if flag =? 0 then None else Some mutable |}.
(** ---- output_calib_manager/state.py:35-65: [None] is the value of init without a calibrator ---- *)
Record ocm_state := { os_params : list (string * option V); os_mutable : list (string * option variables) }.
Definition ocm_init_from_dict (d : list (string * option variables)) : result ocm_state :=
  mapM (fun p => match snd p with
                 | Some (x :: r) => get_or KeyError "params" (x :: r) >>= fun v => Ok (fst p, Some v)
                 | _ => Ok (fst p, None)
                 end) d >>= fun params =>
  let collected (v : option variables) := match v with Some l => filter not_params l | None => [] end in
  let mutable := map (fun p => (fst p, collected (snd p))) d in
  Ok {| os_params := params; os_mutable := map (fun p => (fst p, if 0 <? length (snd p) then Some (snd p) else None)) mutable |}.
(** ---- model_manager/classification.py:57-69: the variables handed to the network; dict.update
    replaces the value of a key it finds and appends the others ---- *)
Definition dict_set (d : variables) (p : string * V) : variables :=
  if existsb (fun q => String.eqb (fst q) (fst p)) d
  then map (fun q => if String.eqb (fst q) (fst p) then (fst q, snd p) else q) d
  else d ++ [p].
Definition class_variables (s : mm_state) : result variables :=
  get_or KeyError "model" (ms_params s) >>= fun p =>
  let v := [("params"%string, p)] in
  match ms_mutable s with
  | None => Ok v
  | Some mu => get_or KeyError "model" mu >>= fun m => Ok (fold_left dict_set m v)
  end.

(** ---- keys given to the networks' init: classification.py:104-110 and regression.py:145-164 of
    model_manager; split(k, n)[i] is [Child k i] ---- *)
Definition class_rngs (rng : key) : key * key := (Child rng 1, Child rng 2).
Definition reg_rngs (rng : key) : (key * key) * (key * key) := ((Child rng 1, Child rng 2), (Child rng 3, Child rng 3)).
(** plain classification and regression: jnp.zeros((1,) + input_shape) *)
Definition zeros_shape (s : ishape) : result (list nat) := match s with TupleShape t => Ok (1 :: t) | DictShape _ => Err TypeError end.
Definition class_init (net_init : key * key -> list nat -> variables) (s : ishape) (rng : key) : result (list (string * variables)) :=
  zeros_shape s >>= fun z => Ok [("model"%string, net_init (class_rngs rng) z)].
Definition reg_init (net_init var_init : key * key -> list nat -> variables) (s : ishape) (rng : key) : result (list (string * variables)) :=
  zeros_shape s >>= fun z =>
  Ok [("model"%string, net_init (fst (reg_rngs rng)) z); ("lik_log_var"%string, var_init (snd (reg_rngs rng)) z)].

(** ---- output_calib_manager/base.py:84-112: the generator is used even without a calibrator; the
    calibrator sees zeros of shape (1, output_dim) ---- *)
Definition ocm_init (calibrator : option (key * key -> list nat -> variables)) (output_dim : nat) (rng : key) : option variables :=
  match calibrator with None => None | Some f => Some (f (class_rngs rng) [1; output_dim]) end.

(** ---- joint/base.py:157-190 and joint/state.py:46-72 ---- *)
(** the value of an apply: an array, or a list or tuple whose first element is an array; arrays
    by their shapes *)
Inductive pyshape := ArrayOut (s : list nat) | TupleOut (s : list nat).
Definition last_dim (s : list nat) : result nat := match rev s with [] => Err IndexError | n :: _ => Ok n end.
Definition out_dim (o : pyshape) : result nat := match o with ArrayOut s | TupleOut s => last_dim s end.
Record joint_state := { js_params : list (string * V); js_mutable : option (list (string * variables));
                        js_calib_params : list (string * option V); js_calib_mutable : list (string * option variables) }.
(** [gen] is the generator shared by the components; the result comes with its next value *)
Definition joint_init (init : ishape -> key -> result (list (string * variables))) (apply : mm_state -> ishape -> result pyshape)
    (calibrator : option (key * key -> list nat -> variables)) (s : ishape) (gen : key) : key * result joint_state :=
  let '(gen1, k1) := rng_get gen in
  match (init s k1 >>= mm_init_from_dict >>= fun oms => apply oms (get_inputs_from_shape s) >>= out_dim >>= fun d => Ok (oms, d)) with
  | Err e => (gen1, Err e)
  | Ok (oms, d) =>
      let '(gen2, k2) := rng_get gen1 in
      (gen2, ocm_init_from_dict [("output_calibrator"%string, ocm_init calibrator d k2)] >>= fun ocms =>
             Ok {| js_params := ms_params oms; js_mutable := ms_mutable oms; js_calib_params := os_params ocms; js_calib_mutable := os_mutable ocms |})
  end.

(** ---- classification.py:218-242 ---- *)
(** a loader: the batches of inputs and labels (Z), and the number of labels if it was given to
    the constructor or computed before (array_loaders.py:25-28) *)
Record loader := { ld_batches : list (ishape * list Z); ld_cached : option nat }.
Definition loader_size (l : loader) : result nat :=
  fold_left (fun acc b => acc >>= fun c => batch_rows (fst b) >>= fun n => Ok (c + n)) (ld_batches l) (Ok 0).
(** len(np.unique(targets)) *)
Fixpoint unique (l : list Z) : list Z := match l with [] => [] | x :: r => if existsb (Z.eqb x) r then unique r else x :: unique r end.
Definition num_unique_labels (l : loader) : nat :=
  match ld_cached l with Some n => n | None => length (unique (concat (map snd (ld_batches l)))) end.
Definition class_check (init : ishape -> key -> result (list (string * variables))) (apply : mm_state -> ishape -> result pyshape)
    (calibrator : option (key * key -> list nat -> variables)) (l : loader) (gen : key) : key * result unit :=
  match loader_size l with
  | Err e => (gen, Err e)
  | Ok 0 => (gen, Err ValueError)
  | Ok _ =>
      let output_dim := num_unique_labels l in
      match ld_batches l with
      | [] => (gen, Err UnboundLocalErr)
      | (x, _) :: _ =>
          let input_shape := get_input_shape x in
          let '(gen', s) := joint_init init apply calibrator input_shape gen in
          (gen', s >>= fun s =>
                 apply {| ms_params := js_params s; ms_mutable := js_mutable s |} (get_inputs_from_shape input_shape) >>= out_dim >>= fun d =>
                 if d =? output_dim then Ok tt else Err ValueError)
      end
  end.

(** ---- regression.py:130-149; batches by the shapes of their inputs and targets ---- *)
Definition second_dim (s : list nat) : result nat := match s with _ :: n :: _ => Ok n | _ => Err IndexError end.
Definition reg_check (init : ishape -> key -> result (list (string * variables))) (apply : mm_state -> ishape -> result pyshape)
    (calibrator : option (key * key -> list nat -> variables)) (batches : list (ishape * list nat)) (gen : key) : key * result unit :=
  match (match batches with
         | [] => Err ValueError
         | (DictShape _, _) :: _ => Err AttributeError
         | (TupleShape x, y) :: _ => second_dim y >>= fun n => if n =? 0 then Err ValueError else Ok (tl x, n)
         end) with
  | Err e => (gen, Err e)
  | Ok (input_shape, n) =>
      let '(gen', s) := joint_init init apply calibrator (TupleShape input_shape) gen in
      (gen', s >>= fun s =>
             apply {| ms_params := js_params s; ms_mutable := js_mutable s |} (TupleShape (1 :: input_shape)) >>= fun o =>
             match o with
             | TupleOut _ => Err AttributeError
             | ArrayOut sh => second_dim sh >>= fun d => if d =? 2 * n then Ok tt else Err ValueError
             end)
  end.
(** model_manager/regression.py:66-140 without an editor, on shapes: a state made by
    [mm_init_from_dict] holds its mutable variables in a FrozenDict, whose assignment raises;
    then the last dimensions of the two networks must agree (lines 200-207) and the outputs are
    concatenated along the last axis *)
Definition reg_shapes (net_out var_out : list nat -> list nat) (s : mm_state) (x : ishape) : result pyshape :=
  match ms_mutable s, x with
  | Some _, _ => Err ValueError
  | None, DictShape _ => Err TypeError
  | None, TupleShape t =>
      last_dim (net_out t) >>= fun d => last_dim (var_out t) >>= fun d' =>
      if d =? d' then Ok (ArrayOut (removelast (net_out t) ++ [d + d'])) else Err ValueError
  end.
End States.
Arguments variables V : clear implicits.
Arguments mm_state V : clear implicits.
Arguments ocm_state V : clear implicits.
Arguments joint_state V : clear implicits.

(** ---- train and calibrate: classification.py:244-298, regression.py:151-205, base.py:50-107 ---- *)
(** a call returns its result, the generator and the state of the posterior.  [check] is
    _check_output_dim, [fit] the fit of the posterior and [calib] base.py:109-234; a loader given
    for calibration is true when it has a batch.  A fit or a calibration that raises is taken to
    leave the state of the posterior *)
Section Train.
Context {L Sp F C : Type}.
Variable check : L -> key -> key * result unit.
Definition calibrate (calib : L -> option L -> Sp -> key -> key * result (C * Sp)) (calib_loader : L) (val_loader : option L) (st : Sp) (gen : key)
    : key * Sp * result C :=
  let '(g1, r1) := check calib_loader gen in
  match r1 with
  | Err e => (g1, st, Err e)
  | Ok _ =>
      let '(g2, r2) := match val_loader with None => (g1, Ok tt) | Some v => check v g1 end in
      match r2 with
      | Err e => (g2, st, Err e)
      | Ok _ => match calib calib_loader val_loader st g2 with
                | (g3, Err e) => (g3, st, Err e)
                | (g3, Ok (c, st')) => (g3, st', Ok c)
                end
      end
  end.
Definition train (fit : L -> option L -> Sp -> key -> key * result (F * Sp)) (calib : L -> option L -> Sp -> key -> key * result (C * Sp))
    (batches : L -> nat) (train_loader : L) (val_loader calib_loader : option L) (st : Sp) (gen : key) : key * Sp * result (F * option C) :=
  let '(g1, r1) := check train_loader gen in
  match r1 with
  | Err e => (g1, st, Err e)
  | Ok _ =>
      match fit train_loader val_loader st g1 with
      | (g2, Err e) => (g2, st, Err e)
      | (g2, Ok (f, st')) =>
          match calib_loader with
          | None => (g2, st', Ok (f, None))
          | Some cl => if batches cl =? 0 then (g2, st', Ok (f, None))
                       else match calibrate calib cl val_loader st' g2 with
                            | (g3, st2, Err e) => (g3, st2, Err e)
                            | (g3, st2, Ok c) => (g3, st2, Ok (f, Some c))
                            end
          end
      end
  end.
End Train.
