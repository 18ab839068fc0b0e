(** Model of the random keys used in fitting posteriors and in drawing from them:
    utils/random.py:11-23 (keys and normal numbers for the leaves of a tree),
    posterior/sgmcmc/sghmc/sghmc_integrator.py:59-92 and
    cyclical_sgld/cyclical_sgld_integrator.py:64-100 on whole trees, the method [sample] of the
    posteriors, and the order in which the methods [fit] take keys from the generator shared by
    the parts of a model.

    Keys are those of DrawModel (paths of splits).  Simplifications: parameters are nested
    dictionaries; the gradient has the structure of the parameters; one value of the shape for
    every leaf; a network's init draws from the keys it is given only. *)
From Coq Require Import List Arith Bool QArith Reals String.
From Verif Require Import Lib NestedModel FreezeModel McmcModel DrawModel.
Import ListNotations.
Local Notation length := List.length.
Local Notation concat := List.concat.
Local Open Scope nat_scope.

(** ---- trees of keys ---- *)
(** jax.tree_util.tree_leaves: dictionary keys in sorted order; every leaf with its path *)
Fixpoint tree_leaves {A} (t : tree A) : list (path * A) :=
  match t with
  | Leaf a => [([], a)]
  | Dict kvs =>
      concat (map (fun kl => map (fun pa => (fst kl :: fst pa, snd pa)) (snd kl))
        (sort_keys ((fix go (kvs : list (string * tree A)) : list (string * list (path * A)) :=
           match kvs with [] => [] | (k, v) :: r => (k, tree_leaves v) :: go r end) kvs)))
  end.
(** readers run one after the other, each from where the previous one stopped *)
Fixpoint run_readers {A B} (readers : list (string * (list B -> A * list B))) (l : list B) : list (string * A) * list B :=
  match readers with
  | [] => ([], l)
  | (k, f) :: r => let (a, l1) := f l in let (d, l2) := run_readers r l1 in ((k, a) :: d, l2)
  end.
(** jax.tree_util.tree_unflatten: leaves taken from a list in the same order *)
Fixpoint fill {A B} (dflt : B) (t : tree A) (l : list B) : tree B * list B :=
  match t with
  | Leaf _ => (Leaf (hd dflt l), tl l)
  | Dict kvs =>
      let (d, r) := run_readers (sort_keys ((fix go (kvs : list (string * tree A)) : list (string * (list B -> tree B * list B)) :=
        match kvs with [] => [] | (k, v) :: r => (k, fill dflt v) :: go r end) kvs)) l in
      (Dict d, r)
  end.
Definition tree_unflatten {A B} (dflt : B) (t : tree A) (l : list B) : tree B := fst (fill dflt t l).
Definition num_leaves {A} (t : tree A) : nat := length (tree_leaves t).
(** jax.tree_util.tree_map of two trees: both are flattened, and must have the same structure
    (compared by the paths of their leaves; empty dictionaries are not told apart) *)
Definition paths_eqb (p q : list path) : bool := if list_eq_dec (list_eq_dec string_dec) p q then true else false.
Definition tree_zip {A B C} (dflt : C) (f : A -> B -> C) (a : tree A) (b : tree B) : result (tree C) :=
  if paths_eqb (map fst (tree_leaves a)) (map fst (tree_leaves b))
  then Ok (tree_unflatten dflt a (map (fun xy => f (snd (fst xy)) (snd (snd xy))) (combine (tree_leaves a) (tree_leaves b))))
  else Err ValueError.

Section Noise.
Variable label : nat -> nat.

(** utils/random.py:11-14 *)
Definition generate_rng_like_tree {A} (rng : key) (target : tree A) : tree key :=
  tree_unflatten [] target (split label rng (num_leaves target)).
(** utils/random.py:17-23; [shape] of a leaf, [normal k s] an array of that shape *)
Definition generate_random_normal_like_tree {A Sh Z} (dflt : Z) (shape : A -> Sh) (normal : key -> Sh -> Z) (rng : key) (target : tree A) : result (tree Z) :=
  tree_zip dflt (fun l k => normal k (shape l)) target (generate_rng_like_tree rng target).

(** ---- stochastic gradient samplers ----
    sghmc_integrator.py:66: key, new_key = split(rng_key) *)
Definition split2 (k : key) : key * key := (nth_key (split label k 2) 0, nth_key (split label k 2) 1).
(** the keys of the leaves of one step's noise, line 67 *)
Definition step_noise_keys (leaves : nat) (k : key) : list key := split label (fst (split2 k)) leaves.
(** the keys of a whole run of [s] steps, in order of time *)
Fixpoint run_noise_keys (leaves s : nat) (k : key) : list key :=
  match s with 0 => [] | S s => step_noise_keys leaves k ++ run_noise_keys leaves s (snd (split2 k)) end.
(** the entry [j] of leaf [i]: what McmcModel's integrators, which follow one coordinate, take
    as the normal number of a step's key *)
Definition leaf_normal (normal : key -> nat -> R) (leaves i j : nat) (k : key) : R :=
  normal (nth_key (split label k leaves) i) j.
Definition sghmc_run (P : preconditioner) (normal : key -> nat -> R) (leaves i j : nat) decay resample schedule (k : key) (gradients : list R) : list R :=
  fst (integrate P key (sghmc_update P key split2 (leaf_normal normal leaves i j) decay resample schedule) gradients (sghmc_init P key k)).
Definition cyclical_run (P : preconditioner) (normal : key -> nat -> R) (leaves i j : nat) cycle_length ratio schedule (k : key) (gradients : list R) : list R :=
  fst (integrate P key (cyclical_update P key split2 (leaf_normal normal leaves i j) cycle_length ratio schedule) gradients (sghmc_init P key k)).

(** ---- what posterior.sample draws from, given its key ---- *)
Inductive posterior :=
  | PointMass                  (* map_posterior.py:121-128, sngp: the key is not used *)
  | LaplaceOf (leaves : nat)   (* laplace_posterior.py:321-377: a key for each leaf *)
  | SwagOf                     (* swag_posterior.py:227-229 and 265-281: z1, z2 and the forward pass *)
  | AdviOf                     (* advi_posterior.py:309, 327 and distribution/gaussian.py:45-46 *)
  | ChoiceOf.                  (* deep_ensemble_posterior.py:197-201, sgmcmc_posterior.py:48-52 *)
Definition sample_keys (p : posterior) (k : key) : list key :=
  match p with
  | PointMass => []
  | LaplaceOf leaves => split label k leaves
  | SwagOf => [nth_key (split label k 3) 1; nth_key (split label k 3) 2; nth_key (split label k 3) 0]
  | AdviOf => [nth_key (split label k 2) 1]
  | ChoiceOf => [k]
  end.

(** ---- requests: one use of the generator each ---- *)
Inductive request :=
  | Call (c : call)                    (* predictive calls and trainers, DrawModel *)
  | Init (n : nat)                     (* init of the networks, of the calibrator, of the flow: the
                                          first of n keys is kept, the others are passed on *)
  | Sampler (leaves s : nat)           (* a stochastic gradient sampler that runs s steps *)
  | FlowTraining (s : nat) (val : bool)(* normalizing_flow_trainer.py:111-112, 205-206 *)
  | Unused                             (* run_preliminary_map.py:31: the key is not used by fit *)
  | Direct.                            (* prior.sample, posterior.sample of a choice: drawn from as it is *)
(** classification: split(rng, 3); regression: split(rng, 5), of which the last is never used *)
Definition init_keys (n : nat) (k : key) : list key := tl (split label k n).
(** one step of a flow: the key of the network, and that of the base distribution's sample
    (gaussian.py:45-46 splits it once more) *)
Definition flow_keys (k : key) : list key := [nth_key (split label k 2) 0; nth_key (split label (nth_key (split label k 2) 1) 2) 1].
Definition request_keys (k : key) (r : request) : list key :=
  match r with
  | Call c => drawn label k c
  | Init n => init_keys n k
  | Sampler leaves s => run_noise_keys leaves s k
  (* training steps fold their number in; validation uses the trainer's key as it is, the same
     for all batches and epochs, and the network runs without random numbers then *)
  | FlowTraining s val => flat_map flow_keys (map (fold_in k) (seq 0 s)) ++ (if val then tl (flow_keys k) else [])
  | Unused => []
  | Direct => [k]
  end.
Fixpoint session (g : key) (rs : list request) : list key :=
  match rs with [] => [] | r :: rest => let '(k, g') := rng_get label g in request_keys k r ++ session g' rest end.
End Noise.

(** ---- the requests of fit ---- *)
Inductive manager := Classifier | Regressor.
(** model_manager/classification.py:104-107, regression.py:145-153 *)
Definition manager_split (m : manager) : nat := match m with Classifier => 3 | Regressor => 5 end.
(** joint/base.py:157-190: networks first, calibrators after *)
Definition init_joint (m : manager) : list request := [Init (manager_split m); Init 3].
(** where a fit starts: a state that is available (checkpoint, current state), a preliminary
    MAP of a number of steps, or nothing *)
Inductive origin := Available | AfterMap (s : nat) | Nothing.
(** map_posterior.py:80-111 *)
Definition fit_map (m : manager) (available : bool) (s : nat) : list request :=
  (if available then [] else init_joint m) ++ [Call (Training s)].
(** run_preliminary_map.py:26-36: map_posterior.fit(rng=rng.get(), ...) *)
Definition preliminary_map (m : manager) (s : nat) : list request := Unused :: fit_map m false s.
(** swag_posterior.py:95-169 *)
Definition fit_swag (m : manager) (o : origin) (s : nat) : result (list request) :=
  match o with
  | Available => Ok [Call (Training s)]
  | AfterMap s0 => Ok (preliminary_map m s0 ++ [Call (Training s)])
  | Nothing => Err ValueError
  end.
(** laplace_posterior.py:236-300: no random numbers of its own *)
Definition fit_laplace (m : manager) (o : origin) : result (list request) :=
  match o with Available => Ok [] | AfterMap s0 => Ok (preliminary_map m s0) | Nothing => Err ValueError end.
(** deep_ensemble_posterior.py:85-192.  A preliminary MAP runs only with a freeze function; every
    member takes its own initial parameters (225-263, also after a preliminary MAP) and key *)
Definition run_map_first (m : manager) (o : origin) (freeze : bool) : list request :=
  match o with AfterMap s0 => if freeze then preliminary_map m s0 else [] | _ => [] end.
Definition is_available (o : origin) : bool := match o with Available => true | _ => false end.
Definition fit_ensemble (m : manager) (o : origin) (freeze : bool) (size s : nat) : list request :=
  run_map_first m o freeze ++ concat (repeat (fit_map m (is_available o) s) size).
(** sghmc_posterior.py:74-184, cyclical_sgld_posterior.py: the sampler's key comes before the
    initial parameters *)
Definition fit_sampler (m : manager) (o : origin) (freeze : bool) (leaves s : nat) : list request :=
  run_map_first m o freeze ++ [Sampler leaves s] ++ fit_map m (is_available o) s.
(** advi_posterior.py:95-189, 340-347, 390-400 *)
Definition fit_advi (m : manager) (o : origin) (s : nat) (val : bool) : list request :=
  (match o with Available => [] | AfterMap s0 => preliminary_map m s0 | Nothing => init_joint m end)
  ++ [Init 3; FlowTraining s val].
(** prob_model/base.py:141-205 with a calibrator: outputs for the calibration data, for the
    validation data if given, and the training of the calibrator *)
Definition calibrate (n : nat) (val : bool) (s : nat) : list request :=
  [Call (Average n)] ++ (if val then [Call (Average n)] else []) ++ [Call (Training s)].
