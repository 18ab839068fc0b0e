(** Vocabulary for the properties of the construction and the checks of probabilistic models. *)
From Coq Require Import List Arith ZArith QArith Bool String.
From Verif Require Import Lib SchedModel BuildModel.
Import ListNotations.
Local Notation length := List.length.
Local Notation concat := List.concat.
Open Scope nat_scope.

(** the posterior a user expects from an approximator of the library *)
Definition posterior_of (a : approximator) : option posterior_class :=
  match a with
  | MapA => Some MapP | AdviA => Some AdviP | EnsembleA => Some EnsembleP | LaplaceA => Some LaplaceP | SwagA => Some SwagP
  | SngpA _ => Some SngpP | SghmcA => Some SghmcP | CyclicalA => Some CyclicalP | CustomA _ => None
  end.
Definition is_sngp (a : approximator) : bool := match a with SngpA _ => true | _ => false end.
Definition from_library (a : approximator) : Prop := match a with CustomA _ => False | _ => True end.
(** names of the approximators of the library *)
Definition library_names : list string := ["map"; "advi"; "deep_ensemble"; "laplace"; "swag"; "sngp"; "sghmc"; "cyclical_sgld"]%string.
(** keywords of a Gaussian process head *)
Definition gp_keywords : list string :=
  ["output_dim"; "gp_hidden_features"; "normalize_input"; "ridge_penalty"; "momentum"; "mean_field_factor"]%string.
(** keywords the SNGP approximator passes: output_dim is required by its constructor *)
Definition kwargs_fine (a : approximator) : Prop :=
  match a with
  | SngpA kw => (exists d, In ("output_dim"%string, d) kw) /\ (forall k v, In (k, v) kw -> In k gp_keywords)
  | _ => True
  end.
(** the properties of a model manager *)
Definition has_gp_head (m : manager) : bool := match m with SngpM _ | SngpHfM _ => true | _ => false end.
Definition uses_transformers (m : manager) : bool := match m with HfM | SngpHfM _ => true | _ => false end.
Definition head_kwargs (m : manager) : list (string * Q) := match m with SngpM kw | SngpHfM kw => kw | _ => [] end.

(** ---- programs ---- *)
(** the models built by a program, in order: seed and prior *)
Fixpoint builds (ops : list op) : list (nat * nat) :=
  match ops with [] => [] | Build s p :: r => (s, p) :: builds r | Draw _ _ :: r => builds r end.
(** draws only from models already built *)
Fixpoint in_order (n : nat) (ops : list op) : Prop :=
  match ops with
  | [] => True
  | Build _ _ :: r => in_order (S n) r
  | Draw m _ :: r => m < n /\ in_order n r
  end.
Definition keys_of_model (m : nat) (t : list (nat * component * nat * key)) : list key :=
  map snd (filter (fun e => fst (fst (fst e)) =? m) t).
Definition keys_of_generator (g : nat) (t : list (nat * component * nat * key)) : list key :=
  map snd (filter (fun e => snd (fst e) =? g) t).

(** ---- labels ---- *)
Definition distinct_count (l : list Z) (n : nat) : Prop :=
  exists u, NoDup u /\ (forall x, In x u <-> In x l) /\ length u = n.
(** all labels of a loader *)
Definition labels_of (l : loader) : list Z := concat (map snd (ld_batches l)).
(** an array loader: every batch has arrays of inputs with one row per label, and the number of
    labels was neither given nor computed before *)
Definition array_loader (l : loader) : Prop :=
  ld_cached l = None /\ forall x y, In (x, y) (ld_batches l) -> exists s, x = TupleShape (length y :: s).
(** every network of the library makes a "params" collection *)
Definition makes_params {V} (f : key * key -> list nat -> variables V) : Prop := forall k s, exists p, get "params" (f k s) = Some p.
(** only the collection "params" *)
Definition only_params {V} (v : variables V) : Prop := forall k x, In (k, x) v -> k = "params"%string.
