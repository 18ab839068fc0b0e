(** Model of the transformer part of SNGP: spectral normalisation as used by the shipped
    feature extractors over a whole training run (fortuna/model/utils/spectral_norm.py,
    fortuna/model/mlp.py, fortuna/prob_model/posterior/sngp/transformers/models), loading of
    pretrained transformers (fortuna/prob_model/posterior/sngp/transformers) and the Hugging
    Face model managers (fortuna/model/model_manager/transformers/classification.py). *)
From Coq Require Import List Arith Bool String Reals.
From Verif Require Import Lib NestedModel FreezeModel LapModel SngpModel.
Import ListNotations.
Open Scope list_scope.
Local Notation length := List.length.
Local Notation "a >>= f" := (bind a f) (at level 61, left associativity).

(** ---- spectral_norm.py:99-178 as a call that reads and writes the "spectral_stats" ---- *)
(** singular vectors [u] and [v] of one layer *)
Definition sn_stats : Type := (vec * vec)%type.
(** lines 148-178: the kernel applied to the inputs, and the stored vectors after the call *)
Definition sn_call (n_in n_out iteration : nat) (norm_multiplier : R) (update initializing : bool) (w : mat) (s : sn_stats) : mat * sn_stats :=
  (normalized_kernel n_in n_out iteration norm_multiplier update initializing w (fst s) (snd s),
   let '(u_hat, v_hat, _) := singular_vectors n_in n_out iteration update initializing w (fst s) (snd s) in (u_hat, v_hat)).
(** Which networks run the power iteration: spectral_norm.py:208-214,232-238 pass
    [update_singular_value_estimate=train], and [train] is False unless given.  mlp.py:133,171,
    resnet.py:187 and wideresnet.py:197 give it; modeling_flax_bert.py:44, distilbert:36 and
    roberta:49 do not. *)
Inductive extractor := Plain_net | Transformer.
Definition update_flag (e : extractor) (train : bool) : bool :=
  match e with Plain_net => train | Transformer => false end.
(** A run: calls of the layer after initialisation, each with its train flag and the kernel
    the optimizer has reached; the kernels in effect and the final stored vectors *)
Fixpoint sn_run (e : extractor) (n_in n_out iteration : nat) (norm_multiplier : R) (calls : list (bool * mat)) (s : sn_stats) : list mat * sn_stats :=
  match calls with
  | [] => ([], s)
  | (train, w) :: rest =>
      let '(k, s') := sn_call n_in n_out iteration norm_multiplier (update_flag e train) false w s in
      let '(ks, s'') := sn_run e n_in n_out iteration norm_multiplier rest s' in (k :: ks, s'')
  end.

(** ---- transformers/auto_factory.py:18-35 ---- *)
(** an entry of the mapping: a class, or a list or tuple of classes *)
Inductive entry (C : Type) := One (c : C) | Several (cs : list C).
Arguments One {C} c.
Arguments Several {C} cs.
Section Classes.
Context {C : Type} (name : C -> string).
Definition name_to_model (cs : list C) : list (string * C) := fold_left (fun d c => assoc_set (name c) c d) cs [].
(** lines 25-31 *)
Fixpoint match_architecture (table : list (string * C)) (architectures : list string) : option C :=
  match architectures with
  | [] => None
  | a :: rest =>
      match assoc_get a table with
      | Some c => Some c
      | None =>
          match assoc_get (String.append "TF" a) table with
          | Some c => Some c
          | None =>
              match assoc_get (String.append "Flax" a) table with
              | Some c => Some c
              | None => match_architecture table rest
              end
          end
      end
  end.
(** [architectures = None] is the value None, which cannot be iterated; a configuration without
    the attribute gives the empty list *)
Definition get_model_class (e : entry C) (architectures : option (list string)) : result C :=
  match e with
  | One c => Ok c
  | Several cs =>
      match architectures with
      | None => Err TypeError
      | Some l =>
          match match_architecture (name_to_model cs) l with
          | Some c => Ok c
          | None => match cs with [] => Err IndexError | c :: _ => Ok c end
          end
      end
  end.
End Classes.
(** modeling_flax_auto.py:10-21, by the type of the configuration *)
Definition shipped_mapping : list (string * entry string) :=
  [("bert", One "FlaxSNGPBertExtractorForSequenceClassification");
   ("distilbert", One "FlaxSNGPDistilBertExtractorForSequenceClassification");
   ("roberta", One "FlaxSNGPRobertaExtractorForSequenceClassification")]%string.

Section Params.
Context {V : Type}.
Notation dict := (list (string * tree V)).
(** dict.pop(key, None) *)
Definition pop (k : string) (d : dict) : option (tree V) * dict :=
  (assoc_get k d, filter (fun kv => negb (String.eqb (fst kv) k)) d).
(** truth value: a dictionary is true unless empty; a leaf counts as true *)
Definition truthy (t : option (tree V)) : bool :=
  match t with None => false | Some (Dict []) => false | Some _ => true end.
(** auto_factory.py:96-102 *)
Definition restructure (params : dict) : dict :=
  let '(spectral, params) := pop "spectral_stats" params in
  let '(batch, params) := pop "batch_stats" params in
  let out := [("params"%string, Dict params)] in
  let out := match spectral with Some t => if truthy spectral then assoc_set "spectral_stats"%string t out else out | None => out end in
  match batch with Some t => if truthy batch then assoc_set "batch_stats"%string t out else out | None => out end.
(** auto_factory.py:55-118 once the configuration is known: [load] is the class's own
    from_pretrained (transformers library), giving the model's parameters *)
Definition from_pretrained {C} (name : C -> string) (mapping : list (string * entry C)) (load : C -> dict) (config_type : string) (architectures : option (list string))
    : result (C * dict) :=
  match assoc_get config_type mapping with
  | None => Err ValueError
  | Some e => get_model_class name e architectures >>= fun c => Ok (c, restructure (load c))
  end.

(** ---- modeling_flax_bert.py:95-136 (distilbert:79-111, roberta:98-138) ---- *)
(** lines 121-126: {"spectral_stats": ..., **params} of the variables made by module.init *)
Definition merge_random (variables : dict) : result dict :=
  match assoc_get "spectral_stats" variables with
  | None => Err KeyError
  | Some s =>
      match assoc_get "params" variables with
      | Some (Dict p) => Ok (dict_update [("spectral_stats"%string, s)] p)
      | Some (Leaf _) => Err AttributeError
      | None => Err KeyError
      end
  end.
(** flatten_dict: [leaves]; unflatten_dict: assign one path after the other *)
Definition unflatten (flat : list (path * V)) : result (tree V) := set_paths true (Dict []) (map (fun pv => (fst pv, Leaf (snd pv))) flat).
Definition path_eqb (p q : path) : bool := if list_eq_dec string_dec p q then true else false.
Fixpoint flat_get (p : path) (flat : list (path * V)) : option V :=
  match flat with [] => None | (q, v) :: r => if path_eqb p q then Some v else flat_get p r end.
Fixpoint flat_set (p : path) (v : V) (flat : list (path * V)) : list (path * V) :=
  match flat with [] => [(p, v)] | (q, w) :: r => if path_eqb p q then (p, v) :: r else (q, w) :: flat_set p v r end.
(** lines 131-132 *)
Fixpoint fill_missing (random : list (path * V)) (missing : list path) (flat : list (path * V)) : result (list (path * V)) :=
  match missing with
  | [] => Ok flat
  | k :: rest => match flat_get k random with None => Err KeyError | Some v => fill_missing random rest (flat_set k v flat) end
  end.
(** lines 112-136 with [self._missing_keys = missing]: the parameters and the new
    [_missing_keys] *)
Definition init_weights (variables : dict) (params : option dict) (missing : list path) : result (tree V * list path) :=
  merge_random variables >>= fun random =>
  match params with
  | None => Ok (Dict random, missing)
  | Some p =>
      fill_missing (leaves (Dict random)) missing (leaves (Dict p)) >>= fun flat =>
      unflatten flat >>= fun t => Ok (t, [])
  end.

(** ---- modeling_flax_bert.py:192-211: the variables and the names of the mutable collections
    given to module.apply, and the model's own parameters afterwards.  [mutable] is the content
    of mutable["model"] ([None]: no mutable or an empty one). ---- *)
Record module_call := { mc_variables : dict; mc_mutable : option (list string) }.
Definition transformer_call (self_params : dict) (params : option (tree V)) (mutable : option dict) (train : bool) : module_call * dict :=
  let variables := match params with Some p => [("params"%string, p)] | None => self_params end in
  let variables := match mutable with Some m => dict_update variables m | None => variables end in
  ({| mc_variables := variables; mc_mutable := if train then option_map (map fst) mutable else None |},
   match params with Some _ => self_params | None => variables end).

(** ---- model_manager/transformers/classification.py:145-157: the initial variables of the
    SNGP manager; [features] is the shape of the model's outputs without the batch ---- *)
Definition sngp_transformer_init (features : list nat) (model_params gp_variables : dict) : result (tree V) :=
  if (1 <? length features)%nat then Err ValueError
  else Ok (nested_update (Dict model_params) [Dict gp_variables]).
End Params.

(** ---- model_manager/transformers/classification.py:33-86 without a model editor.  What a
    transformer returns: an object with logits, a plain array, or a tuple (which, when mutable
    collections were requested, is the output and the new collections). ---- *)
Inductive hf_output (O M : Type) := With_logits (o : O) | Plain_out (o : O) | Tuple_out (first : O) (rest : list O) | With_mutable (out : hf_output O M) (m : M).
Arguments With_logits {O M} o.
Arguments Plain_out {O M} o.
Arguments Tuple_out {O M} first rest.
Arguments With_mutable {O M} out m.
(** lines 54-70, then 83-86: the outputs and, in training with mutable variables, the new ones *)
Definition hf_apply {O M} (call : option M -> hf_output O M) (train : bool) (mutable : option M) : result (hf_output O M * option M) :=
  let has_aux := train && match mutable with Some _ => true | None => false end in
  let out := match call mutable with With_logits o => Plain_out o | o => o end in
  let out := match out with
             | Tuple_out o _ => if has_aux then out else Plain_out o
             | With_mutable o _ => if has_aux then out else o
             | _ => out
             end in
  if has_aux then match out with With_mutable o m => Ok (o, Some m) | _ => Err ValueError end
  else Ok (out, None).
