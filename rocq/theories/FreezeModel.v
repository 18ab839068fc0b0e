(** Model of fortuna/utils/freeze.py (get_paths_with_label and its two users) and of
    the splitting and merging of parameters in fortuna/training/trainer.py,
    fortuna/prob_model/posterior/base.py and
    fortuna/prob_model/posterior/deep_ensemble/deep_ensemble_posterior.py.

    Parameters are trees of NestedModel.v.  FrozenDict and dict are not
    distinguished. *)
From Coq Require Import List Bool String.
From Verif Require Import Lib NestedModel.
Import ListNotations.
Open Scope list_scope.

(** flax.traverse_util.flatten_dict: leaves with their paths, depth first; empty
    dictionaries disappear. *)
Fixpoint leaves {V} (t : tree V) : list (path * V) :=
  match t with
  | Leaf v => [([], v)]
  | Dict kvs =>
      (fix go (kvs : list (string * tree V)) : list (path * V) :=
         match kvs with
         | [] => []
         | (k, v) :: r => map (fun pv => (k :: fst pv, snd pv)) (leaves v) ++ go r
         end) kvs
  end.

(** freeze.py:31-47 *)
Definition all_values_in_labels (values labels : list string) : result unit :=
  if forallb (fun v => existsb (String.eqb v) labels) values then Ok tt else Err ValueError.

(** list(p) of a string *)
Fixpoint characters (s : string) : path :=
  match s with EmptyString => [] | String a r => String a EmptyString :: characters r end.

(** freeze.py:134-148.  Without freeze_fun, [list(p) for p in paths] runs over the
    top-level keys of a dictionary, each a string that list() cuts into characters. *)
Definition get_paths_with_label {V} (params : tree V) (freeze_fun : option (path -> V -> string))
    (label : string) (allowed : list string) : result (list path) :=
  match freeze_fun with
  | Some f =>
      let conds := map (fun pv => f (fst pv) (snd pv)) (leaves params) in
      bind (all_values_in_labels conds allowed) (fun _ =>
      Ok (map (fun cp => fst (snd cp))
            (filter (fun cp => String.eqb (fst cp) label) (combine conds (leaves params)))))
  | None => match params with
            | Dict kvs => Ok (map (fun kv => characters (fst kv)) kvs)
            | Leaf _ => Err TypeError
            end
  end.

(** freeze.py:84-131 *)
Definition get_trainable_paths {V} (params : tree V) freeze_fun :=
  get_paths_with_label params freeze_fun "trainable" ["frozen"; "trainable"]%string.
Definition get_frozen_paths {V} (params : tree V) freeze_fun :=
  get_paths_with_label params freeze_fun "frozen" ["frozen"; "trainable"]%string.

(** nested_set({}, paths, [nested_get(params, path) for path in paths], allow_nonexistent=True),
    trainer.py:614-625, 626-640; posterior/base.py:103-115 *)
Definition extract {V} (params : tree V) (paths : list path) : result (tree V) :=
  bind (mapM (nested_get params) paths) (fun objs => nested_set (Dict []) paths objs true).

(** trainer.py:604-641 with a freeze function: (frozen_params, params) *)
Definition on_train_start {V} (params : tree V) (f : path -> V -> string) : result (tree V * tree V) :=
  bind (get_frozen_paths params (Some f)) (fun fp =>
  bind (get_trainable_paths params (Some f)) (fun tp =>
  bind (extract params fp) (fun fr =>
  bind (extract params tp) (fun tr => Ok (fr, tr))))).

(** trainer.py:701-715, also used by on_train_end (651-654) and save_checkpoint (693-696) *)
Definition get_all_params {V} (frozen trainable : tree V) : tree V := nested_update frozen [trainable].

(** deep_ensemble_posterior.py:243-261: parameters a member starts from, after a
    preliminary MAP fit; [random] is a freshly initialised tree *)
Definition init_member {V} (params random : tree V) (f : path -> V -> string) : result (tree V) :=
  bind (get_trainable_paths params (Some f)) (fun tp =>
  bind (mapM (nested_get random) tp) (fun objs => nested_set params tp objs false)).

(** trainer.py:604-655: split, optimizer updates of the trainable part, merge; the
    updates are a list of functions on the trainable tree *)
Definition fit_with_freeze {V} (params : tree V) (f : path -> V -> string) (updates : list (tree V -> tree V)) : result (tree V) :=
  bind (on_train_start params f) (fun ft =>
  Ok (get_all_params (fst ft) (fold_left (fun tr upd => upd tr) updates (snd ft)))).
