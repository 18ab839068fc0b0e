(** Model of how a fit of ADVI starts from a state and what it stores:
    fortuna/prob_model/posterior/normalizing_flow/advi/advi_posterior.py:118-196, 340-451,
    advi_trainer.py:58-154, advi_architecture.py:86-116.

    Parameters, vectors and stored states are those of FlatModel.v.  Not modelled here: finding the
    state (FitModel.v), training itself (FlowModel.v; here a parameter), optimizer states, mutable
    variables, and state.frozen_params, which ADVI writes and never reads. *)
From Coq Require Import List Arith Bool String.
From Verif Require Import Lib NestedModel FreezeModel LapModel FlatModel.
Import ListNotations.
Open Scope list_scope.
Local Notation length := List.length.
Local Notation "a >>= f" := (bind a f) (at level 61, left associativity).

Section Resume.
Context {V : Type}.
Notation ptree := (tree (list V)).

(** a MAP or initial state; a state of ADVI without freeze function; one with freeze function and
    the trainable paths decoded from it *)
Inductive stored :=
| FromMap (params : ptree)
| FromPlain (params : list (string * (ptree * ptree)))
| FromPaths (decoded : list path) (params : ptree).

(** advi_posterior.py:346-388: means and, from a state of ADVI, logarithms of standard deviations *)
Definition resume_trees (s : stored) : result (ptree * option ptree) :=
  match s with
  | FromMap p => Ok (p, None)
  | FromPlain cs => Ok (wrap (first_components cs), Some (wrap (second_components cs)))
  | FromPaths decoded p => nested_unpair p decoded ["mean"; "log_std"]%string >>= fun ml => Ok (fst ml, Some (snd ml))
  end.
(** advi_posterior.py:122-131 and 413-451: the trainable paths of the new fit, the vector of means
    (in the order of the paths) and that of the logarithms (of a dictionary) *)
Definition start_vectors (freeze : option (path -> list V -> string)) (means : ptree) (log_stds : option ptree)
    : result (option (list path) * list V * option (list V)) :=
  match freeze with
  | None => Ok (None, ravel means, option_map ravel log_stds)
  | Some f =>
      get_trainable_paths means (Some f) >>= fun paths =>
      ravel_paths means paths >>= fun m =>
      match log_stds with
      | None => Ok (Some paths, m, None)
      | Some s => ravel_trainable s paths >>= fun l => Ok (Some paths, m, Some l)
      end
  end.
(** advi_architecture.py:111-116; [random n]: n draws times std_init_params *)
Definition init_log_std (random : nat -> list V) (n : nat) (l : option (list V)) : list V :=
  match l with None => random n | Some l => l end.
(** advi_trainer.py:95-154 with a freeze function *)
Definition train_start (f : path -> list V -> string) (means : ptree) (paths : list path) (m l : list V) : result (list V * list V) :=
  unravel_paths means paths m >>= fun tm =>
  get_trainable_paths tm (Some f) >>= fun tp =>
  unravel_paths means paths l >>= fun tl =>
  ravel_trainable tm tp >>= fun m' => ravel_trainable tl tp >>= fun l' => Ok (m', l').

(** advi_trainer.py:87-93, with the structure of the initial parameters *)
Definition plain_state (means : ptree) (m l : list V) : result (list (string * (ptree * ptree))) :=
  unravel means m >>= unwrap >>= fun ms => unravel means l >>= unwrap >>= fun ss => pair_components ms ss.

(** advi_posterior.py:118-196 with [train] for the steps of training; stored as in advi_trainer.py:66-85 or above *)
Definition fit (freeze : option (path -> list V -> string)) (s : stored) (random : nat -> list V)
    (train : list V -> list V -> result (list V * list V)) : result stored :=
  resume_trees s >>= fun ml =>
  start_vectors freeze (fst ml) (snd ml) >>= fun '(paths, m, l0) =>
  let l := init_log_std random (length m) l0 in
  match freeze, paths with
  | Some f, Some ps =>
      train_start f (fst ml) ps m l >>= fun v => train (fst v) (snd v) >>= fun w =>
      advi_state_paths (fst ml) ps (fst w) (snd w) >>= fun st => Ok (FromPaths ps st)
  | _, _ =>
      train m l >>= fun w => plain_state (fst ml) (fst w) (snd w) >>= fun st => Ok (FromPlain st)
  end.
End Resume.
Arguments stored V : clear implicits.
