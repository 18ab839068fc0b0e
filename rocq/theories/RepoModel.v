(** Model of the state repositories: fortuna/training/train_state_repository.py,
    the checkpointing mixin fortuna/training/mixin.py:21-90,
    fortuna/prob_model/posterior/posterior_multi_state_repository.py and
    fortuna/prob_model/posterior/sgmcmc/sgmcmc_posterior_state_repository.py.

    Flax's checkpoint files (msgpack files named prefix + step) are modelled by an
    explicit file system on which only atomic actions happen: a rename that makes a
    complete file visible, and the removal of a file.  *)
From Coq Require Import List Arith Lia Bool String.
From Verif Require Import Lib NestedModel.
Import ListNotations.
Open Scope list_scope.

(** fortuna/prob_model/posterior/state.py:24-36 and training/train_state.py:17-20:
    the fields of a state.  Simplification: the fields apply_fn, encoded_name,
    frozen_params and dynamic_scale are left out; all array valued fields but
    [params] are opaque values. *)
Record state (V O : Type) := mk_state {
  s_step : nat; s_params : tree V; s_opt : V; s_mutable : option V;
  s_calib_params : option V; s_calib_mutable : option V;
  s_grad : option V; s_tx : option O }.
Arguments mk_state {V O}. Arguments s_step {V O}. Arguments s_params {V O}. Arguments s_opt {V O}.
Arguments s_mutable {V O}. Arguments s_calib_params {V O}. Arguments s_calib_mutable {V O}.
Arguments s_grad {V O}. Arguments s_tx {V O}.

(** the fields state.replace( **variables ) can assign *)
Inductive var (V O : Type) :=
| VStep (n : nat) | VParams (p : tree V) | VOpt (v : V) | VMutable (v : option V)
| VCalibParams (v : option V) | VCalibMutable (v : option V) | VGrad (v : option V) | VTx (o : option O).
Arguments VStep {V O}. Arguments VParams {V O}. Arguments VOpt {V O}. Arguments VMutable {V O}.
Arguments VCalibParams {V O}. Arguments VCalibMutable {V O}. Arguments VGrad {V O}. Arguments VTx {V O}.

Definition replace1 {V O} (s : state V O) (x : var V O) : state V O :=
  match s, x with
  | mk_state st p op m cp cm g tx, VStep n => mk_state n p op m cp cm g tx
  | mk_state st p op m cp cm g tx, VParams p' => mk_state st p' op m cp cm g tx
  | mk_state st p op m cp cm g tx, VOpt v => mk_state st p v m cp cm g tx
  | mk_state st p op m cp cm g tx, VMutable v => mk_state st p op v cp cm g tx
  | mk_state st p op m cp cm g tx, VCalibParams v => mk_state st p op m v cm g tx
  | mk_state st p op m cp cm g tx, VCalibMutable v => mk_state st p op m cp v g tx
  | mk_state st p op m cp cm g tx, VGrad v => mk_state st p op m cp cm v tx
  | mk_state st p op m cp cm g tx, VTx o => mk_state st p op m cp cm g o
  end.

(** state.replace of a flax dataclass, variables = {name: value} *)
Definition replace {V O} (s : state V O) (vs : list (var V O)) : state V O := fold_left replace1 vs s.

(** What a checkpoint file holds: the serialised state. [tx] is not a pytree node
    (struct.field(pytree_node=False)) and is not serialised; the accumulated
    gradient is removed before saving, mixin.py:49-55. *)
Record file (V : Type) := mk_file {
  f_params : tree V; f_opt : V; f_mutable : option V; f_calib_params : option V; f_calib_mutable : option V }.
Arguments mk_file {V}. Arguments f_params {V}. Arguments f_opt {V}. Arguments f_mutable {V}.
Arguments f_calib_params {V}. Arguments f_calib_mutable {V}.

(** the checkpoint files of a directory in natural order (ascending step), one per step *)
Definition files V := list (nat * file V).

Definition to_file {V O} (s : state V O) : file V :=
  mk_file (s_params s) (s_opt s) (s_mutable s) (s_calib_params s) (s_calib_mutable s).

(** state.py:96-148 init_from_dict: with an optimizer the optimizer state is
    initialised anew, otherwise it is the restored one; tx is the given optimizer. *)
Definition from_file {V O} (init : O -> tree V -> V) (n : nat) (f : file V) (o : option O) : state V O :=
  mk_state n (f_params f) (match o with Some o => init o (f_params f) | None => f_opt f end)
    (f_mutable f) (f_calib_params f) (f_calib_mutable f) None o.

(** the file system: directory name -> checkpoint files (a missing directory is empty) *)
Definition fs V := list (string * files V).
Definition dir_files {V} (d : string) (w : fs V) : files V :=
  match assoc_get d w with Some fl => fl | None => [] end.

(** atomic actions on the file system *)
Inductive action (V : Type) := AWrite (d : string) (n : nat) (f : file V) | ARemove (d : string) (n : nat).
Arguments AWrite {V}. Arguments ARemove {V}.

Fixpoint insert_file {V} (n : nat) (f : file V) (l : files V) : files V :=
  match l with
  | [] => [(n, f)]
  | (m, g) :: r => if n <? m then (n, f) :: l
                   else if n =? m then (n, f) :: r
                   else (m, g) :: insert_file n f r
  end.

Definition apply_action {V} (w : fs V) (a : action V) : fs V :=
  match a with
  | AWrite d n f => assoc_set d (insert_file n f (dir_files d w)) w
  | ARemove d n => assoc_set d (filter (fun p => negb (fst p =? n)) (dir_files d w)) w
  end.

Definition apply_actions {V} (w : fs V) (l : list (action V)) : fs V := fold_left apply_action l w.

(** mixin.py:32-57 save_checkpoint with force_save=True, i.e.
    flax.training.checkpoints.save_checkpoint(..., keep, overwrite=True): write a
    temporary file, rename it to prefix+step (replacing an existing one), remove the
    checkpoints with larger steps in ascending order, then, if more than [keep] are
    left, remove checkpoint_files[:-keep] in ascending order (keep=0 removes none). *)
Definition save_actions {V O} (d : string) (w : fs V) (s : state V O) (keep : nat) : list (action V) :=
  let after := map fst (insert_file (s_step s) (to_file s) (dir_files d w)) in
  let newer := filter (fun n => s_step s <? n) after in
  let rest := filter (fun n => negb (s_step s <? n)) after in
  let older := if keep <? List.length rest
               then (if keep =? 0 then [] else firstn (List.length rest - keep) rest)
               else [] in
  AWrite d (s_step s) (to_file s) :: map (ARemove d) (newer ++ older).

(** flax.training.checkpoints.latest_checkpoint: the last in natural order *)
Definition latest {V} (l : files V) : option (nat * file V) := last (map Some l) None.

(** train_state_repository.py:18-22 *)
Record repo (V O : Type) := mk_repo { r_dir : option string; r_mem : option (state V O) }.
Arguments mk_repo {V O}. Arguments r_dir {V O}. Arguments r_mem {V O}.

Section Repo.
Context {V O : Type} (init : O -> tree V -> V).
Notation state := (state V O).
Notation repo := (repo V O).
Notation fs := (fs V).

(** checkpoint_path or self.checkpoint_dir.  Simplification: checkpoint_path is the
    name of a directory, not of a single checkpoint file. *)
Definition place (path : option string) (r : repo) : option string :=
  match path with Some p => Some p | None => r_dir r end.

(** mixin.py:59-85: ValueError if the directory is missing or holds no checkpoint *)
Definition restore (d : string) (o : option O) (w : fs) : result state :=
  match latest (dir_files d w) with
  | None => Err ValueError
  | Some (n, f) => Ok (from_file init n f o)
  end.

(** train_state_repository.py:24-44. The result is a deep copy (a value). *)
Definition get (path : option string) (o : option O) (w : fs) (r : repo) : result state * repo :=
  match place path r with
  | Some d => (restore d o w, r)
  | None =>
      match r_mem r with
      | None => (Err ValueError, r)
      | Some s =>
          match o with
          | None => (Ok s, r)
          | Some opt =>
              let s' := replace s [VTx (Some opt); VOpt (init opt (s_params s))] in
              (Ok s', mk_repo (r_dir r) (Some s'))
          end
      end
  end.

(** train_state_repository.py:46-62 *)
Definition put_actions (s : state) (path : option string) (keep : nat) (w : fs) (r : repo) : list (action V) :=
  match place path r with Some d => save_actions d w s keep | None => [] end.

Definition put (s : state) (path : option string) (keep : nat) (w : fs) (r : repo) : fs * repo :=
  (apply_actions w (put_actions s path keep w r),
   match place path r with Some _ => r | None => mk_repo (r_dir r) (Some s) end).

(** train_state_repository.py:64-82.  os.remove(checkpoint_path) of a directory fails. *)
Definition pull_actions (path : option string) (w : fs) (r : repo) : result (list (action V)) :=
  match path with
  | Some _ => Err OSError
  | None => match r_dir r with
            | None => Ok []
            | Some d => match latest (dir_files d w) with
                        | None => Err TypeError
                        | Some (n, _) => Ok [ARemove d n]
                        end
            end
  end.

Definition pull (path : option string) (o : option O) (w : fs) (r : repo) : result state * (fs * repo) :=
  match get path o w r with
  | (Err e, r') => (Err e, (w, r'))
  | (Ok s, r') =>
      match pull_actions path w r' with
      | Err e => (Err e, (w, r'))
      | Ok acts => (Ok s, (apply_actions w acts, r'))
      end
  end.

(** train_state_repository.py:84-100 *)
Definition update (vs : list (var V O)) (path : option string) (o : option O) (keep : nat)
    (w : fs) (r : repo) : result unit * (fs * repo) :=
  match pull path o w r with
  | (Err e, wr) => (Err e, wr)
  | (Ok s, (w', r')) => (Ok tt, put (replace s vs) path keep w' r')
  end.

(** The file system actions of an update, in order: those of pull, then those of
    put.  A crash is the loss of a suffix of this list. *)
Definition update_actions (vs : list (var V O)) (o : option O) (keep : nat) (w : fs) (r : repo) : list (action V) :=
  match get None o w r with
  | (Err _, _) => []
  | (Ok s, r') =>
      match pull_actions None w r' with
      | Err _ => []
      | Ok acts => acts ++ put_actions (replace s vs) None keep (apply_actions w acts) r'
      end
  end.

(** operations of a repository, as used by the rest of the code (checkpoint_path
    left at its default) *)
Inductive op :=
| Put (s : state) (keep : nat)
| Get (o : option O)
| Pull (o : option O)
| Update (vs : list (var V O)) (o : option O) (keep : nat).

Inductive out := Done | Got (s : state) | Raised (e : error).

Definition run_op (x : op) (w : fs) (r : repo) : out * (fs * repo) :=
  match x with
  | Put s keep => (Done, put s None keep w r)
  | Get o => match get None o w r with
             | (Ok s, r') => (Got s, (w, r'))
             | (Err e, r') => (Raised e, (w, r'))
             end
  | Pull o => match pull None o w r with
              | (Ok s, wr) => (Got s, wr)
              | (Err e, wr) => (Raised e, wr)
              end
  | Update vs o keep => match update vs None o keep w r with
                        | (Ok _, wr) => (Done, wr)
                        | (Err e, wr) => (Raised e, wr)
                        end
  end.

Fixpoint run (xs : list op) (w : fs) (r : repo) : list out * (fs * repo) :=
  match xs with
  | [] => ([], (w, r))
  | x :: xs => let (y, wr) := run_op x w r in
               let (ys, wr') := run xs (fst wr) (snd wr) in (y :: ys, wr')
  end.

(** ---- posterior_multi_state_repository.py ---- *)

(** lines 20-29: member i lives in checkpoint_dir/i.  os.path.join with a base that
    does not end in a separator. *)
Definition member_dir (base : string) (i : nat) : string := (base ++ "/" ++ decimal i)%string.
Definition init_multi (size : nat) (base : option string) : list repo :=
  map (fun i => mk_repo (option_map (fun b => member_dir b i) base) None) (seq 0 size).

(** lines 47-48, 67-68, 89-90, 116-117 (index given): self.state[i].op(...); a too
    large index raises IndexError. Negative indices are not modelled. *)
Definition run_member (i : nat) (x : op) (w : fs) (rs : list repo) : out * (fs * list repo) :=
  match nth_error rs i with
  | None => (Raised IndexError, (w, rs))
  | Some r => let (y, wr) := run_op x w r in
              (y, (fst wr, firstn i rs ++ snd wr :: skipn (S i) rs))
  end.

Fixpoint run_multi (xs : list (nat * op)) (w : fs) (rs : list repo) : list (nat * out) * (fs * list repo) :=
  match xs with
  | [] => ([], (w, rs))
  | (i, x) :: xs => let (y, wr) := run_member i x w rs in
                    let (ys, wr') := run_multi xs (fst wr) (snd wr) in ((i, y) :: ys, wr')
  end.

(** lines 49-52: get() of all members, in index order; no optimizer *)
Definition get_all (w : fs) (rs : list repo) : result (list state) :=
  mapM (fun r => fst (get None None w r)) rs.

(** lines 69-71: put() without an index evaluates state.append, an attribute states
    do not have, before storing anything. *)
Definition put_all (s : state) (w : fs) (rs : list repo) : result unit * (fs * list repo) :=
  match rs with [] => (Ok tt, (w, rs)) | _ => (Err AttributeError, (w, rs)) end.

(** lines 118-120: update of all members in turn *)
Definition update_all (vs : list (var V O)) (keep : nat) (w : fs) (rs : list repo) :=
  run_multi (map (fun i => (i, Update vs None keep)) (seq 0 (List.length rs))) w rs.

(** ---- sgmcmc_posterior_state_repository.py ---- *)

Inductive modify := Add | Remove.

(** lines 113-159 _update_state on a single state *)
Definition update_state (all_params : tree V) (which : option (list path)) (s : state) (m : modify) : result state :=
  match which with
  | None => Ok s
  | Some paths =>
      bind (mapM (nested_get (s_params s)) paths) (fun objs =>
      match m with
      | Add => rmap (fun p => replace s [VParams p]) (nested_set all_params paths objs false)
      | Remove => rmap (fun p => replace s [VParams p; VStep (s_step s)]) (nested_set (Dict []) paths objs true)
      end)
  end.

(** lines 113-122 on a list of states: _update_state is not defined there *)
Definition update_states (which : option (list path)) (ss : list state) : result (list state) :=
  match which, ss with
  | None, _ => Ok ss
  | Some _, [] => Ok []
  | Some _, _ :: _ => Err NameError
  end.

(** lines 56-71 put at index i *)
Definition sg_put (all_params : tree V) (which : option (list path)) (i : nat) (s : state) (keep : nat)
    (w : fs) (rs : list repo) : out * (fs * list repo) :=
  match update_state all_params which s Remove with
  | Err e => (Raised e, (w, rs))
  | Ok s' => run_member i (Put s' keep) w rs
  end.

(** lines 39-54 get at index i *)
Definition sg_get (all_params : tree V) (which : option (list path)) (i : nat) (o : option O)
    (w : fs) (rs : list repo) : result state :=
  match run_member i (Get o) w rs with
  | (Got s, _) => update_state all_params which s Add
  | (Raised e, _) => Err e
  | (Done, _) => Err RuntimeError
  end.

(** lines 39-54 get without an index *)
Definition sg_get_all (which : option (list path)) (w : fs) (rs : list repo) : result (list state) :=
  bind (get_all w rs) (update_states which).
End Repo.
Arguments Put {V O}. Arguments Get {V O}. Arguments Pull {V O}. Arguments Update {V O}.
Arguments Done {V O}. Arguments Got {V O}. Arguments Raised {V O}.
