(** Model of how training states are built, converted, written to checkpoints and read back:
    fortuna/training/{mixin,train_state,name_to_train_state}.py,
    fortuna/prob_model/posterior/{state,posterior_mixin,name_to_posterior_state,base}.py,
    fortuna/prob_model/posterior/*/*_state.py, fortuna/calib_model/{state,calib_mixin}.py and
    fortuna/output_calib_model/{state,output_calib_mixin}.py.

    RepoModel.v models which checkpoint a repository reads; here it is what becomes of the fields
    of a state.  Checkpoints are msgpack files (fortuna/__init__.py:3 switches orbax off).
    External: flax.serialization.to_state_dict, msgpack (keeps the order of dictionaries) and
    the treatment of dictionaries by jax (see [jit]).  Not modelled: that FrozenDict also freezes
    inner dictionaries; the field apply_fn, always None. *)
From Coq Require Import List Arith Bool String Ascii.
From Verif Require Import Lib NestedModel.
Import ListNotations.
Open Scope list_scope.
Local Notation length := List.length.
Local Notation "a >>= f" := (bind a f) (at level 61, left associativity).

Section Ser.
Variables A O : Type.                    (* arrays and optimizers *)

(** Python values in the fields of a state *)
Inductive pv :=
  | PNone
  | PNum (n : nat)
  | PArr (a : A)
  | PSeq (l : list pv)                                        (* tuple or list *)
  | PMap (frozen : bool) (kvs : list (string * pv))           (* dict or FrozenDict *)
  | PObj (cls : string) (kvs : list (string * pv)).           (* flax dataclass or named tuple *)
Variable opt_init : O -> pv -> pv.

(** flax.serialization.to_state_dict *)
Fixpoint to_state_dict (v : pv) : pv :=
  match v with
  | PNone => PNone
  | PNum n => PNum n
  | PArr a => PArr a
  | PSeq l => PMap false (list_to_state_dict (map to_state_dict l))
  | PMap _ kvs => PMap false (map (fun kv => (fst kv, to_state_dict (snd kv))) kvs)
  | PObj _ kvs => PMap false (map (fun kv => (fst kv, to_state_dict (snd kv))) kvs)
  end.
(** what jax.jit (or jax.tree_util.tree_map, or replicating over devices) gives back for a value
    that is left as it is: dictionaries are rebuilt with sorted keys *)
Fixpoint rebuild (v : pv) : pv :=
  match v with
  | PNone => PNone
  | PNum n => PNum n
  | PArr a => PArr a
  | PSeq l => PSeq (map rebuild l)
  | PMap f kvs => PMap f (sort_keys (map (fun kv => (fst kv, rebuild (snd kv))) kvs))
  | PObj c kvs => PObj c (map (fun kv => (fst kv, rebuild (snd kv))) kvs)
  end.

(** ---- classes of states ---- *)
Inductive cls := TrainC | CalibC | OutputCalibC | PosteriorC | MapC | AdviC | LaplaceC | SwagC | SghmcC | CyclicalC.
Definition class_name (c : cls) : string :=
  match c with
  | TrainC => "TrainState" | CalibC => "CalibState" | OutputCalibC => "OutputCalibState"
  | PosteriorC => "PosteriorState" | MapC => "MAPState" | AdviC => "ADVIState" | LaplaceC => "LaplaceState"
  | SwagC => "SWAGState" | SghmcC => "SGHMCState" | CyclicalC => "CyclicalSGLDState"
  end%string.
(** the default of the field encoded_name; calib_model/state.py:21-25 inherits it *)
Definition own_name (c : cls) : string := match c with CalibC => "TrainState"%string | _ => class_name c end.
(** utils/strings.py:14-15 *)
Definition encode_name (s : string) : pv := PSeq (map PNum (to_codes s)).

(** the fields with their defaults, without tx; the first three have none.
    train_state.py:17-20, state.py:24-36, and the classes' own files *)
Definition base_fields (c : cls) : list (string * pv) :=
  [("step", PNone); ("params", PNone); ("opt_state", PNone);
   ("encoded_name", encode_name (own_name c)); ("frozen_params", PNone); ("dynamic_scale", PNone)]%string.
Definition posterior_fields : list (string * pv) :=
  [("mutable", PNone); ("calib_params", PNone); ("calib_mutable", PNone); ("grad_accumulated", PNone)]%string.
Definition fields (c : cls) : list (string * pv) :=
  base_fields c ++
  match c with
  | TrainC => []
  | CalibC => [("mutable", PNone); ("calib_params", PNone); ("calib_mutable", PNone)]%string
  | OutputCalibC => [("mutable", PNone)]%string
  | PosteriorC | MapC => posterior_fields
  | AdviC | SghmcC | CyclicalC => posterior_fields ++ [("_encoded_which_params", PNone)]%string
  | LaplaceC => posterior_fields ++ [("prior_log_var", PNum 0); ("_encoded_which_params", PNone)]%string
  | SwagC => posterior_fields ++ [("mean", PNone); ("std", PNone); ("dev", PNone); ("_encoded_which_params", PNone)]%string
  end.
Definition has_field (c : cls) (k : string) : bool := existsb (String.eqb k) (map fst (fields c)).

Record state := mk_state { s_cls : cls; s_fields : list (string * pv); s_tx : option O }.
(** getattr *)
Definition field (k : string) (s : state) : option pv := assoc_get k (s_fields s).

Definition mem (k : string) (l : list string) : bool := existsb (String.eqb k) l.
Definition without (l : list string) (d : list (string * pv)) : list (string * pv) := filter (fun kv => negb (mem (fst kv) l)) d.
(** d.get(k, default) *)
Definition get_or (k : string) (default : pv) (d : list (string * pv)) : pv := match assoc_get k d with Some v => v | None => default end.

(** the call cls( **kw ): unknown keywords raise TypeError *)
Definition construct (c : cls) (kw : list (string * pv)) (tx : option O) : result state :=
  if forallb (fun kv => has_field c (fst kv)) kw
  then Ok (mk_state c (map (fun kv => (fst kv, get_or (fst kv) (snd kv) kw)) (fields c)) tx)
  else Err TypeError.

(** state.py:38-94, calib_model/state.py:27-55, output_calib_model/state.py:26-67; [kw] are all
    arguments but the optimizer by name.  CalibState drops what is not an attribute. *)
Definition init (c : cls) (optimizer : option O) (kw : list (string * pv)) : result (option state) :=
  match c with
  | TrainC => Ok None                                           (* train_state.py:22-24 *)
  | _ =>
      match assoc_get "params" kw with
      | None => Err TypeError
      | Some params =>
          match optimizer, assoc_get "opt_state" kw with
          | None, Some v => Ok v
          | Some o, _ => Ok (opt_init o params)
          | None, None => match c with OutputCalibC => Ok PNone | _ => Err AttributeError end
          end >>= fun opt_state =>
          let rest := without ["opt_state"; "apply_fn"; "tx"; "step"]%string kw in
          let rest := match c with CalibC => filter (fun kv => has_field c (fst kv)) rest | _ => rest end in
          rmap Some (construct c (("opt_state"%string, opt_state) :: ("step"%string, get_or "step" (PNum 0) kw) :: rest) optimizer)
      end
  end.

(** FrozenDict(v): of None and of arrays it raises TypeError *)
Definition freeze (v : pv) : result pv := match v with PMap _ kvs => Ok (PMap true kvs) | _ => Err TypeError end.
Definition freeze_unless_none (v : pv) : result pv := match v with PNone => Ok PNone | _ => freeze v end.
Definition item (k : string) (d : list (string * pv)) : result pv := match assoc_get k d with Some v => Ok v | None => Err KeyError end.

(** state.py:96-148, calib_model/state.py:57-94, output_calib_model/state.py:69-109,
    train_state.py:26-28 *)
Definition init_from_dict (c : cls) (d : list (string * pv)) (optimizer : option O) : result (option state) :=
  match c with
  | TrainC => Ok None
  | OutputCalibC =>
      item "params" d >>= freeze >>= fun params =>
      item "mutable" d >>= freeze >>= fun mutable =>
      init c optimizer (("params"%string, params) :: ("mutable"%string, mutable)
        :: without ["params"; "mutable"; "optimizer"]%string d)
  | _ =>
      item "params" d >>= freeze >>= fun params =>
      item "mutable" d >>= freeze_unless_none >>= fun mutable =>
      item "calib_params" d >>= freeze_unless_none >>= fun calib_params =>
      item "calib_mutable" d >>= freeze_unless_none >>= fun calib_mutable =>
      init c optimizer (("params"%string, params) :: ("mutable"%string, mutable)
        :: ("calib_params"%string, calib_params) :: ("calib_mutable"%string, calib_mutable)
        :: without ["params"; "mutable"; "optimizer"; "calib_params"; "calib_mutable"]%string d)
  end.

(** ---- checkpoints ---- *)
(** mixin.py:32-57: accumulated gradients are not saved *)
Definition save (s : state) : list (string * pv) :=
  map (fun kv => (fst kv, if String.eqb (fst kv) "grad_accumulated" then PNone else to_state_dict (snd kv))) (s_fields s).
(** what restore_checkpoint_path leads to *)
Inductive place := Missing | NoCheckpoint | Checkpoint (d : list (string * pv)).

(** mixin.py:84: the values are numbers; a dictionary is expected *)
Definition code (v : pv) : result nat := match v with PNum n => Ok n | _ => Err TypeError end.
Definition decode_name (v : pv) : result string :=
  match v with
  | PMap _ kvs => rmap of_codes (mapM (fun kv => code (snd kv)) kvs)
  | _ => Err AttributeError
  end.
(** name_to_train_state.py:6-7, name_to_posterior_state.py:15-23 *)
Definition table (cs : list cls) : list (string * cls) := map (fun c => (class_name c, c)) cs.
Definition train_table : list (string * cls) := table [TrainC].
Definition posterior_table : list (string * cls) := table [OutputCalibC; PosteriorC; MapC; AdviC; LaplaceC; SwagC; SghmcC; CyclicalC].

(** mixin.py:59-85 *)
Definition restore (names : list (string * cls)) (p : place) (optimizer : option O) : result (option state) :=
  match p with
  | Missing | NoCheckpoint => Err ValueError
  | Checkpoint d =>
      item "encoded_name" d >>= decode_name >>= fun name =>
      match assoc_get name names with None => Err KeyError | Some c => init_from_dict c d optimizer end
  end.
(** calib_mixin.py:15-40, output_calib_mixin.py:15-40 *)
Definition restore_as (c : cls) (p : place) (optimizer : option O) : result (option state) :=
  match p with Missing | NoCheckpoint => Err ValueError | Checkpoint d => init_from_dict c d optimizer end.
(** posterior_mixin.py:13-26 *)
Definition posterior_restore := restore posterior_table.
(** posterior/base.py:178-184: only ValueError is caught *)
Definition load_check (p : place) : result unit := rmap (fun _ => tt) (posterior_restore p None).

(** ---- conversions: swag_state.py:41-66 ([which] None), sghmc_state.py:34-66 and
         cyclical_sgld_state.py:34-66 (the encoded which_params) ---- *)
Definition attribute (k : string) (s : state) : result pv := match field k s with Some v => Ok v | None => Err AttributeError end.
Definition convert (c : cls) (s : state) (optimizer : O) (which : option pv) : result (option state) :=
  attribute "params" s >>= fun params =>
  attribute "mutable" s >>= fun mutable =>
  attribute "calib_params" s >>= fun calib_params =>
  attribute "calib_mutable" s >>= fun calib_mutable =>
  init c (Some optimizer) ([("params", params); ("mutable", mutable); ("calib_params", calib_params); ("calib_mutable", calib_mutable)]%string
    ++ match which with None => [] | Some w => [("_encoded_which_params"%string, w)] end).
(** state.replace( **variables ) of a dataclass; swag_state.py:68-83 is the same *)
Definition replace (s : state) (vs : list (string * pv)) : result state :=
  if forallb (fun kv => has_field (s_cls s) (fst kv)) vs
  then Ok (mk_state (s_cls s) (map (fun kv => (fst kv, get_or (fst kv) (snd kv) vs)) (s_fields s)) (s_tx s))
  else Err TypeError.

(** ---- training ---- *)
(** a jitted training step (trainer.py:713-728, output_calibrator.py) leaves the other fields as
    they are, but rebuilds them *)
Definition jit (s : state) : state := mk_state (s_cls s) (map (fun kv => (fst kv, rebuild (snd kv))) (s_fields s)) (s_tx s).
(** trainer.py:121-124: which gradient function a training step uses; a dictionary has no
    attribute value_and_grad *)
Inductive gradient := PlainGradient | ScaledGradient.
Definition gradient_function (s : state) : result gradient :=
  attribute "dynamic_scale" s >>= fun v =>
  match v with PNone => Ok PlainGradient | PObj _ _ => Ok ScaledGradient | _ => Err AttributeError end.
End Ser.
Arguments PNone {A}. Arguments PNum {A}. Arguments PArr {A}. Arguments PSeq {A}. Arguments PMap {A}. Arguments PObj {A}.
Arguments to_state_dict {A}. Arguments rebuild {A}. Arguments encode_name {A}. Arguments fields {A}. Arguments has_field {A}.
Arguments mk_state {A O}. Arguments s_cls {A O}. Arguments s_fields {A O}. Arguments s_tx {A O}. Arguments field {A O}.
Arguments without {A}. Arguments get_or {A}. Arguments construct {A O}. Arguments init {A O}. Arguments freeze {A}.
Arguments freeze_unless_none {A}. Arguments item {A}. Arguments init_from_dict {A O}. Arguments save {A O}.
Arguments Missing {A}. Arguments NoCheckpoint {A}. Arguments Checkpoint {A}. Arguments code {A}. Arguments decode_name {A}.
Arguments restore {A O}. Arguments restore_as {A O}. Arguments posterior_restore {A O}. Arguments load_check {A O}.
Arguments attribute {A O}. Arguments convert {A O}. Arguments replace {A O}. Arguments jit {A O}. Arguments gradient_function {A O}.
Arguments base_fields {A}. Arguments posterior_fields {A}.
