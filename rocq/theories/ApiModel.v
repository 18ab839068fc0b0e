(** Model of fortuna/utils/builtins.py (HashableMixin, dynamic scale), of jax.jit's use of
    it in fortuna/training/trainer.py:707-737, of fortuna/utils/device.py and of
    fortuna/sagemaker/utils.py. *)
From Coq Require Import List Arith ZArith Bool String Ascii.
From Verif Require Import Lib NestedModel.
Import ListNotations.
Local Notation length := List.length.
Open Scope list_scope.
Local Notation "a >>= f" := (bind a f) (at level 61, left associativity).

(** ---- utils/builtins.py:10-32 ---- *)
Section Hashable.
(** classes [C] with issubclass, attribute values [V] with ==, and hash; [thash] is the
    hash of a tuple as a function of the hashes of its items.  Simplifications: comparing
    attribute values yields a truth value (arrays would raise) and every public value is
    hashable; getattr(self, k) for k in vars(self) is the value stored under k. *)
Context {C V H : Type} (sub : C -> C -> bool) (veq : V -> V -> bool) (vhash : V -> H) (thash : list H -> H).

(** an instance: its class and vars(self) in insertion order *)
Record obj := mk_obj { cls : C; attrs : list (string * V) }.
(** other Python values: those without vars() (numbers, strings, None, ...) *)
Inductive value := Obj (o : obj) | Plain.

(** not k.startswith("_") *)
Definition public (k : string) : bool :=
  match k with String "_"%char _ => false | _ => true end.
Definition public_attrs (o : obj) : list (string * V) := filter (fun kv => public (fst kv)) (attrs o).

(** lines 11-20 *)
Definition hash (o : obj) : H := thash (map (fun kv => vhash (snd kv)) (sort_keys (public_attrs o))).

Definition keys_eqb (a b : list string) : bool := if list_eq_dec string_dec a b then true else false.

(** lines 22-32, the method; vars(other) raises TypeError for a value without attributes *)
Definition eq_method (a : obj) (b : value) : result bool :=
  match b with
  | Plain => Err TypeError
  | Obj b =>
      let ka := map fst (public_attrs a) in
      let kb := map fst (public_attrs b) in
      if keys_eqb ka kb && sub (cls b) (cls a) then
        Ok (forallb (fun k => match assoc_get k (attrs a), assoc_get k (attrs b) with
                              | Some x, Some y => veq x y | _, _ => false end) ka)
      else Ok false
  end.

(** the operator a == b of two instances: if type(b) is a proper subclass of type(a) the
    reflected method of [b] is tried first, and it never returns NotImplemented *)
Definition py_eq (a b : obj) : bool :=
  let r := if sub (cls b) (cls a) && negb (sub (cls a) (cls b))
           then eq_method b (Obj a) else eq_method a (Obj b) in
  match r with Ok x => x | Err _ => false end.
(** a == v and v == a for a value that is not such an instance: the other operand returns
    NotImplemented, so the method is called either way *)
Definition py_eq_value (a : obj) (v : value) : result bool :=
  match v with Obj b => Ok (py_eq a b) | Plain => eq_method a v end.

(** ---- trainer.py:707-737: jax.jit with static argument self ----
    [trace o] is the program obtained by tracing the step of instance [o]; traces are kept
    in a dictionary with the instance as key (one entry per shape of the other arguments,
    which we fix) *)
Context {P : Type} (heqb : H -> H -> bool) (trace : obj -> P).
Definition cache := list (obj * P).
Definition jit_lookup (c : cache) (o : obj) : option P :=
  match find (fun e => heqb (hash (fst e)) (hash o) && py_eq (fst e) o) c with
  | Some e => Some (snd e) | None => None end.
Definition jit_call (c : cache) (o : obj) : P * cache :=
  match jit_lookup c o with
  | Some p => (p, c)
  | None => (trace o, c ++ [(o, trace o)])
  end.
Fixpoint jit_calls (c : cache) (os : list obj) : list P :=
  match os with
  | [] => []
  | o :: r => let (p, c') := jit_call c o in p :: jit_calls c' r
  end.
End Hashable.
Arguments obj : clear implicits.
Arguments value : clear implicits.
Arguments cache : clear implicits.

(** ---- utils/builtins.py:35-37; [None]: the model has no dtype attribute ---- *)
Inductive dtype := Float16 | BFloat16 | Float32 | Float64 | OtherType.
Definition uses_dynamic_scale (d : option dtype) : bool :=
  match d with Some Float16 | Some BFloat16 => true | _ => false end.

(** ---- utils/device.py:7-35; [platforms] lists the platform of each of jax.devices() ---- *)
Inductive trainer_cls := BaseTrainer | JittedTrainer | MultiDeviceTrainer.
Definition select_trainer (devices : Z) (platforms : list string) (disable_jit : bool) : result trainer_cls :=
  if negb ((devices =? 0) || (devices =? -1))%Z then Err NotImplementedErr
  else if (devices =? -1)%Z then
    Ok (if (0 <? length (filter (fun p => String.eqb p "gpu") platforms))%nat then MultiDeviceTrainer else JittedTrainer)
  else if disable_jit then Ok BaseTrainer
  else Ok JittedTrainer.

(** ---- sagemaker/utils.py ---- *)
Definition ends_with_slash (s : string) : bool :=
  match rev (list_ascii_of_string s) with "/"%char :: _ => true | _ => false end.
(** lines 13-15: the attribute may be missing ([None]) or empty *)
Definition relative (p : option string) : option string :=
  match p with Some "" => None | _ => p end%string.
(** lines 9-32 *)
Definition create_input_channels (base : string) (train test validation : option string) : list (string * string) :=
  let base := if ends_with_slash base then base else (base ++ "/")%string in
  let channels := match relative train with Some p => [("train", base ++ p)] | None => [("train", base)] end%string in
  let channels := match relative test with Some p => assoc_set "test" (base ++ p) channels | None => channels end%string in
  match relative validation with Some p => assoc_set "validation" (base ++ p) channels | None => channels end%string.
(** str.replace("_", "-") *)
Fixpoint dashes (s : string) : string :=
  match s with
  | EmptyString => EmptyString
  | String c r => String (if Ascii.eqb c "_"%char then "-"%char else c) (dashes r)
  end.
(** lines 35-41 *)
Definition get_base_job_name (task method model : string) (suffix : option string) : string :=
  let name := dashes ("fortuna-" ++ task ++ "-" ++ method ++ "-" ++ model)%string in
  match suffix with Some s => (name ++ dashes ("-" ++ s))%string | None => name end.
(** lines 44-51; a call with a repeated keyword raises TypeError.  The arguments are
    dictionaries (keys without repetition) *)
Definition merge_kwargs {A} (a b : list (string * A)) : result (list (string * A)) :=
  if existsb (fun k => existsb (String.eqb k) (map fst a)) (map fst b) then Err TypeError else Ok (a ++ b).
Definition get_hparams {A} (task model method : list (string * A)) : result (list (string * A)) :=
  merge_kwargs task model >>= fun d => merge_kwargs d method.
