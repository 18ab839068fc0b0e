(** What saving, restoring and converting states should preserve, said in terms of what is found
    by following keys into the fields of a state. *)
From Coq Require Import List Arith Bool String.
From Verif Require Import Lib NestedModel SerModel.
Import ListNotations.
Local Notation length := List.length.

Section Spec.
Variables A O : Type.

(** what is seen at a position: None, a number, an array, or something with entries *)
Inductive seen := SNone | SNum (n : nat) | SArr (a : A) | SBranch.
Definition top (v : pv A) : seen :=
  match v with PNone => SNone | PNum n => SNum n | PArr a => SArr a | _ => SBranch end.
(** the entries: positions of sequences are written in decimal *)
Definition entry (k : string) (v : pv A) : option (pv A) :=
  match v with
  | PSeq l => assoc_get k (combine (map decimal (seq 0 (length l))) l)
  | PMap _ kvs | PObj _ kvs => assoc_get k kvs
  | _ => None
  end.
Fixpoint look (v : pv A) (path : list string) : option seen :=
  match path with
  | [] => Some (top v)
  | k :: ks => match entry k v with Some w => look w ks | None => None end
  end.
Definition looks_like (v w : pv A) : Prop := forall path, look v path = look w path.

(** keys of dictionaries are different, at all depths *)
Inductive proper : pv A -> Prop :=
  | proper_none : proper PNone
  | proper_num n : proper (PNum n)
  | proper_arr a : proper (PArr a)
  | proper_seq l : Forall proper l -> proper (PSeq l)
  | proper_map f kvs : NoDup (map fst kvs) -> Forall (fun kv => proper (snd kv)) kvs -> proper (PMap f kvs)
  | proper_obj c kvs : NoDup (map fst kvs) -> Forall (fun kv => proper (snd kv)) kvs -> proper (PObj c kvs).

Definition is_dict (v : pv A) : Prop := exists f kvs, v = PMap f kvs.
Definition frozen_dict (v : pv A) : Prop := exists kvs, v = PMap true kvs.

(** the name of the class is stored, as a tuple of character codes or, once restored, as a
    dictionary of them *)
Definition name_stored (n : string) (v : pv A) : Prop :=
  v = PSeq (map PNum (to_codes n))
  \/ exists f, v = PMap f (combine (map decimal (seq 0 (length (to_codes n)))) (map PNum (to_codes n))).

(** states as training makes them: all fields there, parameters in a dictionary, the other
    collections too or None *)
Definition collections (c : cls) : list string :=
  match c with TrainC => [] | OutputCalibC => ["mutable"] | _ => ["mutable"; "calib_params"; "calib_mutable"] end%string.
Definition field_names (c : cls) : list string :=
  match c with
  | TrainC => ["step"; "params"; "opt_state"; "encoded_name"; "frozen_params"; "dynamic_scale"]
  | CalibC => ["step"; "params"; "opt_state"; "encoded_name"; "frozen_params"; "dynamic_scale"; "mutable"; "calib_params"; "calib_mutable"]
  | OutputCalibC => ["step"; "params"; "opt_state"; "encoded_name"; "frozen_params"; "dynamic_scale"; "mutable"]
  | PosteriorC | MapC => ["step"; "params"; "opt_state"; "encoded_name"; "frozen_params"; "dynamic_scale";
      "mutable"; "calib_params"; "calib_mutable"; "grad_accumulated"]
  | AdviC | SghmcC | CyclicalC => ["step"; "params"; "opt_state"; "encoded_name"; "frozen_params"; "dynamic_scale";
      "mutable"; "calib_params"; "calib_mutable"; "grad_accumulated"; "_encoded_which_params"]
  | LaplaceC => ["step"; "params"; "opt_state"; "encoded_name"; "frozen_params"; "dynamic_scale";
      "mutable"; "calib_params"; "calib_mutable"; "grad_accumulated"; "prior_log_var"; "_encoded_which_params"]
  | SwagC => ["step"; "params"; "opt_state"; "encoded_name"; "frozen_params"; "dynamic_scale";
      "mutable"; "calib_params"; "calib_mutable"; "grad_accumulated"; "mean"; "std"; "dev"; "_encoded_which_params"]
  end%string.
(** what a field holds when nothing is given for it *)
Definition default_value (c : cls) (k : string) : pv A :=
  if String.eqb k "encoded_name" then PSeq (map PNum (to_codes match c with
    | TrainC | CalibC => "TrainState" | OutputCalibC => "OutputCalibState" | PosteriorC => "PosteriorState" | MapC => "MAPState"
    | AdviC => "ADVIState" | LaplaceC => "LaplaceState" | SwagC => "SWAGState" | SghmcC => "SGHMCState" | CyclicalC => "CyclicalSGLDState" end%string))
  else if String.eqb k "prior_log_var" then PNum 0 else PNone.
Record whole_state (s : state A O) : Prop := {
  whole_fields : map fst (s_fields s) = field_names (s_cls s);
  whole_params : exists v, field "params" s = Some v /\ is_dict v;
  whole_collections : forall k, In k (collections (s_cls s)) -> exists v, field k s = Some v /\ (v = PNone \/ is_dict v);
  whole_values : forall k v, field k s = Some v -> proper v
}.
(** those of posteriors are also named after their class *)
Definition posterior_class (c : cls) : Prop := ~ In c [TrainC; CalibC; OutputCalibC].
Definition named (s : state A O) : Prop := exists v, field "encoded_name" s = Some v /\ name_stored (class_name (s_cls s)) v.

(** the same values, in the fields but those listed *)
Definition same_fields (but : list string) (s t : state A O) : Prop :=
  forall k, ~ In k but ->
    match field k s, field k t with Some v, Some w => looks_like v w | None, None => True | _, _ => False end.

(** work on a state between two points of its life: training steps, and saving followed by
    restoring with or without an optimizer *)
Inductive event := Step | Resume (optimizer : option O).
Variable opt_init : O -> pv A -> pv A.
Fixpoint live (events : list event) (s : state A O) : result (state A O) :=
  match events with
  | [] => Ok s
  | Step :: r => live r (jit s)
  | Resume o :: r =>
      match posterior_restore opt_init (Checkpoint (save s)) o with
      | Ok (Some t) => live r t
      | Ok None => Err AttributeError
      | Err e => Err e
      end
  end.
End Spec.
Arguments SNone {A}. Arguments SNum {A}. Arguments SArr {A}. Arguments SBranch {A}.
Arguments top {A}. Arguments entry {A}. Arguments look {A}. Arguments looks_like {A}. Arguments proper {A}. Arguments is_dict {A}.
Arguments frozen_dict {A}. Arguments name_stored {A}. Arguments whole_state {A O}. Arguments named {A O}. Arguments default_value {A}. Arguments same_fields {A O}.
Arguments Step {O}. Arguments Resume {O}. Arguments live {A O}.
