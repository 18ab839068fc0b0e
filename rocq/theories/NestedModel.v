(** Model of fortuna/utils/nested_dicts.py and fortuna/utils/strings.py.

    A nested dictionary is a finite tree.  Python dictionaries keep insertion
    order; assigning an existing key keeps its position, a new key goes last. *)
From Coq Require Import List Arith Lia Bool String Ascii Decimal DecimalString.
From Verif Require Import Lib.
Import ListNotations.
Open Scope list_scope.

(** Simplification: keys are strings ([AnyKey] also allows integers); a value that
    is not a dictionary is an opaque leaf. *)
Inductive tree (V : Type) : Type :=
| Leaf (v : V)
| Dict (kvs : list (string * tree V)).
Arguments Leaf {V}. Arguments Dict {V}.

Definition path := list string.

(** d[k], d.get(k): first binding; Python dictionaries have at most one. *)
Fixpoint assoc_get {A} (k : string) (d : list (string * A)) : option A :=
  match d with
  | [] => None
  | (k', v) :: r => if String.eqb k k' then Some v else assoc_get k r
  end.

(** d[k] = v *)
Fixpoint assoc_set {A} (k : string) (v : A) (d : list (string * A)) : list (string * A) :=
  match d with
  | [] => [(k, v)]
  | (k', v') :: r => if String.eqb k k' then (k, v) :: r else (k', v') :: assoc_set k v r
  end.

(** nested_dicts.py:15-34.  Indexing or testing membership in a leaf raises; the
    exact exception depends on the leaf, we use TypeError throughout. *)
Fixpoint nested_get {V} (d : tree V) (keys : path) : result (tree V) :=
  match keys with
  | [] => Err ValueError
  | k :: ks =>
      match d with
      | Leaf _ => Err TypeError
      | Dict kvs =>
          match assoc_get k kvs with
          | None => Err KeyError
          | Some t => match ks with [] => Ok t | _ => nested_get t ks end
          end
      end
  end.

(** One round of the loop of nested_set, nested_dicts.py:67-81: walk along
    keys[:-1], creating dictionaries if allowed, then assign at keys[-1]
    (keys[-1] of an empty list raises IndexError).  In place mutation of the deep
    copy becomes rebuilding. *)
Fixpoint set_path {V} (allow : bool) (d : tree V) (keys : path) (o : tree V) : result (tree V) :=
  match keys with
  | [] => Err IndexError
  | k :: ks =>
      match d with
      | Leaf _ => Err TypeError
      | Dict kvs =>
          match ks with
          | [] => match assoc_get k kvs with
                  | Some _ => Ok (Dict (assoc_set k o kvs))
                  | None => if allow then Ok (Dict (assoc_set k o kvs)) else Err KeyError
                  end
          | _ => match assoc_get k kvs with
                 | Some t => rmap (fun t' => Dict (assoc_set k t' kvs)) (set_path allow t ks o)
                 | None => if allow
                           then rmap (fun t' => Dict (assoc_set k t' kvs)) (set_path allow (Dict []) ks o)
                           else Err KeyError
                 end
          end
      end
  end.

Fixpoint set_paths {V} (allow : bool) (d : tree V) (pos : list (path * tree V)) : result (tree V) :=
  match pos with
  | [] => Ok d
  | (p, o) :: r => bind (set_path allow d p o) (fun d' => set_paths allow d' r)
  end.

(** nested_dicts.py:37-82.  The checks that arguments are tuples are typing. *)
Definition nested_set {V} (d : tree V) (key_paths : list path) (objs : list (tree V))
    (allow_nonexistent : bool) : result (tree V) :=
  if negb (List.length key_paths =? List.length objs) then Err ValueError
  else set_paths allow_nonexistent d (combine key_paths objs).

(** The dictionary display {l0: v, l1: o} (nested_dicts.py:128): equal labels leave
    the second value. *)
Definition pair_dict {V} (l0 l1 : string) (v o : tree V) : tree V :=
  Dict (assoc_set l1 o [(l0, v)]).

(** One round of nested_pair, nested_dicts.py:119-130 *)
Fixpoint pair_path {V} (d : tree V) (keys : path) (o : tree V) (l0 l1 : string) : result (tree V) :=
  match keys with
  | [] => Err IndexError
  | k :: ks =>
      match d with
      | Leaf _ => Err TypeError
      | Dict kvs =>
          match assoc_get k kvs with
          | None => Err KeyError
          | Some t => match ks with
                      | [] => Ok (Dict (assoc_set k (pair_dict l0 l1 t o) kvs))
                      | _ => rmap (fun t' => Dict (assoc_set k t' kvs)) (pair_path t ks o l0 l1)
                      end
          end
      end
  end.

Fixpoint pair_paths {V} (d : tree V) (pos : list (path * tree V)) (l0 l1 : string) : result (tree V) :=
  match pos with
  | [] => Ok d
  | (p, o) :: r => bind (pair_path d p o l0 l1) (fun d' => pair_paths d' r l0 l1)
  end.

(** nested_dicts.py:85-131; labels : Tuple[str, str] is a list here so that the
    length check is visible. *)
Definition nested_pair {V} (d : tree V) (key_paths : list path) (objs : list (tree V))
    (labels : list string) : result (tree V) :=
  if negb (List.length key_paths =? List.length objs) then Err ValueError
  else match labels with
       | [l0; l1] => pair_paths d (combine key_paths objs) l0 l1
       | _ => Err ValueError
       end.

Definition sub_get {V} (t : tree V) (l : string) : result (tree V) :=
  match t with
  | Leaf _ => Err TypeError
  | Dict kvs => match assoc_get l kvs with Some v => Ok v | None => Err KeyError end
  end.

(** One round of nested_unpair, nested_dicts.py:161-177.  [d1] is d01, [d2] is d02.
    d22[key] = dict() is executed before testing deeper keys. *)
Fixpoint unpair_path {V} (d1 d2 : tree V) (keys : path) (l0 l1 : string)
    : result (tree V * tree V) :=
  match keys with
  | [] => Err IndexError
  | k :: ks =>
      match d1 with
      | Leaf _ => Err TypeError
      | Dict kvs1 =>
          match assoc_get k kvs1 with
          | None => Err KeyError
          | Some t1 =>
              match d2 with
              | Leaf _ => Err TypeError
              | Dict kvs2 =>
                  match ks with
                  | [] => bind (sub_get t1 l1) (fun b =>
                          bind (sub_get t1 l0) (fun a =>
                          Ok (Dict (assoc_set k a kvs1), Dict (assoc_set k b kvs2))))
                  | _ =>
                      let t2 := match assoc_get k kvs2 with Some t => t | None => Dict [] end in
                      rmap (fun p => (Dict (assoc_set k (fst p) kvs1), Dict (assoc_set k (snd p) kvs2)))
                        (unpair_path t1 t2 ks l0 l1)
                  end
              end
          end
      end
  end.

Fixpoint unpair_paths {V} (d1 d2 : tree V) (ps : list path) (l0 l1 : string)
    : result (tree V * tree V) :=
  match ps with
  | [] => Ok (d1, d2)
  | p :: r => bind (unpair_path d1 d2 p l0 l1) (fun q => unpair_paths (fst q) (snd q) r l0 l1)
  end.

(** nested_dicts.py:134-179 *)
Definition nested_unpair {V} (d : tree V) (key_paths : list path) (labels : list string)
    : result (tree V * tree V) :=
  match labels with
  | [l0; l1] => unpair_paths d (Dict []) key_paths l0 l1
  | _ => Err ValueError
  end.

(** nested_dicts.py:182-194.  [key in tmp] tests membership in the returned tuple. *)
Fixpoint find_path {V} (d : tree V) (key : string) (keys : path) : path :=
  match d with
  | Leaf _ => keys
  | Dict kvs =>
      (fix go (kvs : list (string * tree V)) : path :=
         match kvs with
         | [] => keys
         | (k, v) :: r =>
             if String.eqb k key then keys ++ [k]
             else match v with
                  | Dict _ =>
                      let tmp := find_path v key (keys ++ [k]) in
                      if existsb (String.eqb key) tmp then tmp else go r
                  | Leaf _ => go r
                  end
         end) kvs
  end.

(** nested_dicts.py:206-214 for one updating mapping; a leaf at top level cannot be
    passed (.items() would fail), there we return the updating value. *)
Fixpoint update1 {V} (u d : tree V) {struct u} : tree V :=
  match u, d with
  | Dict ukvs, Dict kvs =>
      Dict ((fix go (ukvs acc : list (string * tree V)) {struct ukvs} :=
               match ukvs with
               | [] => acc
               | (k, v) :: r =>
                   go r (assoc_set k (match assoc_get k acc with
                                      | Some (Dict old) =>
                                          match v with
                                          | Dict _ => update1 v (Dict old)
                                          | Leaf _ => v
                                          end
                                      | _ => v
                                      end) acc)
               end) ukvs kvs)
  | _, _ => u
  end.

(** nested_dicts.py:197-215 *)
Definition nested_update {V} (d : tree V) (us : list (tree V)) : tree V :=
  fold_left (fun acc u => update1 u acc) us d.

(** ---- fortuna/utils/strings.py ---- *)

(** strings.py:18-19 (np.array of code points).  Simplification: characters are
    the 256 characters of Coq's [ascii]. *)
Definition to_codes (s : string) : list nat := map nat_of_ascii (list_ascii_of_string s).
(** strings.py:37: "".join([chr(o) for o in v]) *)
Definition of_codes (l : list nat) : string := string_of_list_ascii (map ascii_of_nat l).

(** What an encoded value can be when it reaches the decoder: the tuple of lists in
    memory, or the dictionary of dictionaries a flax checkpoint restores
    (flax.serialization.to_state_dict turns a list or tuple into a dictionary with
    keys "0", "1", ... in order; msgpack keeps the order). *)
Inductive encoded :=
| InMemory (l : list (list (list nat)))
| Restored (d : list (string * list (string * list nat))).

(** strings.py:22-29 *)
Definition encode (a : option (list path)) : option encoded :=
  match a with
  | None => None
  | Some a => Some (InMemory (map (map to_codes) a))
  end.

(** str(i) for i >= 0 *)
Definition decimal (n : nat) : string := NilZero.string_of_uint (Nat.to_uint n).

Definition list_to_state_dict {A} (l : list A) : list (string * A) :=
  combine (map decimal (seq 0 (List.length l))) l.

(** saving to and restoring from a checkpoint (flax, external) *)
Definition via_checkpoint (e : encoded) : encoded :=
  match e with
  | InMemory l => Restored (list_to_state_dict (map list_to_state_dict l))
  | Restored d => Restored d
  end.

Definition string_leb (a b : string) : bool :=
  match String.compare a b with Gt => false | _ => true end.

Fixpoint insert_key {A} (p : string * A) (l : list (string * A)) : list (string * A) :=
  match l with
  | [] => [p]
  | q :: r => if string_leb (fst p) (fst q) then p :: l else q :: insert_key p r
  end.

(** jax.tree_util.tree_map rebuilds a dictionary with its keys sorted. *)
Definition sort_keys {A} (l : list (string * A)) : list (string * A) :=
  fold_right insert_key [] l.

(** strings.py:32-41 *)
Definition decode (e : option encoded) : option (list path) :=
  match e with
  | None => None
  | Some (InMemory l) => Some (map (map of_codes) l)
  | Some (Restored d) =>
      Some (map (fun kv => map (fun kv' => of_codes (snd kv')) (sort_keys (snd kv))) (sort_keys d))
  end.
