(** nested_set on Python's object heap: dictionaries are mutable objects with
    identity, so that sharing and in-place mutation are visible.  Refines
    NestedModel.nested_set in the aspect "which objects are modified". *)
From Coq Require Import List Arith Lia Bool String.
From Verif Require Import Lib NestedModel.
Import ListNotations.
Open Scope list_scope.

Inductive value (V : Type) := VLeaf (v : V) | VRef (a : nat).
Arguments VLeaf {V}. Arguments VRef {V}.
Definition obj V := list (string * value V).
(** address a is position a; objects are never freed *)
Definition heap V := list (obj V).

Fixpoint write {A} (h : list A) (a : nat) (o : A) : list A :=
  match h, a with
  | [], _ => []
  | _ :: r, 0 => o :: r
  | x :: r, S a => x :: write r a o
  end.

Definition memo := list (nat * nat).
Fixpoint memo_get (m : memo) (a : nat) : option nat :=
  match m with [] => None | (b, c) :: r => if a =? b then Some c else memo_get r a end.

(** copy.deepcopy of a dictionary (CPython's _deepcopy_dict): look up the memo,
    otherwise allocate y = {}, record it, then y[key] = deepcopy(value) in order.
    Leaves are copied as themselves. Fuel bounds the nesting depth. *)
Fixpoint dcopy {V} (fuel : nat) (h : heap V) (m : memo) (v : value V) : option (heap V * memo * value V) :=
  match fuel with
  | 0 => None
  | S fuel =>
      match v with
      | VLeaf x => Some (h, m, VLeaf x)
      | VRef a =>
          match memo_get m a with
          | Some b => Some (h, m, VRef b)
          | None =>
              match nth_error h a with
              | None => None
              | Some o =>
                  let b := List.length h in
                  (fix go (kvs : obj V) (h : heap V) (m : memo) (acc : obj V) :=
                     match kvs with
                     | [] => Some (h, m, VRef b)
                     | (k, v) :: r =>
                         match dcopy fuel h m v with
                         | None => None
                         | Some (h1, m1, v1) =>
                             let acc1 := acc ++ [(k, v1)] in
                             go r (write h1 b acc1) m1 acc1
                         end
                     end) o (h ++ [[]]) ((a, b) :: m) []
              end
          end
      end
  end.

(** one round of the loop nested_dicts.py:67-81, on the object at address a *)
Fixpoint hset_path {V} (allow : bool) (h : heap V) (a : nat) (keys : path) (o : value V)
    : result (heap V) :=
  match keys with
  | [] => Err IndexError
  | k :: ks =>
      match nth_error h a with
      | None => Err RuntimeError
      | Some d =>
          match ks with
          | [] => match assoc_get k d with
                  | Some _ => Ok (write h a (assoc_set k o d))
                  | None => if allow then Ok (write h a (assoc_set k o d)) else Err KeyError
                  end
          | _ => match assoc_get k d with
                 | Some (VRef b) => hset_path allow h b ks o
                 | Some (VLeaf _) => Err TypeError
                 | None => if allow
                           then let b := List.length h in
                                hset_path allow (write (h ++ [[]]) a (assoc_set k (VRef b) d)) b ks o
                           else Err KeyError
                 end
          end
      end
  end.

Fixpoint hset_paths {V} (allow : bool) (h : heap V) (a : nat) (pos : list (path * value V)) : result (heap V) :=
  match pos with
  | [] => Ok h
  | (p, o) :: r => bind (hset_path allow h a p o) (fun h' => hset_paths allow h' a r)
  end.

(** nested_dicts.py:62-82; None = out of fuel *)
Definition hnested_set {V} (fuel : nat) (h : heap V) (a : nat) (paths : list path) (objs : list (value V))
    (allow : bool) : option (result (heap V * nat)) :=
  if negb (List.length paths =? List.length objs) then Some (Err ValueError)
  else match dcopy fuel h [] (VRef a) with
       | Some (h1, _, VRef d0) =>
           Some (rmap (fun h2 => (h2, d0)) (hset_paths allow h1 d0 (combine paths objs)))
       | _ => None
       end.

(** reading a path from an object *)
Fixpoint hread {V} (h : heap V) (v : value V) (p : path) : option (value V) :=
  match p with
  | [] => Some v
  | k :: ks => match v with
               | VLeaf _ => None
               | VRef a => match nth_error h a with
                           | None => None
                           | Some d => match assoc_get k d with
                                       | None => None
                                       | Some w => hread h w ks
                                       end
                           end
               end
  end.
