(** Properties C23, C63: frozen parameters. *)
From Coq Require Import List Bool String.
From Verif Require Import Lib NestedModel NestedSpec FreezeModel FreezeSpec FreezeProofs.
From Verif Require Import Lit EnsSpec TreeCases.
Import ListNotations.
Open Scope string_scope.

(** C23: after any sequence of structure-preserving updates of the trainable part, frozen
    leaves have their old values and no leaf appears or disappears *)
Theorem C23_frozen_never_change : forall {V} (f : path -> V -> string) t updates final,
  unique_keys t -> (exists kvs, t = Dict kvs) ->
  Forall (fun upd => forall x, unique_keys x -> unique_keys (upd x) /\ same_structure x (upd x)) updates ->
  fit_with_freeze t f updates = Ok final ->
  (forall q v, leaf_at t q v -> f q v = "frozen" -> leaf_at final q v) /\
  (forall q, (exists v, leaf_at final q v) <-> (exists v, leaf_at t q v)).
Proof. exact (@fit_frozen). Qed.
Print Assumptions C23_frozen_never_change.
Example C23_case_updates :
  let t := Dict [("model", Dict [("params", Dict [("body", Dict [("w", Leaf 1); ("b", Leaf 2)]); ("head", Dict [("w", Leaf 3)])])])] in
  let f := fun (p : path) (_ : nat) => if existsb (String.eqb "head") p then "trainable" else "frozen" in
  unique_keys t /\ (exists kvs, t = Dict kvs) /\
  Forall (fun upd => forall x : tree nat, unique_keys x -> unique_keys (upd x) /\ same_structure x (upd x)) [tmap S; tmap (Nat.mul 2)] /\
  fit_with_freeze t f [tmap S; tmap (Nat.mul 2)]
  = Ok (Dict [("model", Dict [("params", Dict [("body", Dict [("w", Leaf 1); ("b", Leaf 2)]); ("head", Dict [("w", Leaf 8)])])])]).
Proof.
  split; [uniq|]. split; [eexists; reflexivity|]. split; [|reflexivity]. repeat constructor; try (now apply tmap_unique); apply tmap_structure.
Qed.

(** the merge takes trainable leaves from the trained tree [u] *)
Theorem C23_merge : forall {V} (f : path -> V -> string) t fr tr u,
  unique_keys t -> (exists kvs, t = Dict kvs) -> on_train_start t f = Ok (fr, tr) -> unique_keys u -> same_structure tr u ->
  let merged := get_all_params fr u in
  (forall q v, leaf_at t q v -> f q v = "frozen" -> leaf_at merged q v) /\
  (forall q v, leaf_at t q v -> f q v = "trainable" -> exists w, leaf_at u q w /\ leaf_at merged q w) /\
  (forall q, (exists v, leaf_at merged q v) <-> (exists v, leaf_at t q v)).
Proof. exact (@frozen_never_change). Qed.
Print Assumptions C23_merge.

Theorem C23_split : forall {V} (f : path -> V -> string) t fr tr,
  unique_keys t -> (exists kvs, t = Dict kvs) -> on_train_start t f = Ok (fr, tr) ->
  (forall q v, leaf_at fr q v <-> leaf_at t q v /\ f q v = "frozen") /\
  (forall q v, leaf_at tr q v <-> leaf_at t q v /\ f q v = "trainable").
Proof. exact (@split_partition). Qed.
Print Assumptions C23_split.

Theorem C23_split_merge_identity : forall {V} (f : path -> V -> string) t fr tr,
  unique_keys t -> (exists kvs, t = Dict kvs) -> on_train_start t f = Ok (fr, tr) ->
  forall q v, leaf_at (get_all_params fr tr) q v <-> leaf_at t q v.
Proof. exact (@split_merge_identity). Qed.
Print Assumptions C23_split_merge_identity.

Theorem C23_labels_checked : forall {V} (f : path -> V -> string) t,
  unique_keys t -> (exists kvs, t = Dict kvs) ->
  ((exists r, on_train_start t f = Ok r) <-> (forall q v, leaf_at t q v -> f q v = "frozen" \/ f q v = "trainable")) /\
  ((exists q v, leaf_at t q v /\ f q v <> "frozen" /\ f q v <> "trainable") -> on_train_start t f = Err ValueError).
Proof. exact (@split_total). Qed.
Print Assumptions C23_labels_checked.

(** get_trainable_paths without a freeze function returns the characters of the keys *)
Theorem C23_no_freeze_fun_refuted : exists (t : tree nat) paths,
  unique_keys t /\ get_trainable_paths t None = Ok paths /\
  exists q v, leaf_at t q v /\ Forall (fun p => at_path t p = None) paths.
Proof. exact no_freeze_fun_wrong. Qed.
Print Assumptions C23_no_freeze_fun_refuted.

Example C23_case :
  let t := Dict [("model", Dict [("params", Dict [("body", Dict [("w", Leaf 1); ("b", Leaf 2)]); ("head", Dict [("w", Leaf 3)])])])] in
  let f := fun (p : path) (_ : nat) => if existsb (String.eqb "head") p then "trainable" else "frozen" in
  let upd := fun x => match nested_set x [["model"; "params"; "head"; "w"]] [Leaf 9] false with Ok y => y | Err _ => x end in
  fit_with_freeze t f [upd; upd]
  = Ok (Dict [("model", Dict [("params", Dict [("body", Dict [("w", Leaf 1); ("b", Leaf 2)]); ("head", Dict [("w", Leaf 9)])])])]).
Proof. reflexivity. Qed.

(** C63 *)
Theorem C63_member_init : forall {V} (f : path -> V -> string) t random,
  unique_keys t -> (exists kvs, t = Dict kvs) -> same_structure t random ->
  (forall q v, leaf_at t q v -> f q v = "frozen" \/ f q v = "trainable") ->
  exists start, init_member t random f = Ok start /\
    (forall q v, leaf_at t q v -> f q v = "frozen" -> leaf_at start q v) /\
    (forall q v, leaf_at t q v -> f q v = "trainable" -> exists w, leaf_at random q w /\ leaf_at start q w).
Proof. exact (@member_init). Qed.
Print Assumptions C63_member_init.
Example C63_case_hypotheses :
  let t := Dict [("body", Dict [("w", Leaf 1)]); ("head", Dict [("w", Leaf 3); ("b", Leaf 4)])] in
  let f := fun (p : path) (_ : nat) => if existsb (String.eqb "head") p then "trainable" else "frozen" in
  unique_keys t /\ same_structure t (Dict [("head", Dict [("b", Leaf 7); ("w", Leaf 6)]); ("body", Dict [("w", Leaf 5)])]) /\
  (forall q v, leaf_at t q v -> f q v = "frozen" \/ f q v = "trainable") /\ leaf_at t ["head"; "b"] 4.
Proof.
  split; [uniq|]. split; [apply structure_by; reflexivity|]. split; [|reflexivity].
  intros q v _. cbn beta zeta. destruct (existsb (String.eqb "head") q); [now right|now left].
Qed.

Example C63_case :
  let f := fun (p : path) (_ : nat) => if existsb (String.eqb "head") p then "trainable" else "frozen" in
  init_member (Dict [("body", Dict [("w", Leaf 1)]); ("head", Dict [("w", Leaf 3); ("b", Leaf 4)])])
              (Dict [("body", Dict [("w", Leaf 5)]); ("head", Dict [("w", Leaf 6); ("b", Leaf 7)])]) f
  = Ok (Dict [("body", Dict [("w", Leaf 1)]); ("head", Dict [("w", Leaf 6); ("b", Leaf 7)])]).
Proof. reflexivity. Qed.
