(** Vocabulary of the statements about the training status. *)
From Coq Require Import List ZArith QArith String.
From Verif Require Import Lib.
Import ListNotations.
Local Notation length := List.length.
Local Notation concat := List.concat.

(** a dictionary has an entry *)
Definition entry {A} (d : list (string * A)) (k : string) (v : A) : Prop := In (k, v) d.
(** a dictionary without repeated keys whose keys are [ks], in any order *)
Definition has_keys {A} (d : list (string * A)) (ks : list string) : Prop :=
  NoDup (map fst d) /\ forall k, In k (map fst d) <-> In k ks.

(** arithmetic mean *)
Definition total (l : list Q) : Q := fold_right Qplus 0%Q l.
Definition average (l : list Q) : Q := (total l / inject_Z (Z.of_nat (length l)))%Q.

(** [m] is the average, over some dictionaries, of the entry [k] *)
Definition average_entry (rows : list (list (string * Q))) (k : string) (m : Q) : Prop :=
  exists vs, Forall2 (fun r v => entry r k v) rows vs /\ m = average vs.

(** all arrays of a list have one length *)
Definition all_sizes {A} (n : nat) (l : list (list A)) : Prop := forall x, In x l -> length x = n.
(** an array of shape (d, s, b) *)
Definition shaped {A} (d s b : nat) (a : list (list (list A))) : Prop :=
  length a = d /\ all_sizes s a /\ (forall x, In x a -> all_sizes b x).

(** predictions of posterior sample [s] for the whole batch: those of every device in turn *)
Definition sample_predictions {A} (s : nat) (preds : list (list (list A))) : list A :=
  concat (map (fun dev => nth s dev []) preds).

(** fraction of a list satisfying a test *)
Definition fraction {A} (test : A -> bool) (l : list A) : Q :=
  (inject_Z (Z.of_nat (length (filter test l))) / inject_Z (Z.of_nat (length l)))%Q.
