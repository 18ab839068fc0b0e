(** Specification vocabulary for loaders, independent of LoaderModel. *)
From Coq Require Import List Arith Permutation.
Import ListNotations.

(** [bs] cuts [data] into consecutive batches of [b] rows, the last possibly
    shorter but non-empty unless there are no rows at all. *)
Definition well_batched {A} (b : nat) (data : list A) (bs : list (list A)) : Prop :=
  concat bs = data /\
  exists init last, bs = init ++ [last] /\
    Forall (fun c => length c = b) init /\ length last <= b /\
    (data <> [] -> 1 <= length last) /\ (data = [] -> init = []).

(** each batch has as many inputs as targets *)
Definition aligned {X Y} (bs : list (list X * list Y)) : Prop :=
  Forall (fun p => length (fst p) = length (snd p)) bs.

(** the (input, target) rows of a loader in the order visited *)
Definition rows {X Y} (bs : list (list X * list Y)) : list (X * Y) :=
  flat_map (fun p => combine (fst p) (snd p)) bs.

Definition is_perm_of (n : nat) (perm : list nat) : Prop := Permutation perm (seq 0 n).

(** the longest prefix of [l] whose length is a multiple of [d] *)
Definition longest_divisible_prefix {A} (d : nat) (l p : list A) : Prop :=
  exists rest, l = p ++ rest /\ (exists k, length p = k * d) /\ length rest < d.
