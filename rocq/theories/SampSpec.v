(** The rows that the draws of a sample select, in order. *)
From Coq Require Import List Arith.
Import ListNotations.

(** the rows at which the mask is true *)
Definition chosen {X} (mask : list bool) (xs : list X) : list X := map snd (filter fst (combine mask xs)).
(** rows of all batches in pass [p] *)
Definition pass_rows {X} (draw : nat -> list bool) (l : list (list X)) (p : nat) : list X :=
  concat (map (fun b => chosen (draw (p * length l + b)) (nth b l [])) (seq 0 (length l))).
(** rows of the first [k] passes *)
Definition stream {X} (draw : nat -> list bool) (l : list (list X)) (k : nat) : list X := concat (map (pass_rows draw l) (seq 0 k)).
