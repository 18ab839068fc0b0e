(** Toy transformers for the examples of TfmHeadProps.v: one feature; the hidden state of a token is its
    number, the pooled vector the number of unmasked tokens. *)
From Coq Require Import List Arith Bool Reals.
From Verif Require Import Lib SngpModel TfmModel TfmHeadModel.
Import ListNotations.
Local Open Scope R_scope.

Definition q_encode (k : tokens) (train : bool) : encoded :=
  {| e_hidden := map (map (fun n (_ : nat) => INR n)) (k_ids k);
     e_pooled := map (fun row (_ : nat) => INR (fold_right Nat.add 0%nat row)) (k_mask k) |}.
Definition q_text : texts := {| t_ids := [[3; 5]; [2; 4]]%nat; t_mask := None; t_types := None; t_positions := None; t_heads := None |}.
Definition q_kernel : mat := fun _ _ => / 2.
Definition q_bias : vec := fun _ => -1.
Definition q_keep (i j : nat) : bool := (i =? 0)%nat.
Definition q_manager a rd train := sngp_manager (M := nat) q_encode (fun e => [e_pooled e]) (fun k m => (m + List.length (k_ids k))%nat) a 1 2 (fun ids => ids) 1 q_kernel q_bias (/ 2) rd None q_keep q_text train (Some 7%nat).
