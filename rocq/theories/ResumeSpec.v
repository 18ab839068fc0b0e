(** Training as a function of the two vectors of ADVI. *)
From Coq Require Import List.
From Verif Require Import Lib.
Import ListNotations.

Section Train.
Context {V : Type}.
Notation trainer := (list V -> list V -> result (list V * list V)).
(** training keeps the lengths of vectors *)
Definition keeps_lengths (t : trainer) : Prop :=
  forall m l m' l', t m l = Ok (m', l') -> length m' = length m /\ length l' = length l.
(** one after the other *)
Definition followed_by (t u : trainer) : trainer := fun m l => bind (t m l) (fun w => u (fst w) (snd w)).
(** no steps *)
Definition no_steps : trainer := fun m l => Ok (m, l).
End Train.
