(** Vocabulary for the statements about utilities: what two instances look like from
    outside, and where strings begin. *)
From Coq Require Import List Bool String Ascii.
Import ListNotations.

(** attributes whose name does not begin with an underscore *)
Definition visible {V} (l : list (string * V)) : list (string * V) :=
  filter (fun kv => negb (String.prefix "_" (fst kv))) l.
(** the same names in the same order, with equal values *)
Definition agree {V} (veq : V -> V -> bool) (l m : list (string * V)) : Prop :=
  Forall2 (fun p q => fst p = fst q /\ veq (snd p) (snd q) = true) (visible l) (visible m).
(** a class is a subclass of itself and inheritance has no cycles *)
Definition class_order {C} (sub : C -> C -> bool) : Prop :=
  (forall c, sub c c = true) /\ (forall c d, sub c d = true -> sub d c = true -> c = d).
Definition occurs (c : ascii) (s : string) : Prop := In c (list_ascii_of_string s).
(** a directory's name with a slash at its end *)
Definition with_slash (base root : string) : Prop :=
  (exists p, base = String.append p "/") /\ root = base \/ (forall p, base <> String.append p "/") /\ root = String.append base "/".
Definition starts_with (p s : string) : Prop := exists r, s = String.append p r.
