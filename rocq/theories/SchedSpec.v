(** Vocabulary for the statements about schedules, masks and clipping. *)
From Coq Require Import List ZArith QArith Bool String Ascii Reals.
From Verif Require Import NestedModel SchedModel.
Import ListNotations.
Open Scope list_scope.

(** [s] belongs to the largest threshold not above [count] *)
Definition scale_in_force (bs : list (Z * Q)) (count : Z) (s : Q) : Prop :=
  exists t, In (t, s) bs /\ (t <= count)%Z /\ forall t' s', In (t', s') bs -> (t' <= count)%Z -> (t' <= t)%Z.

(** Euclidean norm of all entries *)
Definition norm (g : list (list R)) : R := sqrt (fold_right (fun z acc => z * z + acc)%R 0%R (List.concat g)).
(** entrywise difference *)
Definition subtract (g h : list (list R)) : list (list R) :=
  map (fun ab => map (fun xy => fst xy - snd xy)%R (combine (fst ab) (snd ab))) (combine g h).

(** [s] occurs in [t] *)
Definition occurs_in (s t : string) : Prop := exists a b, t = (a ++ s ++ b)%string.
(** same last two components (or same last component if one is all there is) *)
Definition same_end (p q : path) : Prop :=
  exists r s e, p = r ++ e /\ q = s ++ e /\
    (List.length e = 2%nat \/ ((List.length e < 2)%nat /\ r = [] /\ s = [])).
(** [a] is the small letter or other character [l], or its capital *)
Definition spells (l a : ascii) : Prop :=
  a = l \/ exists i, String.get i "ABCDEFGHIJKLMNOPQRSTUVWXYZ" = Some a /\ String.get i "abcdefghijklmnopqrstuvwxyz" = Some l.
(** [s], in any mixture of capitals and small letters, occurs in [t] *)
Definition occurs_in_any_case (s t : string) : Prop :=
  exists a m b, t = (a ++ m ++ b)%string /\ Forall2 spells (list_ascii_of_string s) (list_ascii_of_string m).
(** the joined path mentions a layer norm *)
Definition named_layer_norm (p : path) : Prop :=
  exists c, In c ["layernorm"; "layer_norm"; "ln"]%string /\ occurs_in_any_case c (String.concat "" p).
