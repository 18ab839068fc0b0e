(** Vocabulary for the statements about the sets of BatchMVP. *)
From Coq Require Import List Arith ZArith QArith Qabs Bool.
From Verif Require Import Lib MultiModel MultiSpec OneShotModel OneShotSpec IterModel IterSpec.
Import ListNotations.
Open Scope Q_scope.

(** calibrators with one value per point *)
Definition one_value (f : family) : Prop := match f with Mc (TopLabel _) => False | _ => True end.
(** who is in group [g] *)
Definition members_of (g : nat) (w : membership) : list bool := map (fun row => nth g row false) (g_rows w).
(** how far a group is from its goal, times its size *)
Definition group_bias (f : family) (coverage : Q) (who : list bool) (ss xs : list Q) : Q :=
  match f with
  | Mvp => coverage * n_where who - n_covered who ss xs
  | _ => sum_where who ss - sum_where who xs
  end.
Definition both (bs cs : list bool) : list bool := map (fun p => fst p && snd p)%bool (combine bs cs).
(** the value of each marked point lies in some bucket *)
Definition bucketed (n : nat) (who : list bool) (xs : list Q) : Prop :=
  forall i x, nth_error who i = Some true -> nth_error xs i = Some x -> exists j, (j < n)%nat /\ within n x (centre n j).
