(** A tactic for examples: closed facts about literals. *)
From Coq Require Import List Arith ZArith QArith Reals.
From Coq Require Export Lia Lra.
Import ListNotations.

Ltac lit_in H := cbn in H; repeat match type of H with
  | _ \/ _ => destruct H as [H|H]
  | False => destruct H
  | (_, _) = (_, _) => injection H as H
  end.
Ltac lit_leaf := solve
  [ exact I | reflexivity | discriminate | lia | lra | (vm_compute; reflexivity) | (vm_compute; discriminate) | (vm_compute; intuition congruence)
  | (intros ?H; vm_compute in H; intuition congruence) | (cbn; lia) | (cbn; lra) | (cbn; intuition (try congruence; try lia)) ].
Ltac lit := lazymatch goal with
  | |- _ /\ _ => split; lit
  | |- NoDup [] => exact (NoDup_nil _)
  | |- NoDup (_ :: _) => apply NoDup_cons; [cbn; intuition congruence | lit]
  | |- NoDup _ => cbn; lit
  | |- Forall _ [] => exact (Forall_nil _)
  | |- Forall _ (_ :: _) => apply Forall_cons; lit
  | |- Forall2 _ [] [] => exact (Forall2_nil _)
  | |- Forall2 _ (_ :: _) (_ :: _) => apply Forall2_cons; lit
  | |- forall x, In x _ -> _ => let x := fresh "x" in let H := fresh "H" in intros x H; cbn in H; decompose [or] H; clear H; try contradiction; subst; lit
  | |- _ => lit_leaf
  end.
(** keys of literal trees *)
Ltac uniq := cbn; repeat match goal with
  | |- _ /\ _ => split
  | |- True => exact I
  | |- NoDup [] => constructor
  | |- NoDup (_ :: _) => constructor; [cbn; intuition congruence|]
  end.
