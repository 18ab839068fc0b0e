(** Model of fortuna/utils/freeze.py:50-81 (freeze_optimizer) and of the parts of optax it uses:
    multi_transform and set_to_zero.

    An optimizer is an optax gradient transformation on the leaves of the parameters, in the order
    of FreezeModel.leaves; masked leaves are empty nodes, so an inner transformation sees the list
    of the others.  multi_transform applies the masked transformations one after the other.
    FrozenDict and dict are not distinguished. *)
From Coq Require Import List Bool String.
From Verif Require Import Lib NestedModel FreezeModel.
Import ListNotations.
Open Scope list_scope.

Section Frz.
Context {V : Type}.
Variables (zero : V) (add : V -> V -> V).

Record optimizer := { o_state : Type; o_init : list V -> o_state; o_update : list V -> o_state -> list V -> list V * o_state }.
(** optax.set_to_zero *)
Definition set_to_zero : optimizer := {| o_state := unit; o_init := fun _ => tt; o_update := fun gs _ _ => (map (fun _ => zero) gs, tt) |}.
(** optax.masked: the leaves of the mask are replaced, the others kept *)
Fixpoint put (mask : list bool) (new old : list V) : list V :=
  match mask, old with
  | true :: m, o :: r => match new with n :: new => n :: put m new r | [] => o :: put m [] r end
  | false :: m, o :: r => o :: put m new r
  | _, _ => []
  end.
Definition masked (mask : list bool) (opt : optimizer) : optimizer :=
  {| o_state := o_state opt;
     o_init := fun ps => o_init opt (mask_select mask ps);
     o_update := fun gs s ps => let (u, s') := o_update opt (mask_select mask gs) s (mask_select mask ps) in (put mask u gs, s') |}.
Definition chain2 (a b : optimizer) : optimizer :=
  {| o_state := o_state a * o_state b;
     o_init := fun ps => (o_init a ps, o_init b ps);
     o_update := fun gs s ps => let (u, sa) := o_update a gs (fst s) ps in let (u', sb) := o_update b u (snd s) ps in (u', (sa, sb)) |}.
(** freeze.py:74-81 *)
Definition freeze_optimizer (params : tree V) (opt : optimizer) (freeze_fun : option (path -> V -> string)) : result optimizer :=
  match freeze_fun with
  | None => Ok opt
  | Some f =>
      let labels := map (fun pv => f (fst pv) (snd pv)) (leaves params) in
      bind (all_values_in_labels labels ["trainable"; "frozen"]%string) (fun _ =>
      Ok (chain2 (masked (map (String.eqb "trainable") labels) opt) (masked (map (String.eqb "frozen") labels) set_to_zero)))
  end.
(** a step of training: optax.apply_updates after update; [g] gives the gradients *)
Definition step (opt : optimizer) (s : list V * o_state opt) (g : list V -> list V) : list V * o_state opt :=
  let (u, s') := o_update opt (g (fst s)) (snd s) (fst s) in (map (fun pu => add (fst pu) (snd pu)) (combine (fst s) u), s').
Definition run (opt : optimizer) (ps : list V) (gs : list (list V -> list V)) : list V * o_state opt := fold_left (step opt) gs (ps, o_init opt ps).
End Frz.
Arguments optimizer V : clear implicits.
