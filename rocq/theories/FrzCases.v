(** An optimizer that looks at all gradients it is given. *)
From Coq Require Import List ZArith String.
From Verif Require Import Lib NestedModel FreezeModel FrzModel.
Import ListNotations.
Open Scope Z_scope.

(** minus the gradients; minus ten each if their sum is above ten; counts its steps *)
Definition clipping : optimizer Z :=
  {| o_state := nat; o_init := fun _ => 0%nat; o_update := fun gs s _ => (if 10 <? fold_right Z.add 0 gs then map (fun _ => -10) gs else map Z.opp gs, S s) |}.
Definition two_layers : tree Z := Dict [("a"%string, Dict [("w"%string, Leaf 3)]); ("b"%string, Dict [("w"%string, Leaf 7)])].
Definition freeze_b (p : path) (_ : Z) : string := match p with "b"%string :: _ => "frozen"%string | _ => "trainable"%string end.
Definition misspelt (p : path) (_ : Z) : string := match p with "b"%string :: _ => "freeze"%string | _ => "trainable"%string end.
