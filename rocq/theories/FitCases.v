(** Toy training runs used by the examples. *)
From Coq Require Import List Arith String.
From Verif Require Import Lib NestedModel RepoModel FitModel FitSpec.
Import ListNotations.
Open Scope list_scope.

Definition opt0 (o : nat) (t : tree nat) : nat := 100 + o.
Definition at_step (step v : nat) : state nat nat := mk_state step (Dict [("w"%string, Leaf v)]) 7 None None None None (Some 5).
(** training advances the step by 10 and replaces the value of the parameter; with [every], a
    checkpoint is written half way *)
Definition toy_train (v : nat) (every : bool) (s : state nat nat) : run (V:=nat) (O:=nat) :=
  mk_run (at_step (s_step s + 10) v) (if every then [mk_save (at_step (s_step s + 5) 0) 3 false] else []).
Definition in_dir (d : string) : checkpointer := mk_checkpointer (Some d) None false 3 true.
Definition in_memory : checkpointer := mk_checkpointer None None false 3 false.
Definition again (d : option string) : checkpointer := mk_checkpointer d None true 3 (match d with Some _ => true | None => false end).
Definition from_dir (d : string) : checkpointer := mk_checkpointer None (Some d) false 3 false.
(** a chain that keeps the given samples *)
Definition toy_chain (vs : list nat) (s : state nat nat) : chain (V:=nat) (O:=nat) :=
  mk_chain (at_step 10 99) (map (fun v => Sample (at_step v v)) vs).

Lemma ordered_nil : ordered (V:=nat) [].
Proof. intros d [|? ?] a l2 b l3 H; discriminate. Qed.
