(** Specification of a checkpoint directory: a bounded stack of states, newest
    first, with decreasing steps. *)
From Coq Require Import List Arith Lia Bool String.
From Verif Require Import Lib NestedModel RepoModel.
Import ListNotations.
Open Scope list_scope.

Section Spec.
Context {V O : Type} (init : O -> tree V -> V).
Notation state := (state V O).

(** a state as a checkpoint gives it back: no accumulated gradient; with an
    optimizer, that optimizer and a fresh optimizer state *)
Definition on_disk (s : state) (o : option O) : state :=
  {| s_step := s_step s; s_params := s_params s;
     s_opt := match o with Some o => init o (s_params s) | None => s_opt s end;
     s_mutable := s_mutable s; s_calib_params := s_calib_params s; s_calib_mutable := s_calib_mutable s;
     s_grad := None; s_tx := o |}.

Definition bounded {A} (keep : nat) (l : list A) : list A := if keep =? 0 then l else firstn keep l.

(** putting a state removes the states with the same or a larger step *)
Definition spec_put (s : state) (keep : nat) (st : list state) : list state :=
  bounded keep (s :: filter (fun t => s_step t <? s_step s) st).

Definition spec_op (x : op (V:=V) (O:=O)) (st : list state) : out (V:=V) (O:=O) * list state :=
  match x with
  | Put s keep => (Done, spec_put s keep st)
  | Get o => match st with [] => (Raised ValueError, []) | s :: _ => (Got (on_disk s o), st) end
  | Pull o => match st with [] => (Raised ValueError, []) | s :: r => (Got (on_disk s o), r) end
  | Update vs o keep =>
      match st with
      | [] => (Raised ValueError, [])
      | s :: r => (Done, spec_put (replace (on_disk s o) vs) keep r)
      end
  end.

Fixpoint spec_run (xs : list op) (st : list state) : list out * list state :=
  match xs with
  | [] => ([], st)
  | x :: xs => let (y, st') := spec_op x st in let (ys, st'') := spec_run xs st' in (y :: ys, st'')
  end.

(** in memory: one cell; pulling does not empty it; getting with an optimizer
    stores it *)
Definition with_optimizer (s : state) (o : option O) : state :=
  match o with
  | None => s
  | Some opt => {| s_step := s_step s; s_params := s_params s; s_opt := init opt (s_params s);
                   s_mutable := s_mutable s; s_calib_params := s_calib_params s;
                   s_calib_mutable := s_calib_mutable s; s_grad := s_grad s; s_tx := Some opt |}
  end.

Definition mem_op (x : op (V:=V) (O:=O)) (st : option state) : out (V:=V) (O:=O) * option state :=
  match x, st with
  | Put s keep, _ => (Done, Some s)
  | _, None => (Raised ValueError, None)
  | Get o, Some s => (Got (with_optimizer s o), Some (with_optimizer s o))
  | Pull o, Some s => (Got (with_optimizer s o), Some (with_optimizer s o))
  | Update vs o keep, Some s => (Done, Some (replace (with_optimizer s o) vs))
  end.

Fixpoint mem_run (xs : list op) (st : option state) : list out * option state :=
  match xs with
  | [] => ([], st)
  | x :: xs => let (y, st') := mem_op x st in let (ys, st'') := mem_run xs st' in (y :: ys, st'')
  end.
End Spec.

(** what concerns member j in a history of a multi-state repository *)
Definition only {A} (j : nat) (xs : list (nat * A)) : list A := map snd (filter (fun p => fst p =? j) xs).
