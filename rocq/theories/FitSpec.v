(** What a program asked for when it created its configuration objects, and which fits assign
    to them. *)
From Coq Require Import List Arith Lia Bool String.
From Verif Require Import Lib NestedModel RepoModel FitModel.
Import ListNotations.
Open Scope list_scope.
Local Notation length := List.length.

(** the optimizers the program created, the default one first *)
Definition asked_methods (es : list event) : list method :=
  Given 0 :: flat_map (fun e => match e with NewOptimizer n => [Given n] | _ => [] end) es.
(** the configurations: [n] default ones, then those the program created *)
Definition asked_configs (n : nat) (es : list event) : list (nat * list callback) :=
  repeat (0, []) n ++
  flat_map (fun e => match e with
                     | NewConfig o cbs => [(match o with Some o => o | None => 0 end, match cbs with Some l => l | None => [] end)]
                     | _ => [] end) es.
(** a program only mentions objects that exist *)
Definition refers (n : nat) (before : list event) (e : event) : Prop :=
  match e with
  | NewOptimizer _ => True
  | NewConfig None _ => True
  | NewConfig (Some o) _ => o < length (asked_methods before)
  | Fit _ c => c < length (asked_configs n before)
  end.
Definition program (n : nat) (es : list event) : Prop :=
  forall before e after, es = before ++ e :: after -> refers n before e.
(** event [t] is an SGMCMC fit whose configuration refers to optimizer object [o] *)
Definition overwrites (n : nat) (es : list event) (t o : nat) : Prop :=
  exists k c cbs, nth_error es t = Some (Fit k c) /\ (k = FitSghmc \/ k = FitCyclical) /\
                  nth_error (asked_configs n es) c = Some (o, cbs).
(** fits that train with the optimizer of their configuration *)
Definition optimizes (k : fit_kind) : Prop := In k [FitMap; FitEnsemble; FitSwag; FitAdvi; FitSngp].
(** the SNGP fits with configuration [c], oldest first *)
Definition sngp_fits (es : list event) (c : nat) : list nat :=
  filter (fun t => match nth_error es t with Some (Fit FitSngp c') => c' =? c | _ => false end) (seq 0 (length es)).

(** the checkpoint files of every directory are listed by ascending step *)
Definition ordered {V} (w : fs V) : Prop :=
  forall d, forall l1 a l2 b l3, dir_files d w = l1 ++ a :: l2 ++ b :: l3 -> fst a < fst b.

(** [s'] continues [s] with optimizer [o]: same step and values, a new optimizer state *)
Definition continues {V O} (init : O -> tree V -> V) (s : state V O) (o : O) (s' : state V O) : Prop :=
  s_step s' = s_step s /\ s_params s' = s_params s /\ s_mutable s' = s_mutable s /\
  s_calib_params s' = s_calib_params s /\ s_calib_mutable s' = s_calib_mutable s /\
  s_opt s' = init o (s_params s) /\ s_tx s' = Some o.

(** a directory with no checkpoint *)
Definition empty_dir {V} (d : string) (w : fs V) : Prop := dir_files d w = [].

(** steps of successive checkpoints *)
Fixpoint increasing (l : list nat) : Prop :=
  match l with [] => True | a :: r => Forall (fun b => a < b) r /\ increasing r end.

(** the samples a chain keeps, oldest first *)
Definition kept {V O} (n : chain (V:=V) (O:=O)) : list (state V O) :=
  flat_map (fun e => match e with Sample s => [s] | Checkpoint _ => [] end) (ch_events n).
