(** Toy fits of SWAG one after the other, with the network of DescCases.v. *)
From Coq Require Import List Arith ZArith QArith Bool String.
From Verif Require Import Lib QuantModel TrainModel McmcModel DescModel DescCases SwagModel SwagCases SwagContModel.
Import ListNotations.
Local Open Scope list_scope.

(** plain descent, whose state is never changed *)
Definition v_opt (g : Q) (o : nat) (p : Q) : Q * nat := (fst (t_opt g o p), o).
Definition v_args (opt : Q -> nat -> Q -> Q * nat) (rank n : nat) (bs : list (Q * list Q)) : swag_args Q nat Q Q Q nat Q nat Q Q :=
  {| sa_rank := rank; sa_keys := fun j => j; sa_opt := opt; sa_init := fun _ => 0%nat; sa_hyper := no_h; sa_setting := t_map; sa_monitor := fun _ => None;
     sa_cfg := t_cfg n; sa_batches := bs; sa_val := None |}.
Definition v_start (m : option nat) : stored Q nat Q nat := {| st_train := t_state m; st_stats := [] |}.
Definition v_fits := swag_fits Q nat Q Q Q nat Q nat Q Q (fun o => o) t_diff w_add w_div (fun _ => 0%Q) t_clip (fun p => [p]).
Definition v_view (r : result (stored Q nat Q nat)) : result (Q * nat * nat * option nat * list (option (Q * Q * list Q))) :=
  match r with
  | Ok st => let s := st_train st in Ok (Qred (params _ _ _ _ s), opt_state _ _ _ _ s, step _ _ _ _ s, mutable _ _ _ _ s,
      map (option_map (fun w => (Qred (sw_mean w), Qred (swag_var w), map Qred (sw_dev w)))) (st_stats st))
  | Err e => Err e
  end.
