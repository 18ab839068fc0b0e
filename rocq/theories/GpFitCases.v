(** Toy SNGP posterior for the examples of GpFitProps.v: one parameter p, the only feature of input x is p * x
    in training and in evaluation, every update adds one to the parameter. *)
From Coq Require Import List Arith ZArith QArith Bool String Reals.
From Verif Require Import Lib QuantModel TrainModel DescModel SngpModel GpFitModel.
Import ListNotations.
Open Scope list_scope.

Definition g_extract (p : R) (_ : option nat) (train : bool) (e : nat) (x : R) : list vec * nat := ([fun _ => (p * x)%R], if train then S e else e).
Definition g_dense (p : R) (f : vec) : list R := [f 0%nat; 0%R].
Definition g_chol (A : mat) : mat := fun i j => sqrt (A i j).
Definition g_opt (_ : unit) (o : nat) (p : R) : R * nat := ((p + 1)%R, S o).
Definition g_setting momentum : setting R (nat * mat) R R (list (list R)) nat unit unit :=
  map_setting R (nat * mat) R R (list (list R)) nat unit unit (gp_net R nat R nat g_extract g_dense g_chol 1 1 momentum 1 0%nat) (fun _ => 0%Q)
    (@None (bool -> option nat -> list (list R) -> list (list R) * nat)) None (fun _ _ => [0%Q]) 2 2 None false.
Definition g_cfg (n : nat) : config :=
  {| accumulation := 0; n_epochs := n; eval_every := 1; save_dir := false; save_every := None;
     stop_config := {| patience := None; mode := None; min_delta := 0 |} |}.
Definition g_state (m : option (nat * mat)) : tstate R nat unit (option (nat * mat)) :=
  {| params := 0%R; opt_state := 0%nat; step := 0; mutable := m; acc := None |}.
Definition g_fit momentum callbacks cfg bs vs s :=
  sngp_fit R nat R R nat unit nat unit unit 1 momentum (fun _ => tt) (fun j => j) (fun _ _ => tt) (fun _ _ => tt) (fun _ _ => tt) (fun _ => tt) (fun _ _ => tt) g_opt callbacks
    {| h_norm := None; h_accumulation := None |} (g_setting momentum) (fun _ => None) cfg bs vs s.
Definition g_batches : list (R * list R) := [(1%R, [0%R]); (2%R, [1%R])].
