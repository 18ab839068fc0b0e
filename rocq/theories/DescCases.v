(** Toy network, loss and optimizer for the examples of DescProps.v: one parameter p, outputs p*x,
    squared error, plain gradient descent with rate 1/10. *)
From Coq Require Import List Arith ZArith QArith Bool String.
From Verif Require Import Lib QuantModel TrainModel DescModel.
Import ListNotations.
Open Scope list_scope.

Definition t_net (p : Q) (_ : option nat) (train : bool) (m : option nat) (x : Q) : Q * nat :=
  ((p * x)%Q, match m with Some n => if train then S n else n | None => 0%nat end).
Definition t_log_prob (o : Q) (ys : list Q) : list Q := map (fun y => Qred (- (y - o) * (y - o))%Q) ys.
Definition t_loss (o : Q) (ys : list Q) : Q := Qred (fold_right (fun y a => (y - o) * (y - o) + a) 0 ys)%Q.
(** central differences: exact for quadratic functions *)
Definition t_diff (f : Q -> Q) (p : Q) : Q := Qred ((f (p + 1) - f (p - 1)) / 2)%Q.
Definition t_opt (g : Q) (o : nat) (p : Q) : Q * nat := (Qred (p - g / 10)%Q, S o).
Definition t_clip (n g : Q) : Q := if Qle_bool g n then if Qle_bool (- n) g then g else (- n)%Q else n.
Definition t_fit (r : run) (h : hyper) c cfg bs vs s :=
  fit Q nat Q Q Q nat Q nat Q Q (fun o => o) (fun j => j) t_diff (fun g a => (g + a)%Q) (fun g k => (g / inject_Z (Z.of_nat k))%Q) (fun _ => 0%Q)
    t_clip t_opt r h c (fun _ => None) cfg bs vs s.
Definition t_cfg (n : nat) : config :=
  {| accumulation := 0; n_epochs := n; eval_every := 1; save_dir := false; save_every := None;
     stop_config := {| patience := None; mode := None; min_delta := 0 |} |}.
Definition t_state (m : option nat) : tstate Q nat Q (option nat) :=
  {| params := 0%Q; opt_state := 0%nat; step := 0; mutable := m; acc := None |}.
Definition t_map := map_setting Q nat Q Q Q nat Q Q t_net (fun p => (- p * p)%Q) (@None (bool -> option nat -> Q -> Q * nat)) None t_log_prob 2 2
  (Some [fun p _ ys => (p - nth 0 ys 0)%Q]) true.
Definition t_cal := calib_setting Q nat Q Q Q nat Q Q t_net t_loss 2 2 (Some [fun p u ys => match u with Some v => (p + v)%Q | None => p end]) true None (fun o => (2 * o)%Q).
Definition t_final (r : result (tstate Q nat Q (option nat) * list (list Q) * list (list Q))) : result (Q * option nat * nat) :=
  match r with Ok (s, _, _) => Ok (Qred (params _ _ _ _ s), mutable _ _ _ _ s, step _ _ _ _ s) | Err e => Err e end.
Definition t_reports (r : result (tstate Q nat Q (option nat) * list (list Q) * list (list Q))) : list (list Q) * list (list Q) :=
  match r with Ok (_, a, b) => (map (map Qred) a, map (map Qred) b) | Err _ => ([], []) end.
Definition no_h : hyper := {| h_norm := None; h_accumulation := None |}.
Definition clip_h : hyper := {| h_norm := Some 1%Q; h_accumulation := None |}.
