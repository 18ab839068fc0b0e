(** Toy calibrators for the examples of CalRunProps.v: outputs times the parameter (twice that in
    evaluation mode), squared error, plain gradient descent with rate 1/10. *)
From Coq Require Import List Arith ZArith QArith Bool String.
From Verif Require Import Lib QuantModel TrainModel CalibModel DescCases CalRunModel.
Import ListNotations.
Open Scope list_scope.

Definition k_f (p : Q) (train : bool) (m : option nat) (o : Q) : Q * nat := ((if train then p * o else 2 * p * o)%Q, match m with Some n => S n | None => 0%nat end).
Definition k_loss (o y : Q) : Q := Qred ((y - o) * (y - o))%Q.
Definition k_cfg (n : nat) : cconfig :=
  {| c_epochs := n; c_eval_every := 1; c_save_dir := false; c_save_every := None;
     c_stop := {| patience := None; mode := None; min_delta := 0 |} |}.
Definition k_state {Mu} (m : option (option Mu)) : tstate Q nat Q (option (option Mu)) :=
  {| params := 0%Q; opt_state := 0%nat; step := 0; mutable := m; acc := None |}.
Definition k_full n m := cal_run_full Q (option (cmut nat)) Q Q Q Q Q nat Q Q (fun o => o) (fun o => o) (fun t => t) t_diff t_opt
  (oc_setting (Some k_f) k_loss (Some [fun p u y => (p + u - y)%Q]) true) (fun _ => None) (k_cfg n) 3%Q 1%Q (Some (1%Q, 2%Q)) (k_state m).
Definition k_mean (l : list Q) : Q := (qsum l / qlen l)%Q.
Definition k_ens n m := cal_run Q (option (cmut nat)) (Q * list Q) (list Q) Q (list Q) Q nat Q Q (fun o => o) (fun o => o) snd t_diff t_opt
  (pm_setting (Some k_f) t_log_prob k_mean k_mean (fun l => hd 0%nat l) 2 1 (Some [fun p u ys => (p + u - nth 0 ys 0)%Q]) true) (fun _ => None) (k_cfg n)
  [(0%Q, [1%Q]); (0%Q, [2%Q])] [[1%Q; 3%Q]; [2%Q; 2%Q]] None (k_state m).
Definition k_out {Mu} (r : result (tstate Q nat Q (option (option Mu)) * list (list Q) * list (list Q))) : result (Q * nat * list (list Q) * list (list Q)) :=
  match r with Ok (s, a, b) => Ok (Qred (params _ _ _ _ s), step _ _ _ _ s, map (map Qred) a, map (map Qred) b) | Err e => Err e end.
