(** A toy session for the examples of WholeProps.v: a linear model with one parameter, a calibrator
    that multiplies outputs, squared errors and plain gradient descent with rate 1/10. *)
From Coq Require Import List Arith ZArith QArith Bool String.
From Verif Require Import Lib QuantModel TrainModel CalibModel DescModel DescCases CalRunCases DrawModel DrawCases WholeModel.
Import ListNotations.
Open Scope list_scope.

Definition w_log_prob (o y : list Q) : list Q := map (fun p => Qred (- (snd p - fst p) * (snd p - fst p))%Q) (combine o y).
Definition w_choice (k : key) (n : nat) : nat := Nat.modulo (key_number k) n.
(** member j starts from the parameter j, and its calibrator from 1 *)
Definition w_init (j : nat) : member Q nat Q nat :=
  {| mb_params := inject_Z (Z.of_nat j); mb_mutable := Some 0%nat; mb_calib := 1%Q; mb_calib_mutable := None |}.
Definition w_train (has_calibrator : bool) (q : posterior) calib g :=
  session_train (fun p _ x => (p * x)%Q) (fun p _ m xs => (map (fun x => p * x)%Q xs, match m with Some n => S n | None => 0%nat end)) (fun _ _ _ => 0%nat)
    has_calibrator (fun c _ y => (c * y)%Q) (fun c _ ys => (map (fun y => c * y)%Q ys, 0%nat)) (fun _ _ _ => 0%nat)
    (fun o => hd 0%Q o) (fun j i => (10 * j + i)%nat) t_diff (fun g a => (g + a)%Q) (fun g k => (g / inject_Z (Z.of_nat k))%Q) (fun _ => 0%Q) t_clip t_opt (fun _ => 0%nat)
    (fun _ => 0%Q) w_log_prob (Some [fun p (_ : option Q) ys => (p - nth 0 ys 0)%Q]) true no_h (fun _ => None) (t_cfg 2)
    w_choice (fun n => n) (fun o => hd 0%Q o) (fun o => hd 0%Q o) t_diff t_opt (fun _ => 0%nat) k_mean (fun l => hd [] l) (fun l => hd 0%nat l) None true (fun _ => None) (k_cfg 1) 3
    q w_init [([1%Q], [2%Q])] None calib g.
Definition w_members (r : result (list (list (list Q) * list (list Q)) * option (list (list Q) * list (list Q)) * (list (member Q nat Q nat) * key))) : list (Q * option nat * Q) :=
  match r with Ok (_, _, (ms, _)) => map (fun m => (Qred (mb_params m), mb_mutable m, Qred (mb_calib m))) ms | Err _ => [] end.
Definition w_mean has_calibrator (q : posterior) n rng (r : result (list (list (list Q) * list (list Q)) * option (list (list Q) * list (list Q)) * (list (member Q nat Q nat) * key))) loader : result (list Q) :=
  match r with
  | Ok (_, _, st) => rmap (map Qred) (fst (session_mean (fun p _ x => (p * x)%Q) has_calibrator (fun c _ y => (c * y)%Q) w_choice (fun n => n) (fun y => y) q false 1 n rng st loader))
  | Err e => Err e
  end.
