(** Toy fits of SWAG for the examples of SwagProps.v: the network of DescCases.v, one or two batches. *)
From Coq Require Import List Arith ZArith QArith Bool String.
From Verif Require Import Lib QuantModel TrainModel McmcModel DescModel DescCases SwagModel.
Import ListNotations.
Open Scope list_scope.

Definition w_add (g a : Q) : Q := (g + a)%Q.
Definition w_div (g : Q) (k : nat) : Q := (g / inject_Z (Z.of_nat k))%Q.
Definition w_fit rank h cfg bs vs s :=
  swag_fit Q nat Q Q Q nat Q nat Q Q (fun o => o) (fun j => j) t_diff w_add w_div (fun _ => 0%Q) t_clip t_opt (fun p => [p]) rank h t_map (fun _ => None) cfg bs vs s.
Definition w_after rank h1 cfg1 cfg2 bs s :=
  swag_after_map Q nat Q Q Q nat Q nat nat Q Q (fun o => o) t_diff w_add w_div (fun _ => 0%Q) t_clip (fun p => [p]) rank (fun j => j) (fun j => j) t_opt t_opt (fun _ => 0%nat)
    h1 no_h t_map t_map (fun _ => None) (fun _ => None) cfg1 cfg2 bs None s.
Definition w_view (r : result (tstate Q nat Q (option nat) * list (option swag) * list (list Q) * list (list Q))) : result (Q * nat * list (option (Q * Q * list Q))) :=
  match r with
  | Ok (s, st, _, _) => Ok (Qred (params _ _ _ _ s), step _ _ _ _ s, map (option_map (fun w => (Qred (sw_mean w), Qred (swag_var w), map Qred (sw_dev w)))) st)
  | Err e => Err e
  end.
Definition w_batch : list (Q * list Q) := [(1%Q, [1%Q; 2%Q])].
Definition w_batches : list (Q * list Q) := [(1%Q, [1%Q; 2%Q]); (0%Q, [1%Q])].
