(** Toy runs of samplers for the examples of ChainProps.v: the network of DescCases.v, an ascent without
    noise as the integrator. *)
From Coq Require Import List Arith ZArith QArith Bool String.
From Verif Require Import Lib QuantModel TrainModel McmcModel DescModel DescCases SwagCases ChainModel.
Import ListNotations.
Open Scope list_scope.

Definition n_opt (g : Q) (o : nat) (p : Q) : Q * nat := (Qred (p + g / 10)%Q, S o).
Definition n_setting := chain_setting Q nat Q Q Q nat Q Q t_net (fun p => (- p * p)%Q) (@None (bool -> option nat -> Q -> Q * nat)) None t_log_prob 2 2 None true.
Definition n_cfg (n : nat) (p : option Z) : config :=
  {| accumulation := 0; n_epochs := n; eval_every := 1; save_dir := false; save_every := None;
     stop_config := {| patience := p; mode := Some "min"%string; min_delta := 0 |} |}.
Definition n_sghmc n thin burnin cfg bs vs s :=
  sghmc_fit Q nat Q Q Q nat Q nat Q Q (fun o => o) (fun j => j) t_diff w_add w_div (fun _ => 0%Q) t_clip n_opt n thin burnin n_setting (fun r => hd_error r) cfg bs vs s.
Definition n_cyclical n thin L ratio cfg bs vs s :=
  cyclical_fit Q nat Q Q Q nat Q nat Q Q (fun o => o) (fun j => j) t_diff w_add w_div (fun _ => 0%Q) t_clip n_opt n thin L ratio n_setting (fun r => hd_error r) cfg bs vs s.
Definition n_view (r : result (tstate Q nat Q (option nat) * list (nat * tstate Q nat Q (option nat)) * list (list Q) * list (list Q)))
    : result (Q * list (nat * Q * nat) * list (list Q) * list (list Q)) :=
  match r with
  | Ok (s, kept, ms, mvs) => Ok (Qred (params _ _ _ _ s), map (fun it => (fst it, Qred (params _ _ _ _ (snd it)), step _ _ _ _ (snd it))) kept, map (map Qred) ms, map (map Qred) mvs)
  | Err e => Err e
  end.
