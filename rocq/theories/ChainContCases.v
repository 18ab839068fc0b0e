(** Toy fits of samplers one after the other, with the network of DescCases.v and the ascent of ChainCases.v. *)
From Coq Require Import List Arith ZArith QArith Bool String.
From Verif Require Import Lib QuantModel TrainModel McmcModel DescModel DescCases SwagCases ChainModel ChainCases ChainContModel.
Import ListNotations.
Local Open Scope list_scope.

Definition h_args (epochs : nat) (stop : option Z) (vs : option (list (Q * list Q))) (file : bool) : chain_args Q nat Q Q Q nat Q nat Q Q :=
  {| ca_keys := fun j => j; ca_opt := n_opt; ca_init := fun _ => 0%nat; ca_setting := n_setting; ca_monitor := fun r => hd_error r; ca_cfg := n_cfg epochs stop;
     ca_batches := w_batches; ca_val := vs; ca_file := file |}.
(** a posterior with two samples and the end of a chain *)
Definition h_state (p : Q) : tstate Q nat Q (option nat) := {| params := p; opt_state := 7%nat; step := 5; mutable := Some 0%nat; acc := None |}.
Definition h_start : kept_chain Q nat Q nat := {| kc_end := h_state 0; kc_samples := [(0%nat, h_state 2); (1%nat, h_state 1)] |}.
Definition h_fits := chain_fits Q nat Q Q Q nat Q nat Q Q (fun o => o) t_diff w_add w_div (fun _ => 0%Q) t_clip.
Definition h_view (r : result (kept_chain Q nat Q nat)) : result (Q * nat * nat * list (nat * Q * nat)) :=
  match r with
  | Ok k => let s := kc_end k in Ok (Qred (params _ _ _ _ s), opt_state _ _ _ _ s, step _ _ _ _ s,
      map (fun it => (fst it, Qred (params _ _ _ _ (snd it)), step _ _ _ _ (snd it))) (kc_samples k))
  | Err e => Err e
  end.
