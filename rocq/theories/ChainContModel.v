(** Model of fits of stochastic gradient samplers that continue earlier ones:
    fortuna/prob_model/posterior/sgmcmc/sgmcmc_posterior.py:82-109, sghmc/sghmc_posterior.py:94-187,
    cyclical_sgld/cyclical_sgld_posterior.py:98-192, sghmc/sghmc_state.py:34-66.

    A fit is that of ChainModel.v, with the same parameters.  Files and repositories are in FitModel.v; a
    stored posterior is here the state in the checkpoint of the chain and the kept samples with their
    indices.  Not modelled: frozen parameters, repositories that keep the samples in files, and see ChainModel.v. *)
From Coq Require Import List Arith ZArith QArith Bool String.
From Verif Require Import Lib TrainModel McmcModel DescModel ChainModel.
Import ListNotations.
Open Scope list_scope.
Local Notation "a >>= f" := (bind a f) (at level 61, left associativity).

(** the approximator of the posterior *)
Inductive sampler := Sghmc (n thinning burnin : nat) | Cyclical (n thinning cycle_length : nat) (ratio : Q).
Definition n_kept (s : sampler) : nat := match s with Sghmc n _ _ => n | Cyclical n _ _ _ => n end.

Section ChainCont.
Variables P M X T O K G OS Pr U : Type.
Variable predict : O -> Pr.
Variable diff : (P -> Q) -> P -> G.
Variable gadd : G -> G -> G.
Variable gdiv : G -> nat -> G.
Variable zeros_like : G -> G.
Variable clip_by : Q -> G -> G.
Notation tst := (tstate P OS G (option M)).

(** what a call of fit is given: the random key of the run (as the function from step numbers to keys), the
    integrator, the configuration and the loaders; [ca_file]: restore_checkpoint_path is given, otherwise
    start_from_current_state *)
Record chain_args := {
  ca_keys : nat -> K;
  ca_opt : G -> OS -> P -> P * OS;
  ca_init : P -> OS;
  ca_setting : setting P M X T O K Pr U;
  ca_monitor : list Q -> option Q;
  ca_cfg : config;
  ca_batches : list (X * list T);
  ca_val : option (list (X * list T));
  ca_file : bool }.

(** the checkpoint "c", written when training ends (fortuna/training/trainer.py:643-649), and the repository of samples *)
Record kept_chain := { kc_end : tst; kc_samples : list (nat * tst) }.

(** sgmcmc_posterior.py:87-100; posterior_multi_state_repository.py:39-48 and
    train_state_repository.py:31-32: without samples the list of repositories is empty, and a repository
    without state raises ValueError *)
Definition chain_from (n : nat) (file : bool) (k : kept_chain) : result tst :=
  if file then Ok (kc_end k)
  else match n with
       | 0%nat => Err IndexError
       | S j => match find (fun it => (fst it =? j)%nat) (kc_samples k) with Some it => Ok (snd it) | None => Err ValueError end
       end.
(** sghmc_state.py:58-66, cyclical_sgld_state.py:58-66: a new state *)
Definition to_chain (init : P -> OS) (s : tst) : tst :=
  {| params := params _ _ _ _ s; opt_state := init (params _ _ _ _ s); step := 0; mutable := mutable _ _ _ _ s; acc := None |}.
Definition run_sampler (sm : sampler) (a : chain_args) (s : tst) : result kept_chain :=
  match sm with
  | Sghmc n thin burnin => sghmc_fit P M X T O K G OS Pr U predict (ca_keys a) diff gadd gdiv zeros_like clip_by (ca_opt a) n thin burnin (ca_setting a) (ca_monitor a) (ca_cfg a) (ca_batches a) (ca_val a) s
  | Cyclical n thin L ratio => cyclical_fit P M X T O K G OS Pr U predict (ca_keys a) diff gadd gdiv zeros_like clip_by (ca_opt a) n thin L ratio (ca_setting a) (ca_monitor a) (ca_cfg a) (ca_batches a) (ca_val a) s
  end >>= fun '(s', kept, _, _) => Ok {| kc_end := s'; kc_samples := kept |}.
Definition continue_chain (sm : sampler) (a : chain_args) (k : kept_chain) : result kept_chain :=
  chain_from (n_kept sm) (ca_file a) k >>= fun s => run_sampler sm a (to_chain (ca_init a) s).
(** any number of fits of one posterior, each from what the one before has stored *)
Fixpoint chain_fits (sm : sampler) (l : list chain_args) (k : kept_chain) : result kept_chain :=
  match l with [] => Ok k | a :: r => continue_chain sm a k >>= chain_fits sm r end.
End ChainCont.
Arguments ca_keys {P M X T O K G OS Pr U} _ _.
Arguments ca_opt {P M X T O K G OS Pr U} _ _ _ _.
Arguments ca_init {P M X T O K G OS Pr U} _ _.
Arguments ca_setting {P M X T O K G OS Pr U} _.
Arguments ca_monitor {P M X T O K G OS Pr U} _ _.
Arguments ca_cfg {P M X T O K G OS Pr U} _.
Arguments ca_batches {P M X T O K G OS Pr U} _.
Arguments ca_val {P M X T O K G OS Pr U} _.
Arguments ca_file {P M X T O K G OS Pr U} _.
Arguments kc_end {P M G OS} _.
Arguments kc_samples {P M G OS} _.
