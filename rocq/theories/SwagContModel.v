(** Model of fits of SWAG that continue earlier ones: fortuna/prob_model/posterior/swag/swag_posterior.py:95-178
    with [start_from_current_state] or [restore_checkpoint_path], swag_state.py:42-66.

    A fit is that of SwagModel.v, with the same parameters.  Where states are stored and found is in
    FitModel.v and RepoModel.v; a stored state is here the trained state with the statistics of the fit
    (none for a state of MAP).  Not modelled: see SwagModel.v. *)
From Coq Require Import List Arith ZArith QArith Bool String.
From Verif Require Import Lib TrainModel McmcModel DescModel SwagModel.
Import ListNotations.
Open Scope list_scope.
Local Notation "a >>= f" := (bind a f) (at level 61, left associativity).

Section SwagCont.
Variables P M X T O K G OS Pr U : Type.
Variable predict : O -> Pr.
Variable diff : (P -> Q) -> P -> G.
Variable gadd : G -> G -> G.
Variable gdiv : G -> nat -> G.
Variable zeros_like : G -> G.
Variable clip_by : Q -> G -> G.
Variable ravel : P -> list Q.

(** what a call of fit is given: the rank of the approximator, the random key of the run (as the function
    from step numbers to keys), the optimizer, the configuration and the loaders *)
Record swag_args := {
  sa_rank : nat;
  sa_keys : nat -> K;
  sa_opt : G -> OS -> P -> P * OS;
  sa_init : P -> OS;
  sa_hyper : hyper;
  sa_setting : setting P M X T O K Pr U;
  sa_monitor : list Q -> option Q;
  sa_cfg : config;
  sa_batches : list (X * list T);
  sa_val : option (list (X * list T)) }.

(** PosteriorState with the attributes mean, std and dev of SWAGState as statistics *)
Record stored := { st_train : tstate P OS G (option M); st_stats : list (option swag) }.

(** swag_posterior.py:95-98, 118-121, 140-178: the restored state is converted as one of MAP is *)
Definition continue_swag (a : swag_args) (st : stored) : result stored :=
  swag_fit P M X T O K G OS Pr U predict (sa_keys a) diff gadd gdiv zeros_like clip_by (sa_opt a) ravel (sa_rank a) (sa_hyper a) (sa_setting a) (sa_monitor a) (sa_cfg a)
    (sa_batches a) (sa_val a) (to_swag P M G OS (sa_init a) (st_train st)) >>= fun '(s, w, _, _) =>
  Ok {| st_train := s; st_stats := w |}.
(** any number of fits, each from the state of the one before *)
Fixpoint swag_fits (l : list swag_args) (st : stored) : result stored :=
  match l with [] => Ok st | a :: r => continue_swag a st >>= swag_fits r end.
End SwagCont.
Arguments sa_rank {P M X T O K G OS Pr U} _.
Arguments sa_keys {P M X T O K G OS Pr U} _ _.
Arguments sa_opt {P M X T O K G OS Pr U} _ _ _ _.
Arguments sa_init {P M X T O K G OS Pr U} _ _.
Arguments sa_hyper {P M X T O K G OS Pr U} _.
Arguments sa_setting {P M X T O K G OS Pr U} _.
Arguments sa_monitor {P M X T O K G OS Pr U} _ _.
Arguments sa_cfg {P M X T O K G OS Pr U} _.
Arguments sa_batches {P M X T O K G OS Pr U} _.
Arguments sa_val {P M X T O K G OS Pr U} _.
Arguments st_train {P M G OS} _.
Arguments st_stats {P M G OS} _.
