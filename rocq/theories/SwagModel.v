(** Model of a whole fit of a SWAG posterior: fortuna/prob_model/posterior/swag/swag_posterior.py:65-178
    and swag_trainer.py:31-130, after a preliminary fit of MAP
    (fortuna/prob_model/posterior/run_preliminary_map.py).  Training steps are those of DescModel.v, the
    loops those of TrainModel.v, the statistics of one coordinate those of McmcModel.v.

    [ravel] lists the coordinates of the trainable parameters (FlatModel.v).  Not modelled here: frozen
    parameters and several devices (FlatModel.v), callbacks, where states come from and go (FitModel.v). *)
From Coq Require Import List Arith ZArith QArith Bool String.
From Verif Require Import Lib QuantModel ConfRegModel PredModel LikModel CalibModel TrainModel McmcModel DescModel.
Import ListNotations.
Open Scope list_scope.
Local Notation length := List.length.
Local Notation "a >>= f" := (bind a f) (at level 61, left associativity).

Section Swag.
Variables P M X T O K G OS Pr U : Type.
Variable predict : O -> Pr.
Variable fold_in : nat -> K.
Variable diff : (P -> Q) -> P -> G.
Variable gadd : G -> G -> G.
Variable gdiv : G -> nat -> G.
Variable zeros_like : G -> G.
Variable clip_by : Q -> G -> G.
Variable opt : G -> OS -> P -> P * OS.
Variable ravel : P -> list Q.

Notation tst := (tstate P OS G (option M)).

(** the state of training, the argument current_epoch of the loop (trainer.py:384-420, 509-518), and the
    attributes of the trainer, coordinate by coordinate ([None] before the first step) *)
Record sw_state := { w_state : result tst; w_epoch : nat; w_stats : list (option swag) }.
(** swag_trainer.py:32-36 *)
Definition sw_init (s : tst) : sw_state :=
  {| w_state := Ok s; w_epoch := 0; w_stats := map (fun _ => None) (ravel (params _ _ _ _ s)) |}.
(** training_step (trainer.py:111-191), then swag_trainer.py:65-102 on the updated state *)
Definition sw_step (rank : nat) (c : setting P M X T O K Pr U) (k : nat) (norm : Q) (s : sw_state) (b : X * list T) (key : nat) : sw_state * list Q :=
  let '(s1, m) := fit_step P M X T O K G OS Pr U predict fold_in diff gadd gdiv zeros_like clip_by opt c k norm (w_state s) b key in
  ({| w_state := s1; w_epoch := w_epoch s;
      w_stats := match s1 with
                 | Ok t => zip_with (fun st p => swag_step rank st (w_epoch s) p) (w_stats s) (ravel (params _ _ _ _ t))
                 | Err _ => w_stats s
                 end |}, m).
Definition sw_next_epoch (s : sw_state) : sw_state := {| w_state := w_state s; w_epoch := S (w_epoch s); w_stats := w_stats s |}.
Definition sw_step_no (s : sw_state) : nat := match w_state s with Ok s => step _ _ _ _ s | Err _ => 0%nat end.

(** training/mixin.py:94-128: early stopping as the trainer sets it up by default; swag_posterior.py:140-150
    passes none of its arguments *)
Definition no_stopping : es_config := {| patience := Some 0%Z; mode := Some "min"%string; min_delta := 0 |}.

(** swag_posterior.py:75-83, 140-169 and swag_trainer.py:118-130: the trained state and the statistics *)
Definition swag_fit (rank : nat) (h : hyper) (c : setting P M X T O K Pr U) (monitor : list Q -> option Q) (cfg : config) (bs : list (X * list T))
    (vs : option (list (X * list T))) (s : tst) : result (tst * list (option swag) * list (list Q) * list (list Q)) :=
  swag_checks rank (n_epochs cfg) >>= fun _ =>
  let '(k, norm) := run_kwargs FitSWAG h in
  let cfg' := {| accumulation := k; n_epochs := n_epochs cfg; eval_every := eval_every cfg; save_dir := save_dir cfg;
                 save_every := save_every cfg; stop_config := no_stopping |} in
  train sw_state (X * list T) (X * list T) sw_step_no (sw_step rank c k norm)
    (fun s => fit_validation P M X T O K G OS Pr U predict c (w_state s))
    (fun s => s) (fun s => s) sw_next_epoch monitor cfg' bs vs {| es := stopping0; gstep := 0; saved := [] |} (sw_init s) >>= fun '(_, s', ms, mvs) =>
  w_state s' >>= fun s'' => Ok (s'', w_stats s', ms, mvs).

(** swag_state.py:42-66: parameters and mutable variables are kept, the optimizer starts again *)
Definition to_swag {OS1} (opt_init : P -> OS) (s : tstate P OS1 G (option M)) : tst :=
  {| params := params _ _ _ _ s; opt_state := opt_init (params _ _ _ _ s); step := 0; mutable := mutable _ _ _ _ s; acc := None |}.
End Swag.

(** swag_posterior.py:95-169 when the fit starts with a preliminary fit of MAP: optimizers, keys,
    configurations and metrics of the two runs are their own *)
Section Whole.
Variables P M X T O K G OS1 OS Pr U : Type.
Variable predict : O -> Pr.
Variable diff : (P -> Q) -> P -> G.
Variable gadd : G -> G -> G.
Variable gdiv : G -> nat -> G.
Variable zeros_like : G -> G.
Variable clip_by : Q -> G -> G.
Variable ravel : P -> list Q.
Definition swag_after_map (rank : nat) (fold_in1 fold_in2 : nat -> K) (opt1 : G -> OS1 -> P -> P * OS1) (opt2 : G -> OS -> P -> P * OS) (opt_init : P -> OS)
    (h1 h2 : hyper) (c1 c2 : setting P M X T O K Pr U) (monitor1 monitor2 : list Q -> option Q) (cfg1 cfg2 : config) (bs : list (X * list T)) (vs : option (list (X * list T)))
    (s : tstate P OS1 G (option M)) : result (tstate P OS G (option M) * list (option swag) * list (list Q) * list (list Q)) :=
  swag_checks rank (n_epochs cfg2) >>= fun _ =>
  fit P M X T O K G OS1 Pr U predict fold_in1 diff gadd gdiv zeros_like clip_by opt1 FitMAP h1 c1 monitor1 cfg1 bs vs s >>= fun '(s1, _, _) =>
  swag_fit P M X T O K G OS Pr U predict fold_in2 diff gadd gdiv zeros_like clip_by opt2 ravel rank h2 c2 monitor2 cfg2 bs vs (to_swag P M G OS opt_init s1).
End Whole.
