(** Model of a whole fit of an SNGP posterior: fortuna/prob_model/posterior/sngp/sngp_posterior.py:38-58,
    sngp_callback.py and the SNGP model manager (model_manager/classification.py:237-309), inside the
    training loops of TrainModel.v with the loss of DescModel.v; the layers are those of SngpModel.v.

    The mutable variables are the pair of the collections of the feature extractor and the precision matrix:
    that the manager hands the collections to the right parts, and that the callback finds the matrix among them and
    replaces nothing else, is in SngpModel.v (C84, C86).  [extract] is the feature extractor followed by the
    random features, row by row; [dense] the output layer of one row.  A negative mean_field_factor raises
    ValueError at the first evaluation (C86): here the row is then left as it is, and the statements about
    evaluations ask for a factor of at least zero.  Callbacks of the user, frozen parameters and several devices are
    not modelled. *)
From Coq Require Import List Arith ZArith QArith Bool String Reals.
From Verif Require Import Lib QuantModel PredModel LikModel CalibModel TrainModel DescModel SngpModel.
Import ListNotations.
Open Scope list_scope.
Local Notation length := List.length.
Local Notation "a >>= f" := (bind a f) (at level 61, left associativity).

Section Gp.
Variables P E X T K G OS Pr U : Type.
Variable extract : P -> option K -> bool -> E -> X -> list vec * E.
Variable dense : P -> vec -> list R.
Variable chol : mat -> mat.                (* jax.lax.linalg.cholesky *)
Variable n : nat.                          (* gp_hidden_features *)
Variable ridge : R.                        (* ridge_penalty *)
Variable momentum : option R.
Variable factor : R.                       (* mean_field_factor *)

Definition shrink (v : R) (row : list R) : list R :=
  match mean_field_logits factor (Some v) row with Ok r => r | Err _ => row end.
(** classification.py:237-309: logits and new variables in training, scaled logits in evaluation;
    [e0] stands for the missing collections of a state without any, which no fit accepts *)
Definition gp_net (e0 : E) (p : P) (key : option K) (train : bool) (m : option (E * mat)) (x : X) : list (list R) * (E * mat) :=
  let '(e, prec) := match m with Some em => em | None => (e0, initial_precision ridge) end in
  let '(phis, e') := extract p key train e x in
  let rows := map (dense p) phis in
  let '(prec', cov) := covariance_layer chol n ridge momentum false train phis prec in
  match cov with
  | None => (rows, (e', prec'))
  | Some vs => (map (fun vr => shrink (fst vr) (snd vr)) (combine vs rows), (e, prec))
  end.

Notation tst := (tstate P OS G (option (E * mat))).
(** sngp_callback.py:22-42 on the state, once for every reset callback, in order *)
Definition reset_state (r : R) (s : result tst) : result tst :=
  s >>= fun s =>
  match mutable _ _ _ _ s with
  | None => Err ValueError
  | Some (e, _) => Ok {| params := params _ _ _ _ s; opt_state := opt_state _ _ _ _ s; step := step _ _ _ _ s; mutable := Some (e, initial_precision r); acc := acc _ _ _ _ s |}
  end.

Variable predict : list (list R) -> Pr.
Variable fold_in : nat -> K.
Variable diff : (P -> Q) -> P -> G.
Variable gadd : G -> G -> G.
Variable gdiv : G -> nat -> G.
Variable zeros_like : G -> G.
Variable clip_by : Q -> G -> G.
Variable opt : G -> OS -> P -> P * OS.

(** sngp_posterior.py:38-58 and map_posterior.py:52-118.  [callbacks]: the ridge penalties of the reset
    callbacks that earlier fits left in the configuration (see FitModel.v).  The layer checks its momentum
    when it is set up; _check_state and the callback reject a state without variables. *)
Definition sngp_fit (callbacks : option (list R)) (h : hyper) (c : setting P (E * mat) X T (list (list R)) K Pr U) (monitor : list Q -> option Q) (cfg : config)
    (bs : list (X * list T)) (vs : option (list (X * list T))) (s : tst) : result (tst * list (list Q) * list (list Q)) :=
  check_momentum momentum >>= fun _ =>
  match mutable _ _ _ _ s with
  | None => Err ValueError
  | Some _ =>
      let '(k, norm) := run_kwargs FitMAP h in
      let cfg' := {| accumulation := k; n_epochs := n_epochs cfg; eval_every := eval_every cfg; save_dir := save_dir cfg;
                     save_every := save_every cfg; stop_config := stop_config cfg |} in
      train (result tst) (X * list T) (X * list T) (fun s => match s with Ok s => step _ _ _ _ s | Err _ => 0%nat end)
        (fit_step P (E * mat) X T (list (list R)) K G OS Pr U predict fold_in diff gadd gdiv zeros_like clip_by opt c k norm)
        (fit_validation P (E * mat) X T (list (list R)) K G OS Pr U predict c)
        (fun s => fold_left (fun s r => reset_state r s) (add_callback callbacks ridge) s) (fun s => s) (fun s => s) monitor cfg' bs vs
        {| es := stopping0; gstep := 0; saved := [] |} (Ok s) >>= fun '(_, s', ms, mvs) =>
      s' >>= fun s'' => Ok (s'', ms, mvs)
  end.
(** the outputs of the fitted posterior: likelihood/base.py with the state of MAP, evaluation mode *)
Definition sngp_outputs (e0 : E) (s : tst) (x : X) : list (list R) := fst (gp_net e0 (params _ _ _ _ s) None false (mutable _ _ _ _ s) x).
End Gp.
