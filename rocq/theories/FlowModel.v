(** Model of a whole fit of a normalizing flow, in particular of ADVI:
    fortuna/prob_model/posterior/normalizing_flow/normalizing_flow_trainer.py,
    advi/advi_architecture.py, advi/advi_trainer.py, advi/advi_posterior.py:89-198 and 267-338.
    The loops and the step of the trainer are those of TrainModel.v and DescModel.v, storing and
    sampling the parameters those of FlatModel.v.

    [ex] is the exponential function and [normal key n d] the n vectors of d random numbers drawn
    with [key].  Vectors keep their sizes during a fit, so that unravelling them does not raise here.
    Not modelled: frozen parameters (FlatModel.v, LapModel.v), callbacks, several devices, where a fit
    starts (FitModel.v), a number of samples that is not positive. *)
From Coq Require Import List Arith ZArith QArith Bool String.
From Verif Require Import Lib NestedModel FlatModel QuantModel PredModel LikModel CalibModel TrainModel DescModel.
Import ListNotations.
Open Scope list_scope.
Local Notation length := List.length.
Local Notation "a >>= f" := (bind a f) (at level 61, left associativity).

Section Flow.
Variables P M X T O K G OS Pr U : Type.
Variable ex : Q -> Q.
Variable split : K -> K * K.
Variable normal : K -> nat -> nat -> list (list Q).

(** the parameters of the flow: mean and logarithm of the standard deviation *)
Record flow := { fl_mean : list Q; fl_log_std : list Q }.
(** distribution/gaussian.py:45-46 with the distribution of advi_posterior.py:203-206; its mean is zero *)
Definition base_sample (log_std_base : Q) (d : nat) (key : K) (n : nat) : list (list Q) :=
  map (map (fun z => (ex log_std_base * z)%Q)) (normal (snd (split key)) n d).
(** advi_architecture.py:55-58 *)
Definition flow_entry (m s u : Q) : Q := (m + ex s * u)%Q.
Definition flow_forward (f : flow) (us : list (list Q)) : list (list Q) * list Q :=
  (map (FlatModel.forward flow_entry (fl_mean f) (fl_log_std f)) us, repeat (qsum (fl_log_std f)) (length us)).
(** advi_architecture.py:111-116 with a mean; [normals]: the numbers drawn with key_log_std *)
Definition flow_init (std : Q) (normals : nat -> list Q) (mean : list Q) (log_std : option (list Q)) : flow :=
  {| fl_mean := mean; fl_log_std := match log_std with Some l => l | None => map (fun z => (std * z)%Q) (normals (length mean)) end |}.
(** jnp.mean *)
Definition mean_Q (l : list Q) : Q := (qsum l / inject_Z (Z.of_nat (length l)))%Q.
(** jax.vmap: the answers of all samples *)
Definition last_mutable (l : list (answer M O)) : option M := match rev l with a :: _ => an_mutable _ _ a | [] => None end.
Definition all_outputs (l : list (answer M O)) : option (list O) :=
  fold_right (fun a r => match an_outputs _ _ a, r with Some o, Some os => Some (o :: os) | _, _ => None end) (Some []) l.
(** normalizing_flow_trainer.py:108-133 and 205-219.  Training passes the key of the step; the
    validation step of MAP passes none to its loss, that of flows passes the key of the run. *)
Definition flow_loss (log_std_base : Q) (d n_samples : nat) (unravel : list Q -> P) (loss : lossfun P M X T O K) (run_key : K) : lossfun flow M X T (list O) K :=
  fun f b n_data m return_aux train key =>
  let '(rng, key) := split (match key with Some k => k | None => run_key end) in
  let '(v, ldj) := flow_forward f (base_sample log_std_base d key n_samples) in
  mapM (fun rav => loss (unravel rav) b n_data m return_aux train (Some rng)) v >>= fun answers =>
  Ok {| an_loss := (mean_Q (map (an_loss _ _) answers) - mean_Q ldj)%Q; an_outputs := all_outputs answers; an_mutable := last_mutable answers |}.
(** normalizing_flow_trainer.py:183-190, 222-226: metrics of every sample, then their mean *)
Definition flow_metric (f : Pr -> option U -> list T -> Q) : list Pr -> option U -> list T -> Q :=
  fun preds _ ys => mean_Q (map (fun p => f p None ys) preds).
Definition flow_setting {C} log_std_base d n_samples unravel run_key net log_prior (calibrator : option (bool -> option C -> O -> O * C)) calib_mutable log_prob
    n_train n_val (metrics : option (list (Pr -> option U -> list T -> Q))) training_metrics : setting flow M X T (list O) K (list Pr) U :=
  {| s_loss := flow_loss log_std_base d n_samples unravel (map_loss P M X T O K net log_prior calibrator calib_mutable log_prob) run_key;
     s_n_train := n_train; s_n_val := n_val; s_metrics := option_map (map flow_metric) metrics;
     s_training_metrics := training_metrics; s_uncertainty := None; s_val_uncertainty := None |}.

Variable predict : O -> Pr.
Variable fold_in : nat -> K.
Variable diff : (flow -> Q) -> flow -> G.
Variable gadd : G -> G -> G.
Variable gdiv : G -> nat -> G.
Variable zeros_like : G -> G.
Variable clip_by : Q -> G -> G.
Variable opt : G -> OS -> flow -> flow * OS.
(** advi_posterior.py:171-189: maximal norm and accumulation are passed on as in a fit of MAP *)
Definition advi_run (h : hyper) c monitor cfg bs vs s :=
  fit flow M X T (list O) K G OS (list Pr) U (map predict) fold_in diff gadd gdiv zeros_like clip_by opt FitMAP h c monitor cfg bs vs s.
End Flow.

(** a whole fit without frozen parameters: advi_posterior.py:118-198, 390-422.  [init]: the components of the
    initial parameters. *)
Section Advi.
Variables M X T O K G OS Pr U : Type.
Variable ex : Q -> Q.
Variable split : K -> K * K.
Variable normal : K -> nat -> nat -> list (list Q).
Variable predict : O -> Pr.
Variable fold_in : nat -> K.
Variable diff : (flow -> Q) -> flow -> G.
Variable gadd : G -> G -> G.
Variable gdiv : G -> nat -> G.
Variable zeros_like : G -> G.
Variable clip_by : Q -> G -> G.
Variable opt : G -> OS -> flow -> flow * OS.
Variable opt_init : flow -> OS.
Notation ptree := (tree (list Q)).
(** the function unravel of ravel_pytree on vectors of the right size *)
Definition unravel_like (init : list (string * ptree)) (v : list Q) : ptree := fst (cut_tree (wrap init) v).
Definition advi_start (f : flow) (m : option M) : tstate flow OS G (option M) :=
  {| params := f; opt_state := opt_init f; step := 0; mutable := m; acc := None |}.
(** the fitted state: components with means and standard deviations (advi_trainer.py:66-93), mutable variables *)
Definition advi_fit {C} (std_init log_std_base : Q) (n_samples : nat) (normals : nat -> list Q) (run_key : K) (init : list (string * ptree)) (m : option M)
    net log_prior (calibrator : option (bool -> option C -> O -> O * C)) calib_mutable log_prob n_train n_val metrics training_metrics h monitor cfg bs vs
    : result (list (string * (ptree * ptree)) * option M * list (list Q) * list (list Q)) :=
  let rav := LapModel.ravel (wrap init) in
  let d := length rav in
  advi_run M X T O K G OS Pr U predict fold_in diff gadd gdiv zeros_like clip_by opt h
    (flow_setting ptree M X T O K Pr U ex split normal log_std_base d n_samples (unravel_like init) run_key net log_prior calibrator calib_mutable log_prob n_train n_val metrics training_metrics)
    monitor cfg bs vs (advi_start (flow_init std_init normals rav None) m) >>= fun '(s, ms, mvs) =>
  advi_state init (fl_mean (params _ _ _ _ s)) (fl_log_std (params _ _ _ _ s)) >>= fun state =>
  Ok (state, mutable _ _ _ _ s, ms, mvs).
(** advi_posterior.py:292-311 *)
Definition advi_draw (log_std_base : Q) (init : list (string * ptree)) (state : list (string * (ptree * ptree))) (key : K) : result ptree :=
  match base_sample K ex split normal log_std_base (length (LapModel.ravel (wrap init))) key 1 with
  | u :: _ => advi_sample (flow_entry ex) init state u
  | [] => Err IndexError
  end.
End Advi.
