(** Properties of whole sessions with a probabilistic model (C160). *)
From Coq Require Import List Arith ZArith QArith Bool String.
From Verif Require Import Lib QuantModel PredSpec TrainModel TrainSpec TrainProofs4 CalibModel DescModel DescSpec CalRunModel DrawModel DrawSpec WholeModel WholeProofs WholeProofs2 WholeCases.
From Verif Require Import Lit.
Import ListNotations.
Open Scope list_scope.
Local Notation length := List.length.
Local Notation concat := List.concat.
Local Open Scope nat_scope.

(** C160: after training, every member has descended the negative log joint probability from its
    own start, the calibrator has descended the negative log of the likelihood averaged over draws
    of trained members, and predictions are averages over draws of calibrated outputs of
    trained members *)
Theorem C160_session : forall (P M X T Y K G OS Pr Un C CM CG COS CPr CUn : Type)
    (row : P -> option M -> X -> Y) (net_train : P -> option K -> option M -> list X -> list Y * M) (net_mutable : P -> option M -> list X -> M)
    (has_calibrator : bool) (cal_row : C -> option CM -> Y -> Y) (cal_train : C -> option CM -> list Y -> list Y * CM) (cal_mutable : C -> option CM -> list Y -> CM)
    (predict : list Y -> Pr) (fold_in : nat -> nat -> K) (diff : (P -> Q) -> P -> G) (gadd : G -> G -> G) (gdiv : G -> nat -> G) (zeros_like : G -> G) (clip_by : Q -> G -> G)
    (opt : G -> OS -> P -> P * OS) (opt_init : P -> OS) (log_prior : P -> Q) (log_prob : list Y -> list T -> list Q)
    (metrics : option (list (Pr -> option Un -> list T -> Q))) (training_metrics : bool) (h : hyper) (monitor : list Q -> option Q) (cfg : config)
    (choice : key -> nat -> nat) (label : nat -> nat) (cpredict : list Y -> CPr) (cuncertainty : list Y -> CUn)
    (cdiff : (C -> Q) -> C -> CG) (copt : CG -> COS -> C -> C * COS) (copt_init : C -> COS)
    (log_mean_exp : list Q -> Q) (mean_outputs : list (list Y) -> list Y) (mean_mutable : list CM -> CM)
    (cmetrics : option (list (CPr -> CUn -> list T -> Q))) (ctraining_metrics : bool) (cmonitor : list Q -> option Q) (ccfg : cconfig) (n_samples : nat)
    (mean_of var_of : Y -> Q) q (init : nat -> member P M C CM) train val calib g fits cfit ms g',
  (forall f g p, (forall q, f q = g q) -> diff f p = diff g p) -> (forall f g c, (forall q, f q = g q) -> cdiff f c = cdiff g c) ->
  (forall a, h_accumulation h = Some a -> (a <= 1)%nat) -> (forall k n, (1 <= n)%nat -> (choice k n < n)%nat) ->
  (forall j, mb_calib_mutable (init j) = None \/ mb_calib_mutable (init j) = Some None) ->
  session_train row net_train net_mutable has_calibrator cal_row cal_train cal_mutable predict fold_in diff gadd gdiv zeros_like clip_by opt opt_init log_prior log_prob metrics training_metrics h monitor cfg
    choice label cpredict cuncertainty cdiff copt copt_init log_mean_exp mean_outputs mean_mutable cmetrics ctraining_metrics cmonitor ccfg n_samples q init train val calib g = Ok (fits, cfit, (ms, g')) ->
  let size := match q with MapPosterior => 1%nat | EnsemblePosterior n => n end in
  let chosen := fun k => match q with MapPosterior => 0%nat | EnsemblePosterior n => choice k n end in
  let scale := fun data (ys : list T) => (inject_Z (Z.of_nat (length (concat (map fst data)))) / inject_Z (Z.of_nat (length ys)))%Q in
  let epochs := fun j => length (fst (nth j fits ([], []))) in
  let cepochs := match cfit with Some r => length (fst r) | None => 0%nat end in
  (* the fit of member j *)
  let clip := fun g => match h_norm h with Some b => if Qlt_le_dec 0 b then clip_by b g else g | None => g end in
  let fitted := fun c (ys : list Y) => if has_calibrator then map (cal_row c None) ys else ys in
  let update := fun j => gradient_update diff clip opt (fold_in j)
    (fun key p m (b : list X * list T) => (- (total_of (log_prob (fitted (mb_calib (init j)) (fst (net_train p (Some key) m (fst b)))) (snd b)) * scale train (snd b) + log_prior p))%Q)
    (fun key p m b => match m with Some _ => Some (snd (net_train p (Some key) m (fst b))) | None => None end) in
  let trained := fun j => descend (update j) 0 (passes (epochs j) train) (mb_params (init j), opt_init (mb_params (init j)), mb_mutable (init j)) in
  let raw := fun j x => let '(p, _, m) := trained j in row p m x in
  (* the calibration *)
  let data := match calib with Some l => l | None => [] end in
  let calibrating := (has_calibrator && match calib with Some (_ :: _) => true | _ => false end)%bool in
  let draws := fun b : list X * list T => map (fun i => map (raw (chosen (g ++ [Cut (label 2%nat) 0%nat; Cut (label n_samples) i]))) (fst b)) (seq 0 n_samples) in
  let cupdate := fun (_ : nat) (x : C * COS) (b : list X * list T * list (list Y)) =>
    copt (cdiff (fun c => (- log_mean_exp (map (fun o => total_of (log_prob (fst (cal_train c None o)) (snd (fst b))) * scale data (snd (fst b))) (snd b)))%Q) (fst x)) (snd x) (fst x) in
  let c := fun j => if calibrating then fst (descend cupdate 0 (passes cepochs (map (fun b => (b, draws b)) data)) (mb_calib (init 0%nat), copt_init (mb_calib (init 0%nat)))) else mb_calib (init j) in
  (* the outputs behind predictions *)
  let out := fun k x => let y := raw (chosen k) x in if has_calibrator then cal_row (c (chosen k)) None y else y in
  (length fits = size /\ length ms = size
   /\ (forall j, (j < size)%nat -> (epochs j <= n_epochs cfg)%nat /\ (is_active (stop_config cfg) = false -> epochs j = n_epochs cfg))
   /\ (if calibrating then cfit <> None /\ (cepochs <= c_epochs ccfg)%nat /\ (is_active (c_stop ccfg) = false -> cepochs = c_epochs ccfg) else cfit = None)
   /\ g' = g ++ repeat (Cut (label 2%nat) 0) (if calibrating then match val with Some _ => 3 | None => 2 end else 0)
   /\ (forall j, (j < size)%nat -> exists m, nth_error ms j = Some m
        /\ mb_params m = fst (fst (trained j)) /\ mb_mutable m = snd (trained j) /\ mb_calib m = c j
        /\ (mb_calib_mutable m = None \/ mb_calib_mutable m = Some None)))
  /\ forall distribute devices n rng (loader : list (list X)), (1 <= size)%nat -> (1 <= n)%nat -> divisible distribute devices loader ->
     (exists rows, session_mean row has_calibrator cal_row choice label mean_of q distribute devices n rng (ms, g') loader = (Ok rows, generator_after label rng g')
        /\ Forall2 (fun r x => r == average n (fun i => mean_of (out (key_of label rng g' ++ [Cut (label n) i]) x)))%Q rows (concat loader))
     /\ (exists rows, session_variance row has_calibrator cal_row choice label mean_of var_of q distribute devices n rng (ms, g') loader = (Ok rows, generator_after label rng g')
        /\ Forall2 (fun r x => r == average n (fun i => var_of (out (key_of label rng g' ++ [Cut (label 2%nat) 1%nat; Cut (label n) i]) x))
             + spread n (fun i => mean_of (out (key_of label rng g' ++ [Cut (label 2%nat) 0%nat; Cut (label 2%nat) 1%nat; Cut (label n) i]) x)))%Q rows (concat loader)).
Proof.
  intros P M X T Y K G OS Pr Un C CM CG COS CPr CUn row net_train net_mutable has_calibrator cal_row cal_train cal_mutable predict fold_in diff gadd gdiv zeros_like clip_by opt opt_init log_prior log_prob metrics training_metrics h monitor cfg
    choice label cpredict cuncertainty cdiff copt copt_init log_mean_exp mean_outputs mean_mutable cmetrics ctraining_metrics cmonitor ccfg n_samples mean_of var_of q init train val calib g fits cfit ms g' H1 H2 H3 H4 H5 H6.
  exact (session_both row net_train net_mutable has_calibrator cal_row cal_train cal_mutable predict fold_in diff gadd gdiv zeros_like clip_by opt opt_init log_prior log_prob metrics training_metrics h monitor cfg
    choice label cpredict cuncertainty cdiff copt copt_init log_mean_exp mean_outputs mean_mutable cmetrics ctraining_metrics cmonitor ccfg n_samples mean_of var_of H1 H2 H3 H4 q init train val calib g fits cfit ms g' H5 H6).
Qed.
Print Assumptions C160_session.
Example C160_case_divisible : divisible true 2 [[1; 2]; [3; 4; 5; 6]] /\ divisible false 8 [[1%Q]; [2%Q]].
Proof. split; (split; [lia|split; [discriminate|]]); [intros _; repeat constructor|discriminate]. Qed.

(** C160: with data in every loader and known monitors training succeeds; an ensemble without members
    cannot be calibrated *)
Theorem C160_succeeds : forall (P M X T Y K G OS Pr Un C CM CG COS CPr CUn : Type)
    (row : P -> option M -> X -> Y) (net_train : P -> option K -> option M -> list X -> list Y * M) (net_mutable : P -> option M -> list X -> M)
    (has_calibrator : bool) (cal_row : C -> option CM -> Y -> Y) (cal_train : C -> option CM -> list Y -> list Y * CM) (cal_mutable : C -> option CM -> list Y -> CM)
    (predict : list Y -> Pr) (fold_in : nat -> nat -> K) (diff : (P -> Q) -> P -> G) (gadd : G -> G -> G) (gdiv : G -> nat -> G) (zeros_like : G -> G) (clip_by : Q -> G -> G)
    (opt : G -> OS -> P -> P * OS) (opt_init : P -> OS) (log_prior : P -> Q) (log_prob : list Y -> list T -> list Q)
    (metrics : option (list (Pr -> option Un -> list T -> Q))) (training_metrics : bool) (h : hyper) (monitor : list Q -> option Q) (cfg : config)
    (choice : key -> nat -> nat) (label : nat -> nat) (cpredict : list Y -> CPr) (cuncertainty : list Y -> CUn)
    (cdiff : (C -> Q) -> C -> CG) (copt : CG -> COS -> C -> C * COS) (copt_init : C -> COS)
    (log_mean_exp : list Q -> Q) (mean_outputs : list (list Y) -> list Y) (mean_mutable : list CM -> CM)
    (cmetrics : option (list (CPr -> CUn -> list T -> Q))) (ctraining_metrics : bool) (cmonitor : list Q -> option Q) (ccfg : cconfig) (n_samples : nat) q (init : nat -> member P M C CM) train val (calib : option (list (list X * list T))) g,
  (forall f g p, (forall q, f q = g q) -> diff f p = diff g p) -> (forall f g c, (forall q, f q = g q) -> cdiff f c = cdiff g c) ->
  (forall a, h_accumulation h = Some a -> (a <= 1)%nat) -> (forall k n, (1 <= n)%nat -> (choice k n < n)%nat) ->
  (forall j, mb_calib_mutable (init j) = None \/ mb_calib_mutable (init j) = Some None) ->
  train <> [] -> (forall v, val = Some v -> v <> []) -> (is_active (stop_config cfg) = true -> forall r, monitor r <> None) -> (is_active (c_stop ccfg) = true -> forall r, cmonitor r <> None) ->
  let size := match q with MapPosterior => 1%nat | EnsemblePosterior n => n end in
  let calibrating := (has_calibrator && match calib with Some (_ :: _) => true | _ => false end)%bool in
  let run := session_train row net_train net_mutable has_calibrator cal_row cal_train cal_mutable predict fold_in diff gadd gdiv zeros_like clip_by opt opt_init log_prior log_prob metrics training_metrics h monitor cfg
    choice label cpredict cuncertainty cdiff copt copt_init log_mean_exp mean_outputs mean_mutable cmetrics ctraining_metrics cmonitor ccfg n_samples q init train val calib g in
  ((1 <= size)%nat \/ calibrating = false -> exists r, run = Ok r) /\ (size = 0%nat -> calibrating = true -> run = Err IndexError).
Proof.
  intros P M X T Y K G OS Pr Un C CM CG COS CPr CUn row net_train net_mutable has_calibrator cal_row cal_train cal_mutable predict fold_in diff gadd gdiv zeros_like clip_by opt opt_init log_prior log_prob metrics training_metrics h monitor cfg
    choice label cpredict cuncertainty cdiff copt copt_init log_mean_exp mean_outputs mean_mutable cmetrics ctraining_metrics cmonitor ccfg n_samples
    q init train val calib g H1 H2 H3 H4 H5.
  exact (session_succeeds row net_train net_mutable has_calibrator cal_row cal_train cal_mutable predict fold_in diff gadd gdiv zeros_like clip_by opt opt_init log_prior log_prob metrics training_metrics h monitor cfg
    choice label cpredict cuncertainty cdiff copt copt_init log_mean_exp mean_outputs mean_mutable cmetrics ctraining_metrics cmonitor ccfg n_samples
    H1 H3 q init train val calib g H5).
Qed.
Print Assumptions C160_succeeds.

(** C160: predictions of a MAP posterior depend on neither keys nor numbers of samples, and have no
    epistemic part *)
Theorem C160_map : forall (P M X T Y K G OS Pr Un C CM CG COS CPr CUn : Type)
    (row : P -> option M -> X -> Y) (net_train : P -> option K -> option M -> list X -> list Y * M) (net_mutable : P -> option M -> list X -> M)
    (has_calibrator : bool) (cal_row : C -> option CM -> Y -> Y) (cal_train : C -> option CM -> list Y -> list Y * CM) (cal_mutable : C -> option CM -> list Y -> CM)
    (predict : list Y -> Pr) (fold_in : nat -> nat -> K) (diff : (P -> Q) -> P -> G) (gadd : G -> G -> G) (gdiv : G -> nat -> G) (zeros_like : G -> G) (clip_by : Q -> G -> G)
    (opt : G -> OS -> P -> P * OS) (opt_init : P -> OS) (log_prior : P -> Q) (log_prob : list Y -> list T -> list Q)
    (metrics : option (list (Pr -> option Un -> list T -> Q))) (training_metrics : bool) (h : hyper) (monitor : list Q -> option Q) (cfg : config)
    (choice : key -> nat -> nat) (label : nat -> nat) (cpredict : list Y -> CPr) (cuncertainty : list Y -> CUn)
    (cdiff : (C -> Q) -> C -> CG) (copt : CG -> COS -> C -> C * COS) (copt_init : C -> COS)
    (log_mean_exp : list Q -> Q) (mean_outputs : list (list Y) -> list Y) (mean_mutable : list CM -> CM)
    (cmetrics : option (list (CPr -> CUn -> list T -> Q))) (ctraining_metrics : bool) (cmonitor : list Q -> option Q) (ccfg : cconfig) (n_samples : nat)
    (mean_of var_of : Y -> Q) (init : nat -> member P M C CM) train val calib g fits cfit ms g',
  (forall f g p, (forall q, f q = g q) -> diff f p = diff g p) -> (forall f g c, (forall q, f q = g q) -> cdiff f c = cdiff g c) ->
  (forall a, h_accumulation h = Some a -> (a <= 1)%nat) -> (forall k n, (1 <= n)%nat -> (choice k n < n)%nat) ->
  (forall j, mb_calib_mutable (init j) = None \/ mb_calib_mutable (init j) = Some None) ->
  session_train row net_train net_mutable has_calibrator cal_row cal_train cal_mutable predict fold_in diff gadd gdiv zeros_like clip_by opt opt_init log_prior log_prob metrics training_metrics h monitor cfg
    choice label cpredict cuncertainty cdiff copt copt_init log_mean_exp mean_outputs mean_mutable cmetrics ctraining_metrics cmonitor ccfg n_samples MapPosterior init train val calib g = Ok (fits, cfit, (ms, g')) ->
  exists m, ms = [m] /\
  let out := fun x => let y := row (mb_params m) (mb_mutable m) x in if has_calibrator then cal_row (mb_calib m) None y else y in
  forall distribute devices n rng (loader : list (list X)), (1 <= n)%nat -> divisible distribute devices loader ->
  (exists rows, session_mean row has_calibrator cal_row choice label mean_of MapPosterior distribute devices n rng (ms, g') loader = (Ok rows, generator_after label rng g')
     /\ Forall2 (fun r x => r == mean_of (out x))%Q rows (concat loader))
  /\ (exists rows, session_variance row has_calibrator cal_row choice label mean_of var_of MapPosterior distribute devices n rng (ms, g') loader = (Ok rows, generator_after label rng g')
     /\ Forall2 (fun r x => r == var_of (out x))%Q rows (concat loader)).
Proof.
  intros P M X T Y K G OS Pr Un C CM CG COS CPr CUn row net_train net_mutable has_calibrator cal_row cal_train cal_mutable predict fold_in diff gadd gdiv zeros_like clip_by opt opt_init log_prior log_prob metrics training_metrics h monitor cfg
    choice label cpredict cuncertainty cdiff copt copt_init log_mean_exp mean_outputs mean_mutable cmetrics ctraining_metrics cmonitor ccfg n_samples
    mean_of var_of init train val calib g fits cfit ms g' H1 H2 H3 H4 H5 H6.
  exact (map_predictions row net_train net_mutable has_calibrator cal_row cal_train cal_mutable predict fold_in diff gadd gdiv zeros_like clip_by opt opt_init log_prior log_prob metrics training_metrics h monitor cfg
    choice label cpredict cuncertainty cdiff copt copt_init log_mean_exp mean_outputs mean_mutable cmetrics ctraining_metrics cmonitor ccfg n_samples
    mean_of var_of H1 H2 H3 H4 init train val calib g fits cfit ms g' H5 H6).
Qed.
Print Assumptions C160_map.

(** C160: an ensemble of one member is a MAP posterior *)
Theorem C160_one_member : forall (P M X T Y K G OS Pr Un C CM CG COS CPr CUn : Type)
    (row : P -> option M -> X -> Y) (net_train : P -> option K -> option M -> list X -> list Y * M) (net_mutable : P -> option M -> list X -> M)
    (has_calibrator : bool) (cal_row : C -> option CM -> Y -> Y) (cal_train : C -> option CM -> list Y -> list Y * CM) (cal_mutable : C -> option CM -> list Y -> CM)
    (predict : list Y -> Pr) (fold_in : nat -> nat -> K) (diff : (P -> Q) -> P -> G) (gadd : G -> G -> G) (gdiv : G -> nat -> G) (zeros_like : G -> G) (clip_by : Q -> G -> G)
    (opt : G -> OS -> P -> P * OS) (opt_init : P -> OS) (log_prior : P -> Q) (log_prob : list Y -> list T -> list Q)
    (metrics : option (list (Pr -> option Un -> list T -> Q))) (training_metrics : bool) (h : hyper) (monitor : list Q -> option Q) (cfg : config)
    (choice : key -> nat -> nat) (label : nat -> nat) (cpredict : list Y -> CPr) (cuncertainty : list Y -> CUn)
    (cdiff : (C -> Q) -> C -> CG) (copt : CG -> COS -> C -> C * COS) (copt_init : C -> COS)
    (log_mean_exp : list Q -> Q) (mean_outputs : list (list Y) -> list Y) (mean_mutable : list CM -> CM)
    (cmetrics : option (list (CPr -> CUn -> list T -> Q))) (ctraining_metrics : bool) (cmonitor : list Q -> option Q) (ccfg : cconfig) (n_samples : nat) (init : nat -> member P M C CM) train val (calib : option (list (list X * list T))) g,
  (forall k n, (1 <= n)%nat -> (choice k n < n)%nat) ->
  let run := fun q => session_train row net_train net_mutable has_calibrator cal_row cal_train cal_mutable predict fold_in diff gadd gdiv zeros_like clip_by opt opt_init log_prior log_prob metrics training_metrics h monitor cfg
    choice label cpredict cuncertainty cdiff copt copt_init log_mean_exp mean_outputs mean_mutable cmetrics ctraining_metrics cmonitor ccfg n_samples q init train val calib g in
  run (EnsemblePosterior 1) = run MapPosterior.
Proof.
  intros P M X T Y K G OS Pr Un C CM CG COS CPr CUn row net_train net_mutable has_calibrator cal_row cal_train cal_mutable predict fold_in diff gadd gdiv zeros_like clip_by opt opt_init log_prior log_prob metrics training_metrics h monitor cfg
    choice label cpredict cuncertainty cdiff copt copt_init log_mean_exp mean_outputs mean_mutable cmetrics ctraining_metrics cmonitor ccfg n_samples
    init train val calib g H.
  exact (one_member row net_train net_mutable has_calibrator cal_row cal_train cal_mutable predict fold_in diff gadd gdiv zeros_like clip_by opt opt_init log_prior log_prob metrics training_metrics h monitor cfg
    choice label cpredict cuncertainty cdiff copt copt_init log_mean_exp mean_outputs mean_mutable cmetrics ctraining_metrics cmonitor ccfg n_samples
    H init train val calib g).
Qed.
Print Assumptions C160_one_member.

(** two members that start from 0 and from 1, with target 2 for input 1 in training and target 3 in
    the calibration, whose three draws are of members 0, 1 and 0 *)
Example C160_case : w_members (w_train true (EnsemblePosterior 2) (Some [([1%Q], [3%Q])]) [])
    = [((18 # 25)%Q, Some 2, (12821 # 9375)%Q); ((34 # 25)%Q, Some 2, (12821 # 9375)%Q)]
  /\ w_members (w_train true (EnsemblePosterior 2) None []) = [((18 # 25)%Q, Some 2, 1%Q); ((34 # 25)%Q, Some 2, 1%Q)]
  /\ map (fun i => w_choice [Cut 2 0; Cut 3 i] 2) (seq 0 3) = [0; 1; 0]
  /\ w_mean true (EnsemblePosterior 2) 2 (Some []) (w_train true (EnsemblePosterior 2) (Some [([1%Q], [3%Q])]) []) [[1%Q]; [2%Q]] = Ok [(333346 # 234375)%Q; (666692 # 234375)%Q].
Proof. vm_compute. repeat split. Qed.
Example C160_case_map : w_members (w_train true MapPosterior (Some [([1%Q], [3%Q])]) []) = [((18 # 25)%Q, Some 2, (4151 # 3125)%Q)]
  /\ w_mean true MapPosterior 2 (Some []) (w_train true MapPosterior (Some [([1%Q], [3%Q])]) []) [[1%Q]; [2%Q]] = Ok [(74718 # 78125)%Q; (149436 # 78125)%Q]
  /\ w_train true (EnsemblePosterior 0) (Some [([1%Q], [3%Q])]) [] = Err IndexError.
Proof. vm_compute. repeat split. Qed.
