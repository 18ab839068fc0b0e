(** Properties of whole fits of Laplace posteriors (C162). *)
From Coq Require Import List Arith ZArith QArith Bool String Reals.
From Verif Require Import Lib QuantModel TempSpec PredSpec CalibModel TrainModel TrainSpec TrainProofs4 DescModel DescSpec DrawModel DrawSpec WholeModel LapModel LapSpec TuneModel TuneSpec LapFitModel LapFitSpec LapFitProofs2 LapFitProofs3 LapFitProofs4 LapFitCases.
From Verif Require Import Lit LapProofs2.
Import ListNotations.
Open Scope list_scope.
Local Notation length := List.length.
Local Notation concat := List.concat.

(** C162: a fit starts from the trained MAP parameters, or from the state it restores, and gives every trainable
    coordinate its value there with the generalised Gauss-Newton curvature of the whole training data *)
Theorem C162_fit : forall (M X T K G OS Pr Un C CM : Type)
    (row : list R -> option M -> X -> list R) (net_train : list R -> option K -> option M -> list X -> list (list R) * M) (net_mutable : list R -> option M -> list X -> M)
    (has_calibrator : bool) (cal_row : C -> option CM -> list R -> list R) (cal_train : C -> option CM -> list (list R) -> list (list R) * CM) (cal_mutable : C -> option CM -> list (list R) -> CM)
    (predict : list (list R) -> Pr) (fold_in : nat -> nat -> K) (diff : (list R -> Q) -> list R -> G) (gadd : G -> G -> G) (gdiv : G -> nat -> G) (zeros_like : G -> G) (clip_by : Q -> G -> G)
    (opt : G -> OS -> list R -> list R * OS) (opt_init : list R -> OS)
    (metrics : option (list (Pr -> option Un -> list T -> Q))) (training_metrics : bool) (h : hyper) (monitor : list Q -> option Q) (cfg : config)
    (fl : R -> Q) (prior : log_var) (log_density : list R -> T -> R) (jac : (list R -> list R) -> list R -> nat -> nat -> R) (hessian : (list R -> R) -> list R -> nat -> nat -> R)
    (eigh : nat -> (nat -> nat -> R) -> (nat -> R) * (nat -> nat -> R)) (label : nat -> nat) (noise : key -> nat -> R)
    which dump dir restore start_from_current current (map_config : option (WholeModel.member (list R) M C CM)) train val tuning zero devices d s status r,
  (forall f g p, (forall q, f q = g q) -> diff f p = diff g p) -> (forall a, h_accumulation h = Some a -> (a <= 1)%nat) -> differentiates jac ->
  (forall init, map_config = Some init -> mb_calib_mutable init = None \/ mb_calib_mutable init = Some None) ->
  laplace_fit row net_train net_mutable has_calibrator cal_row cal_train cal_mutable predict fold_in diff gadd gdiv zeros_like clip_by opt opt_init metrics training_metrics h monitor cfg
    fl prior log_density jac hessian eigh label noise which dump dir restore start_from_current current map_config train val tuning zero devices d = Ok (s, status, r) ->
  selects which (length (ls_slots s)) ->
  let clip := fun g => match h_norm h with Some b => if Qlt_le_dec 0 b then clip_by b g else g | None => g end in
  let update := fun c => gradient_update diff clip opt (fold_in 0%nat)
    (fun key p m (b : list X * list T) =>
       (- (total_of (map (fun yt => fl (log_density (fst yt) (snd yt))) (combine (let ys := fst (net_train p (Some key) m (fst b)) in if has_calibrator then map (cal_row c None) ys else ys) (snd b)))
           * (inject_Z (Z.of_nat (length (concat (map fst train)))) / inject_Z (Z.of_nat (length (snd b)))) + fl (gaussian_log_density prior p)))%Q)
    (fun key p m b => match m with Some _ => Some (snd (net_train p (Some key) m (fst b))) | None => None end) in
  exists m,
    match restore, start_from_current, map_config with
    | Some r0, _, _ => status = None /\ exists s0, r0 = Ok s0 /\ stands_at s0 m
    | None, true, _ => status = None /\ exists s0, current = Some (Ok s0) /\ stands_at s0 m
    | None, false, Some init =>
        exists ms mvs, status = Some (ms, mvs) /\ (length ms <= n_epochs cfg)%nat /\ (is_active (stop_config cfg) = false -> length ms = n_epochs cfg) /\
          let trained := descend (update (mb_calib init)) 0%nat (passes (length ms) train) (mb_params init, opt_init (mb_params init), mb_mutable init) in
          mb_params m = fst (fst trained) /\ mb_mutable m = snd trained /\ mb_calib m = mb_calib init /\ mb_calib_mutable m = mb_calib_mutable init
    | None, false, None => False
    end
    /\ let p := mb_params m in let data := concat (map (fun b => combine (fst b) (snd b)) train) in
       let out := outputs_at row has_calibrator cal_row (mb_mutable m) (mb_calib m) (mb_calib_mutable m) in
       let H := fun xt : X * T => hessian (fun o => log_density o (snd xt)) (out p (fst xt)) in
       length (ls_slots s) = length p
       /\ (forall c, (c < length p)%nat -> ~ trainable which c -> nth_error (ls_slots s) c = Some (Plain (nth c p 0%R)))
       /\ (forall c, (c < length p)%nat -> trainable which c -> exists hess, nth_error (ls_slots s) c = Some (Paired (nth c p 0%R) hess)
            /\ forall D : X * T -> nat -> R,
               (forall xt, In xt data -> let n := length (out p (fst xt)) in eigen_decomposition n (H xt) (fst (eigh n (H xt))) (snd (eigh n (H xt)))) ->
               (forall xt o, In xt data -> (o < length (out p (fst xt)))%nat -> derivable_pt_lim (fun t => nth o (out (bump p c t) (fst xt)) 0%R) 0 (D xt o)) ->
               hess = (- rtotal (map (fun xt => quad (length (out p (fst xt))) (H xt) (D xt)) data))%R)
       /\ ls_mutable s = mb_mutable m /\ ls_calib s = mb_calib m /\ ls_calib_mutable s = mb_calib_mutable m
       /\ (val = None \/ tuning = false -> ls_log_var s = prior /\ r = Ok tt).
Proof.
  intros M X T K G OS Pr Un C CM row net_train net_mutable has_calibrator cal_row cal_train cal_mutable predict fold_in diff gadd gdiv zeros_like clip_by opt opt_init metrics training_metrics h monitor cfg fl prior log_density jac hessian eigh label noise
    which dump dir restore start_from_current current map_config train val tuning zero devices d s status r H1 H2 H3 H4 H5 H6.
  exact (fit_whole row net_train net_mutable has_calibrator cal_row cal_train cal_mutable predict fold_in diff gadd gdiv zeros_like clip_by opt opt_init metrics training_metrics h monitor cfg fl prior log_density jac hessian eigh label noise H1 H2
    which dump dir restore start_from_current current map_config train val tuning zero devices d s status r H3 H4 H5 H6).
Qed.
Print Assumptions C162_fit.

(** C162: when outputs are affine along a coordinate, its posterior precision is the second derivative of the negative
    log joint probability *)
Theorem C162_exact : forall (M X T K G OS Pr Un C CM : Type)
    (row : list R -> option M -> X -> list R) (net_train : list R -> option K -> option M -> list X -> list (list R) * M) (net_mutable : list R -> option M -> list X -> M)
    (has_calibrator : bool) (cal_row : C -> option CM -> list R -> list R) (cal_train : C -> option CM -> list (list R) -> list (list R) * CM) (cal_mutable : C -> option CM -> list (list R) -> CM)
    (predict : list (list R) -> Pr) (fold_in : nat -> nat -> K) (diff : (list R -> Q) -> list R -> G) (gadd : G -> G -> G) (gdiv : G -> nat -> G) (zeros_like : G -> G) (clip_by : Q -> G -> G)
    (opt : G -> OS -> list R -> list R * OS) (opt_init : list R -> OS)
    (metrics : option (list (Pr -> option Un -> list T -> Q))) (training_metrics : bool) (h : hyper) (monitor : list Q -> option Q) (cfg : config)
    (fl : R -> Q) (prior : log_var) (log_density : list R -> T -> R) (jac : (list R -> list R) -> list R -> nat -> nat -> R) (hessian : (list R -> R) -> list R -> nat -> nat -> R)
    (eigh : nat -> (nat -> nat -> R) -> (nat -> R) * (nat -> nat -> R)) (label : nat -> nat) (noise : key -> nat -> R)
    which dump dir restore start_from_current current map_config train val tuning zero devices d s status r,
  differentiates jac ->
  laplace_fit row net_train net_mutable has_calibrator cal_row cal_train cal_mutable predict fold_in diff gadd gdiv zeros_like clip_by opt opt_init metrics training_metrics h monitor cfg
    fl prior log_density jac hessian eigh label noise which dump dir restore start_from_current current map_config train val tuning zero devices d = Ok (s, status, r) ->
  selects which (length (ls_slots s)) -> fits prior (length (ls_slots s)) ->
  let p := map (fun sl => match sl with Plain x | Paired x _ => x end) (ls_slots s) in
  let out := outputs_at row has_calibrator cal_row (ls_mutable s) (ls_calib s) (ls_calib_mutable s) in
  let data := concat (map (fun b => combine (fst b) (snd b)) train) in
  let H := fun xt : X * T => hessian (fun o => log_density o (snd xt)) (out p (fst xt)) in
  (forall xt, In xt data -> let n := length (out p (fst xt)) in eigen_decomposition n (H xt) (fst (eigh n (H xt))) (snd (eigh n (H xt)))) ->
  (forall xt v, In xt data -> second_derivative_at_0 (fun t => log_density (moved (out p (fst xt)) v t) (snd xt)) (quad (length (out p (fst xt))) (H xt) v)) ->
  forall c x hess, nth_error (ls_slots s) c = Some (Paired x hess) ->
  forall D : X * T -> nat -> R, (forall xt t, In xt data -> out (bump p c t) (fst xt) = moved (out p (fst xt)) (D xt) t) ->
  second_derivative_at_0 (fun t => - (rtotal (map (fun xt => log_density (out (bump p c t) (fst xt)) (snd xt)) data) + gaussian_log_density prior (bump p c t)))%R (exp (- entry prior c) + hess)%R.
Proof.
  intros M X T K G OS Pr Un C CM row net_train net_mutable has_calibrator cal_row cal_train cal_mutable predict fold_in diff gadd gdiv zeros_like clip_by opt opt_init metrics training_metrics h monitor cfg fl prior log_density jac hessian eigh label noise.
  exact (fit_exact row net_train net_mutable has_calibrator cal_row cal_train cal_mutable predict fold_in diff gadd gdiv zeros_like clip_by opt opt_init metrics training_metrics h monitor cfg fl prior log_density jac hessian eigh label noise).
Qed.
Print Assumptions C162_exact.
Example C162_case_hypotheses : (forall n H, n = 1%nat -> eigen_decomposition n H (fst (l_eigh n H)) (snd (l_eigh n H))) /\ fits (Vector [0; 0]%R) 2 /\
  (forall x y v, second_derivative_at_0 (fun t => l_density (moved [x] v t) y) (quad 1 (l_hessian (fun o => l_density o y) [x]) v)) /\
  (forall p q x t, [p * x + (q + t)]%R = moved [(p * x + q)%R] (fun _ => 1%R) t).
Proof.
  split; [intros n H ->; intros [|o] [|o'] A B; try lia; unfold rover; cbn; lra|]. split; [reflexivity|]. split; [|intros p q x t; unfold moved; cbn; f_equal; lra].
  intros x y v. destruct (regression_hessian y x 0 (fun i => match i with O => v 0%nat | _ => 0%R end)) as (f' & A & B).
  exists f'. split.
  - intros t. eapply deriv_ext; [|exact (A t)]. intros z. cbn beta iota. unfold l_density, moved. cbn [length seq map nth]. rewrite Rmult_0_r, Rplus_0_r, exp_0. reflexivity.
  - replace (quad 1 _ v) with (quad 2 (gaussian_hessian y x 0) (fun i => match i with O => v 0%nat | _ => 0%R end)); [exact B|]. unfold quad, rover, gaussian_hessian, l_hessian. cbn. rewrite ?Ropp_0, ?exp_0. lra.
Qed.

(** C162: concave likelihoods have nonnegative curvature *)
Theorem C162_nonnegative : forall (M X T K G OS Pr Un C CM : Type)
    (row : list R -> option M -> X -> list R) (net_train : list R -> option K -> option M -> list X -> list (list R) * M) (net_mutable : list R -> option M -> list X -> M)
    (has_calibrator : bool) (cal_row : C -> option CM -> list R -> list R) (cal_train : C -> option CM -> list (list R) -> list (list R) * CM) (cal_mutable : C -> option CM -> list (list R) -> CM)
    (predict : list (list R) -> Pr) (fold_in : nat -> nat -> K) (diff : (list R -> Q) -> list R -> G) (gadd : G -> G -> G) (gdiv : G -> nat -> G) (zeros_like : G -> G) (clip_by : Q -> G -> G)
    (opt : G -> OS -> list R -> list R * OS) (opt_init : list R -> OS)
    (metrics : option (list (Pr -> option Un -> list T -> Q))) (training_metrics : bool) (h : hyper) (monitor : list Q -> option Q) (cfg : config)
    (fl : R -> Q) (prior : log_var) (log_density : list R -> T -> R) (jac : (list R -> list R) -> list R -> nat -> nat -> R) (hessian : (list R -> R) -> list R -> nat -> nat -> R)
    (eigh : nat -> (nat -> nat -> R) -> (nat -> R) * (nat -> nat -> R)) (label : nat -> nat) (noise : key -> nat -> R)
    which dump dir restore start_from_current current map_config train val tuning zero devices d s status r,
  laplace_fit row net_train net_mutable has_calibrator cal_row cal_train cal_mutable predict fold_in diff gadd gdiv zeros_like clip_by opt opt_init metrics training_metrics h monitor cfg
    fl prior log_density jac hessian eigh label noise which dump dir restore start_from_current current map_config train val tuning zero devices d = Ok (s, status, r) ->
  selects which (length (ls_slots s)) ->
  let p := map (fun sl => match sl with Plain x | Paired x _ => x end) (ls_slots s) in
  let out := outputs_at row has_calibrator cal_row (ls_mutable s) (ls_calib s) (ls_calib_mutable s) in
  let H := fun xt : X * T => hessian (fun o => log_density o (snd xt)) (out p (fst xt)) in
  (forall xt, In xt (concat (map (fun b => combine (fst b) (snd b)) train)) -> let n := length (out p (fst xt)) in
     eigen_decomposition n (H xt) (fst (eigh n (H xt))) (snd (eigh n (H xt))) /\ forall v, (quad n (H xt) v <= 0)%R) ->
  forall c x hess, nth_error (ls_slots s) c = Some (Paired x hess) -> (0 <= hess)%R.
Proof.
  intros M X T K G OS Pr Un C CM row net_train net_mutable has_calibrator cal_row cal_train cal_mutable predict fold_in diff gadd gdiv zeros_like clip_by opt opt_init metrics training_metrics h monitor cfg fl prior log_density jac hessian eigh label noise.
  exact (fit_nonnegative row net_train net_mutable has_calibrator cal_row cal_train cal_mutable predict fold_in diff gadd gdiv zeros_like clip_by opt opt_init metrics training_metrics h monitor cfg fl prior log_density jac hessian eigh label noise).
Qed.
Print Assumptions C162_nonnegative.

(** C162: a draw moves every trainable coordinate by noise with the posterior precision, and no other *)
Theorem C162_draws : forall (M C CM : Type) (noise : key -> nat -> R) (s : lap_state M C CM) given k,
  let v := match given with Some v => v | None => ls_log_var s end in
  match v with Scalar _ => True | Vector vs => length vs = n_paired (ls_slots s) end ->
  (forall c m hc, nth_error (ls_slots s) c = Some (Paired m hc) -> (0 < exp (- entry v (rank (ls_slots s) c)) + hc)%R) ->
  exists m, lap_draw noise s given k = Ok (Some m) /\ mb_mutable m = ls_mutable s /\ mb_calib m = ls_calib s /\ mb_calib_mutable m = ls_calib_mutable s
    /\ length (mb_params m) = length (ls_slots s)
    /\ (forall c x, nth_error (ls_slots s) c = Some (Plain x) -> nth c (mb_params m) 0%R = x)
    /\ (forall c x hc, nth_error (ls_slots s) c = Some (Paired x hc) -> nth c (mb_params m) 0%R = (x + noise k (rank (ls_slots s) c) / sqrt (exp (- entry v (rank (ls_slots s) c)) + hc))%R).
Proof. exact (@fit_draws). Qed.
Print Assumptions C162_draws.

(** C162: predictions are averages over draws *)
Theorem C162_predictions : forall (M X C CM : Type) (row : list R -> option M -> X -> list R) (has_calibrator : bool) (cal_row : C -> option CM -> list R -> list R) (label : nat -> nat) (noise : key -> nat -> R)
    (mean_of var_of : list R -> Q) (s : lap_state M C CM) (draws : key -> WholeModel.member (list R) M C CM) distribute devices n rng g (loader : list (list X)),
  (forall k, lap_draw noise s None k = Ok (Some (draws k))) -> (1 <= n)%nat -> divisible distribute devices loader ->
  let out := fun k x => outputs_at row has_calibrator cal_row (ls_mutable s) (ls_calib s) (ls_calib_mutable s) (mb_params (draws k)) x in
  (exists rows, lap_mean row has_calibrator cal_row label noise mean_of distribute devices n rng s g loader = (Ok rows, generator_after label rng g)
     /\ Forall2 (fun r x => r == average n (fun i => mean_of (out (key_of label rng g ++ [Cut (label n) i]) x)))%Q rows (concat loader))
  /\ (exists rows, lap_variance row has_calibrator cal_row label noise mean_of var_of distribute devices n rng s g loader = (Ok rows, generator_after label rng g)
     /\ Forall2 (fun r x => r == average n (fun i => var_of (out (key_of label rng g ++ [Cut (label 2%nat) 1%nat; Cut (label n) i]) x))
          + spread n (fun i => mean_of (out (key_of label rng g ++ [Cut (label 2%nat) 0%nat; Cut (label 2%nat) 1%nat; Cut (label n) i]) x)))%Q rows (concat loader)).
Proof. exact (@lap_predictions). Qed.
Print Assumptions C162_predictions.
Example C162_case_predictions : divisible true 2 [[1; 2]; [3; 4; 5; 6]]%R.
Proof. split; [lia|]. split; [discriminate|]. intros _. repeat constructor. Qed.

(** C162: with validation data the stored log-variance is the one among the grid and the prior under which the
    posterior's own draws explain the validation data best *)
Theorem C162_tuned : forall (M X T K G OS Pr Un C CM : Type)
    (row : list R -> option M -> X -> list R) (net_train : list R -> option K -> option M -> list X -> list (list R) * M) (net_mutable : list R -> option M -> list X -> M)
    (has_calibrator : bool) (cal_row : C -> option CM -> list R -> list R) (cal_train : C -> option CM -> list (list R) -> list (list R) * CM) (cal_mutable : C -> option CM -> list (list R) -> CM)
    (predict : list (list R) -> Pr) (fold_in : nat -> nat -> K) (diff : (list R -> Q) -> list R -> G) (gadd : G -> G -> G) (gdiv : G -> nat -> G) (zeros_like : G -> G) (clip_by : Q -> G -> G)
    (opt : G -> OS -> list R -> list R * OS) (opt_init : list R -> OS)
    (metrics : option (list (Pr -> option Un -> list T -> Q))) (training_metrics : bool) (h : hyper) (monitor : list Q -> option Q) (cfg : config)
    (fl : R -> Q) (log_density : list R -> T -> R) (jac : (list R -> list R) -> list R -> nat -> nat -> R) (hessian : (list R -> R) -> list R -> nat -> nat -> R)
    (eigh : nat -> (nat -> nat -> R) -> (nat -> R) * (nat -> nat -> R)) (label : nat -> nat) (noise : key -> nat -> R)
    which dump dir restore start_from_current current map_config train v tuning zero p0 s status r,
  laplace_fit row net_train net_mutable has_calibrator cal_row cal_train cal_mutable predict fold_in diff gadd gdiv zeros_like clip_by opt opt_init metrics training_metrics h monitor cfg
    fl (Scalar p0) log_density jac hessian eigh label noise which dump dir restore start_from_current current map_config train (Some v) tuning zero None 1%nat = Ok (s, status, r) -> tuning = true ->
  let data := concat (map (fun b : list X * list T => combine (fst b) (snd b)) v) in data <> [] ->
  let out := outputs_at row has_calibrator cal_row (ls_mutable s) (ls_calib s) (ls_calib_mutable s) in
  let good := fun w => forall c x hc, nth_error (ls_slots s) c = Some (Paired x hc) -> (0 < exp (- w) + hc)%R in
  good (-3)%R ->
  forall draws : R -> nat -> WholeModel.member (list R) M C CM, (forall w i, good w -> lap_draw noise s (Some (Scalar w)) (tuning_key label zero 5 i) = Ok (Some (draws w i))) ->
  let goal := fun w => rtotal (map (fun xt => ln (raverage 5 (fun i => exp (log_density (out (mb_params (draws w i)) (fst xt)) (snd xt))))) data) in
  r = Ok tt /\ exists w, ls_log_var s = Scalar w /\ good w /\ (w = p0 \/ exists i, (i < 20)%nat /\ w = (-3 + INR i * (6 / 19))%R)
    /\ (good p0 -> (goal p0 <= goal w)%R) /\ forall i, (i < 20)%nat -> good (-3 + INR i * (6 / 19))%R -> (goal (-3 + INR i * (6 / 19)) <= goal w)%R.
Proof.
  intros M X T K G OS Pr Un C CM row net_train net_mutable has_calibrator cal_row cal_train cal_mutable predict fold_in diff gadd gdiv zeros_like clip_by opt opt_init metrics training_metrics h monitor cfg fl log_density jac hessian eigh label noise.
  exact (fit_tunes row net_train net_mutable has_calibrator cal_row cal_train cal_mutable predict fold_in diff gadd gdiv zeros_like clip_by opt opt_init metrics training_metrics h monitor cfg fl log_density jac hessian eigh label noise).
Qed.
Print Assumptions C162_tuned.

(** C162: fitting again from the state of a fit, with the same data, changes nothing but the log-variance, which
    starts again from the prior *)
Theorem C162_again : forall (M X T K G OS Pr Un C CM : Type)
    (row : list R -> option M -> X -> list R) (net_train : list R -> option K -> option M -> list X -> list (list R) * M) (net_mutable : list R -> option M -> list X -> M)
    (has_calibrator : bool) (cal_row : C -> option CM -> list R -> list R) (cal_train : C -> option CM -> list (list R) -> list (list R) * CM) (cal_mutable : C -> option CM -> list (list R) -> CM)
    (predict : list (list R) -> Pr) (fold_in : nat -> nat -> K) (diff : (list R -> Q) -> list R -> G) (gadd : G -> G -> G) (gdiv : G -> nat -> G) (zeros_like : G -> G) (clip_by : Q -> G -> G)
    (opt : G -> OS -> list R -> list R * OS) (opt_init : list R -> OS)
    (metrics : option (list (Pr -> option Un -> list T -> Q))) (training_metrics : bool) (h : hyper) (monitor : list Q -> option Q) (cfg : config)
    (fl : R -> Q) (prior : log_var) (log_density : list R -> T -> R) (jac : (list R -> list R) -> list R -> nat -> nat -> R) (hessian : (list R -> R) -> list R -> nat -> nat -> R)
    (eigh : nat -> (nat -> nat -> R) -> (nat -> R) * (nat -> nat -> R)) (label : nat -> nat) (noise : key -> nat -> R)
    which dump dir restore start_from_current current map_config train val tuning zero devices d s status r,
  laplace_fit row net_train net_mutable has_calibrator cal_row cal_train cal_mutable predict fold_in diff gadd gdiv zeros_like clip_by opt opt_init metrics training_metrics h monitor cfg
    fl prior log_density jac hessian eigh label noise which dump dir restore start_from_current current map_config train val tuning zero devices d = Ok (s, status, r) ->
  selects which (length (ls_slots s)) ->
  forall dump' dir' map_config' val' tuning' zero' devices' d', check_fit_config dump' dir' = Ok tt ->
  let again := fun restore' start' current' => laplace_fit row net_train net_mutable has_calibrator cal_row cal_train cal_mutable predict fold_in diff gadd gdiv zeros_like clip_by opt opt_init metrics training_metrics h monitor cfg
    fl prior log_density jac hessian eigh label noise which dump' dir' restore' start' current' map_config' train val' tuning' zero' devices' d' in
  exists v r', again None true (Some (Ok (LapSt s))) = Ok ({| ls_slots := ls_slots s; ls_mutable := ls_mutable s; ls_calib := ls_calib s; ls_calib_mutable := ls_calib_mutable s; ls_log_var := v |}, None, r')
    /\ (forall start' current', again (Some (Ok (LapSt s))) start' current' = again None true (Some (Ok (LapSt s))))
    /\ (val' = None \/ tuning' = false -> v = prior /\ r' = Ok tt)
    /\ (val' = val -> tuning' = tuning -> zero' = zero -> devices' = devices -> d' = d -> v = ls_log_var s /\ r' = r).
Proof.
  intros M X T K G OS Pr Un C CM row net_train net_mutable has_calibrator cal_row cal_train cal_mutable predict fold_in diff gadd gdiv zeros_like clip_by opt opt_init metrics training_metrics h monitor cfg fl prior log_density jac hessian eigh label noise.
  exact (fit_again row net_train net_mutable has_calibrator cal_row cal_train cal_mutable predict fold_in diff gadd gdiv zeros_like clip_by opt opt_init metrics training_metrics h monitor cfg fl prior log_density jac hessian eigh label noise).
Qed.
Print Assumptions C162_again.

(** C162: with a map configuration and data a fit succeeds; when the freeze function freezes everything, it fails
    after the preliminary run *)
Theorem C162_succeeds : forall (M X T K G OS Pr Un C CM : Type)
    (row : list R -> option M -> X -> list R) (net_train : list R -> option K -> option M -> list X -> list (list R) * M) (net_mutable : list R -> option M -> list X -> M)
    (has_calibrator : bool) (cal_row : C -> option CM -> list R -> list R) (cal_train : C -> option CM -> list (list R) -> list (list R) * CM) (cal_mutable : C -> option CM -> list (list R) -> CM)
    (predict : list (list R) -> Pr) (fold_in : nat -> nat -> K) (diff : (list R -> Q) -> list R -> G) (gadd : G -> G -> G) (gdiv : G -> nat -> G) (zeros_like : G -> G) (clip_by : Q -> G -> G)
    (opt : G -> OS -> list R -> list R * OS) (opt_init : list R -> OS)
    (metrics : option (list (Pr -> option Un -> list T -> Q))) (training_metrics : bool) (h : hyper) (monitor : list Q -> option Q) (cfg : config)
    (fl : R -> Q) (prior : log_var) (log_density : list R -> T -> R) (jac : (list R -> list R) -> list R -> nat -> nat -> R) (hessian : (list R -> R) -> list R -> nat -> nat -> R)
    (eigh : nat -> (nat -> nat -> R) -> (nat -> R) * (nat -> nat -> R)) (label : nat -> nat) (noise : key -> nat -> R)
    which (dump dir : bool) current init train val tuning zero devices d,
  (forall f g p, (forall q, f q = g q) -> diff f p = diff g p) -> (forall a, h_accumulation h = Some a -> (a <= 1)%nat) ->
  (dump = true -> dir = true) -> mb_calib_mutable init = None \/ mb_calib_mutable init = Some None -> train <> [] -> (forall v, val = Some v -> v <> []) ->
  (is_active (stop_config cfg) = true -> forall r, monitor r <> None) ->
  let run := laplace_fit row net_train net_mutable has_calibrator cal_row cal_train cal_mutable predict fold_in diff gadd gdiv zeros_like clip_by opt opt_init metrics training_metrics h monitor cfg
    fl prior log_density jac hessian eigh label noise which dump dir None false current (Some init) train val tuning zero devices d in
  (which <> Some [] -> exists s reports r, run = Ok (s, Some reports, r)) /\ (which = Some [] -> run = Err TypeError).
Proof.
  intros M X T K G OS Pr Un C CM row net_train net_mutable has_calibrator cal_row cal_train cal_mutable predict fold_in diff gadd gdiv zeros_like clip_by opt opt_init metrics training_metrics h monitor cfg fl prior log_density jac hessian eigh label noise
    which dump dir current init train val tuning zero devices d H1 H2.
  exact (fit_succeeds row net_train net_mutable has_calibrator cal_row cal_train cal_mutable predict fold_in diff gadd gdiv zeros_like clip_by opt opt_init metrics training_metrics h monitor cfg fl prior log_density jac hessian eigh label noise H2
    which dump dir current init train val tuning zero devices d).
Qed.
Print Assumptions C162_succeeds.

(** C162: with a diagonal prior and a frozen coordinate the fit ends well, but nothing can be drawn or predicted *)
Theorem C162_frozen_diagonal_refuted : forall (M X T K G OS Pr Un C CM : Type)
    (row : list R -> option M -> X -> list R) (net_train : list R -> option K -> option M -> list X -> list (list R) * M) (net_mutable : list R -> option M -> list X -> M)
    (has_calibrator : bool) (cal_row : C -> option CM -> list R -> list R) (cal_train : C -> option CM -> list (list R) -> list (list R) * CM) (cal_mutable : C -> option CM -> list (list R) -> CM)
    (predict : list (list R) -> Pr) (fold_in : nat -> nat -> K) (diff : (list R -> Q) -> list R -> G) (gadd : G -> G -> G) (gdiv : G -> nat -> G) (zeros_like : G -> G) (clip_by : Q -> G -> G)
    (opt : G -> OS -> list R -> list R * OS) (opt_init : list R -> OS)
    (metrics : option (list (Pr -> option Un -> list T -> Q))) (training_metrics : bool) (h : hyper) (monitor : list Q -> option Q) (cfg : config)
    (fl : R -> Q) (log_density : list R -> T -> R) (jac : (list R -> list R) -> list R -> nat -> nat -> R) (hessian : (list R -> R) -> list R -> nat -> nat -> R)
    (eigh : nat -> (nat -> nat -> R) -> (nat -> R) * (nat -> nat -> R)) (label : nat -> nat) (noise : key -> nat -> R)
    which dump dir restore start_from_current current map_config train val tuning zero devices d vs s status r,
  laplace_fit row net_train net_mutable has_calibrator cal_row cal_train cal_mutable predict fold_in diff gadd gdiv zeros_like clip_by opt opt_init metrics training_metrics h monitor cfg
    fl (Vector vs) log_density jac hessian eigh label noise which dump dir restore start_from_current current map_config train val tuning zero devices d = Ok (s, status, r) ->
  selects which (length (ls_slots s)) -> val = None \/ tuning = false -> length vs = length (ls_slots s) -> (exists c, (c < length (ls_slots s))%nat /\ ~ trainable which c) ->
  (forall k, lap_draw noise s None k = Err TypeError)
  /\ forall (mean_of var_of : list R -> Q) distribute devices n rng g (loader : list (list X)),
     lap_mean row has_calibrator cal_row label noise mean_of distribute devices n rng s g loader = (Err TypeError, generator_after label rng g)
     /\ lap_variance row has_calibrator cal_row label noise mean_of var_of distribute devices n rng s g loader = (Err TypeError, generator_after label rng g).
Proof.
  intros M X T K G OS Pr Un C CM row net_train net_mutable has_calibrator cal_row cal_train cal_mutable predict fold_in diff gadd gdiv zeros_like clip_by opt opt_init metrics training_metrics h monitor cfg fl log_density jac hessian eigh label noise.
  exact (frozen_diagonal row net_train net_mutable has_calibrator cal_row cal_train cal_mutable predict fold_in diff gadd gdiv zeros_like clip_by opt opt_init metrics training_metrics h monitor cfg fl log_density jac hessian eigh label noise).
Qed.
Print Assumptions C162_frozen_diagonal_refuted.

(** outputs a x + b at inputs 1 and 2: the curvature of a is 1 + 4, that of b is 1 + 1 *)
Local Open Scope R_scope.
Example C162_case : exists jac, differentiates jac
  /\ l_fit jac (Scalar 0) None (Some (Ok (MapSt (l_point [1; 7])))) = Ok (l_state [Paired 1 5; Paired 7 2] (Scalar 0), None, Ok tt)
  /\ l_fit jac (Scalar 0) (Some [1%nat]) (Some (Ok (MapSt (l_point [1; 7])))) = Ok (l_state [Plain 1; Paired 7 2] (Scalar 0), None, Ok tt)
  /\ l_fit jac (Scalar 0) (Some []) (Some (Ok (MapSt (l_point [1; 7])))) = Err TypeError.
Proof. exact (ex_intro _ derivatives (conj derivatives_differentiate (case_fit derivatives derivatives_differentiate))). Qed.
Example C162_case_draw : lap_draw l_noise (l_state [Plain 1; Paired 7 3] (Scalar 0)) None [] = Ok (Some (l_point [1; 7 + 1 / 2])).
Proof. exact case_draw. Qed.
Example C162_case_diagonal : exists s, l_fit derivatives (Vector [0; 0]) (Some [1%nat]) (Some (Ok (MapSt (l_point [1; 7])))) = Ok (s, None, Ok tt) /\ lap_draw l_noise s None [] = Err TypeError.
Proof. exact (case_frozen_diagonal derivatives derivatives_differentiate). Qed.
