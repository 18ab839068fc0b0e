(** Statements about whole fits: MAP posteriors and calibration models. *)
From Coq Require Import List Arith ZArith QArith Qabs Bool String Lia.
From Verif Require Import Lib QuantModel PredModel LikModel CalibModel TrainModel TrainSpec TrainProofs TrainProofs2 TrainProofs3 TrainProofs4 DescModel DescSpec DescProofs DescProofs2.
Import ListNotations.
Open Scope list_scope.
Local Notation length := List.length.

Theorem map_fit : forall (P M X T O K G OS Pr Un C : Type) (predict : O -> Pr) (fold_in : nat -> K) (diff : (P -> Q) -> P -> G)
    gadd gdiv zeros_like clip_by (opt : G -> OS -> P -> P * OS) (net : P -> option K -> bool -> option M -> X -> O * M) (log_prior : P -> Q)
    (calibrator : option (bool -> option C -> O -> O * C)) calib_mutable (log_prob : O -> list T -> list Q) n_train n_val
    (metrics : option (list (Pr -> option Un -> list T -> Q))) training_metrics r h monitor cfg bs vs (s s' : tstate P OS G (option M)) ms mvs,
  (forall f g p, (forall q, f q = g q) -> diff f p = diff g p) ->
  r = FitMAP \/ r = FitMember -> (forall a, h_accumulation h = Some a -> (a <= 1)%nat) ->
  fit P M X T O K G OS Pr Un predict fold_in diff gadd gdiv zeros_like clip_by opt r h
    (map_setting P M X T O K Pr Un net log_prior calibrator calib_mutable log_prob n_train n_val metrics training_metrics) monitor cfg bs vs s = Ok (s', ms, mvs) ->
  let outputs := fun key train p m x => let o := fst (net p key train m x) in
    match calibrator with None => o | Some f => fst (f false (match calib_mutable with Some c => c | None => None end) o) end in
  let objective := fun n o (ys : list T) p => (- (total_of (log_prob o ys) * (inject_Z (Z.of_nat n) / inject_Z (Z.of_nat (length ys))) + log_prior p))%Q in
  let clip := fun g => match h_norm h with Some b => if Qlt_le_dec 0 b then clip_by b g else g | None => g end in
  let update := gradient_update diff clip opt fold_in
    (fun key p m (b : X * list T) => objective n_train (outputs (Some key) true p m (fst b)) (snd b) p)
    (fun key p m b => match m with Some _ => Some (snd (net p (Some key) true m (fst b))) | None => None end) in
  let at_ := fun e i => descend update (step s) (before e i bs) (params s, opt_state s, mutable s) in
  (length ms <= n_epochs cfg)%nat /\ (is_active (stop_config cfg) = false -> length ms = n_epochs cfg)
  /\ (params s', opt_state s', mutable s') = at_ (length ms) 0%nat /\ step s' = (step s + length ms * length bs)%nat
  /\ (forall e, (e < length ms)%nat ->
        is_mean_of (map (fun ib => let '(p, _, m) := at_ e (fst ib) in
            let o := outputs (Some (fold_in (step s + e * length bs + fst ib)%nat)) true p m (fst (snd ib)) in let ys := snd (snd ib) in
            objective n_train o ys p :: match metrics with Some fs => if training_metrics then map (fun f => f (predict o) None ys) fs else [] | None => [] end)
          (combine (seq 0 (length bs)) bs)) (nth e ms []))
  /\ match vs with
     | None => mvs = []
     | Some v => Forall2 (fun e row => is_mean_of (map (fun b => let '(p, _, m) := at_ (S e) 0%nat in
            let o := outputs None false p m (fst b) in
            objective n_val o (snd b) p :: match metrics with Some fs => map (fun f => f (predict o) None (snd b)) fs | None => [] end) v) row)
          (validation_epochs (eval_every cfg) (length ms)) mvs
     end.
Proof.
  intros P M X T O K G OS Pr Un C predict fold_in diff gadd gdiv zeros_like clip_by opt net log_prior calibrator calib_mutable log_prob n_train n_val metrics training_metrics r h monitor cfg bs vs s s' ms mvs
    DE RR HA RUN outputs objective clip update at_.
  set (k := or_zero 0%nat (h_accumulation h)). set (norm := or_zero 0%Q (h_norm h)).
  assert (RK : run_kwargs r h = (k, norm)) by (destruct RR; subst r; reflexivity).
  assert (K1 : (k <= 1)%nat) by (unfold k; destruct (h_accumulation h) as [a|] eqn:E; cbn; [apply HA; reflexivity|lia]).
  pose proof (fit_ok P M X T O K G OS Pr Un predict fold_in diff DE gadd gdiv zeros_like clip_by opt (fun _ => True) r h (map_setting P M X T O K Pr Un net log_prior calibrator calib_mutable log_prob n_train n_val metrics training_metrics) k norm
    (fun key p m (b : X * list T) => objective n_train (outputs (Some key) true p m (fst b)) (snd b) p)
    (fun key p m b => outputs (Some key) true p m (fst b))
    (fun key p m b => match m with Some _ => Some (snd (net p (Some key) true m (fst b))) | None => None end)
    (fun p m b => objective n_val (outputs None false p m (fst b)) (snd b) p)
    (fun p m b => outputs None false p m (fst b))
    monitor cfg bs vs s s' ms mvs RK K1 I) as Z.
  specialize (Z ltac:(intros p b m key _; split; [apply map_training|exact I])).
  specialize (Z ltac:(intros p b m _; eexists; apply map_validation) RUN). cbv zeta in Z.
  assert (CE : forall g, (if Qlt_bool 0 norm then clip_by norm else fun g => g) g = clip g).
  { intros g. unfold clip, norm. destruct (h_norm h) as [b|]; cbn [or_zero]; [|reflexivity]. unfold Qlt_bool.
    destruct (Qlt_le_dec 0 b) as [L|L]; destruct (Qle_bool b 0) eqn:E; cbn [negb]; try reflexivity.
    - apply Qle_bool_iff in E. exfalso. apply (Qlt_not_le _ _ L E).
    - exfalso. assert (Qle_bool b 0 = true) by (apply Qle_bool_iff; exact L). congruence. }
  assert (UE : forall j x b, gradient_update diff (if Qlt_bool 0 norm then clip_by norm else fun g => g) opt fold_in
      (fun key p m (b : X * list T) => objective n_train (outputs (Some key) true p m (fst b)) (snd b) p)
      (fun key p m b => match m with Some _ => Some (snd (net p (Some key) true m (fst b))) | None => None end) j x b = update j x b).
  { intros j [[p o] m] b. unfold update, gradient_update. rewrite CE. reflexivity. }
  assert (DD : forall e i, descend (gradient_update diff (if Qlt_bool 0 norm then clip_by norm else fun g => g) opt fold_in
      (fun key p m (b : X * list T) => objective n_train (outputs (Some key) true p m (fst b)) (snd b) p)
      (fun key p m b => match m with Some _ => Some (snd (net p (Some key) true m (fst b))) | None => None end)) (step s) (before e i bs) (proj P M G OS s) = at_ e i).
  { intros e i. unfold at_, proj. exact (proj1 (descend_proj _ _ _ (fun _ => True) _ update (fun x => x) (fun j x b _ => conj (UE j x b) I) (before e i bs) (step s) _ I)). }
  destruct Z as (A1 & A2 & A3 & A4 & A5 & A6).
  split; [exact A1|]. split; [exact A2|]. split; [rewrite DD in A3; exact A3|]. split; [exact A4|]. split.
  - intros e He. specialize (A5 e He). revert A5. apply mean_rows_eq. apply map_ext. intros [i b]. rewrite DD.
    cbn [fst snd map_setting s_training_metrics s_metrics s_uncertainty option_map]. destruct (at_ e i) as [[p o] m]. destruct training_metrics, metrics; reflexivity.
  - destruct vs as [v|]; [|exact A6]. clear - A6 DD. revert A6. generalize (validation_epochs (eval_every cfg) (length ms)) as es. intros es A6.
    induction A6 as [|e m es l Y A6 IH]; [constructor|]. constructor; [|exact IH]. revert Y. apply mean_rows_eq. apply map_ext. intros b. rewrite DD. reflexivity.
Qed.

Theorem calib_fit : forall (P M X T O K G OS Pr Un : Type) (predict : O -> Pr) (fold_in : nat -> K) (diff : (P -> Q) -> P -> G)
    gadd gdiv zeros_like clip_by (opt : G -> OS -> P -> P * OS) (net : P -> option K -> bool -> option M -> X -> O * M) (loss_fn : O -> list T -> Q) n_train n_val
    (metrics : option (list (Pr -> option Un -> list T -> Q))) training_metrics uncertainty_fn default h monitor cfg bs vs (s s' : tstate P OS G (option M)) ms mvs,
  (forall f g p, (forall q, f q = g q) -> diff f p = diff g p) -> mutable s = None ->
  fit P M X T O K G OS Pr Un predict fold_in diff gadd gdiv zeros_like clip_by opt CalibrateModel h
    (calib_setting P M X T O K Pr Un net loss_fn n_train n_val metrics training_metrics uncertainty_fn default) monitor cfg bs vs s = Ok (s', ms, mvs) ->
  let outputs := fun key train p x => fst (net p key train None x) in
  let uncertainty := match uncertainty_fn with Some u => u | None => default end in
  let update := gradient_update diff (fun g => g) opt fold_in
    (fun key p (_ : unit) (b : X * list T) => loss_fn (outputs (Some key) true p (fst b)) (snd b)) (fun _ _ _ _ => tt) in
  let at_ := fun e i => fst (descend update (step s) (before e i bs) (params s, opt_state s, tt)) in
  (length ms <= n_epochs cfg)%nat /\ (is_active (stop_config cfg) = false -> length ms = n_epochs cfg)
  /\ (params s', opt_state s') = at_ (length ms) 0%nat /\ mutable s' = None /\ step s' = (step s + length ms * length bs)%nat
  /\ (forall e, (e < length ms)%nat ->
        is_mean_of (map (fun ib => let o := outputs (Some (fold_in (step s + e * length bs + fst ib)%nat)) true (fst (at_ e (fst ib))) (fst (snd ib)) in let ys := snd (snd ib) in
            loss_fn o ys :: match metrics with Some fs => if training_metrics then map (fun f => f (predict o) (Some (uncertainty o)) ys) fs else [] | None => [] end)
          (combine (seq 0 (length bs)) bs)) (nth e ms []))
  /\ match vs with
     | None => mvs = []
     | Some v => Forall2 (fun e row => is_mean_of (map (fun b => let o := outputs None false (fst (at_ (S e) 0%nat)) (fst b) in
            loss_fn o (snd b) :: match metrics with Some fs => map (fun f => f (predict o) (Some (uncertainty o)) (snd b)) fs | None => [] end) v) row)
          (validation_epochs (eval_every cfg) (length ms)) mvs
     end.
Proof.
  intros P M X T O K G OS Pr Un predict fold_in diff gadd gdiv zeros_like clip_by opt net loss_fn n_train n_val metrics training_metrics uncertainty_fn default h monitor cfg bs vs s s' ms mvs
    DE MN RUN outputs uncertainty update at_.
  pose proof (fit_ok P M X T O K G OS Pr Un predict fold_in diff DE gadd gdiv zeros_like clip_by opt (fun m => m = None) CalibrateModel h (calib_setting P M X T O K Pr Un net loss_fn n_train n_val metrics training_metrics uncertainty_fn default) 0%nat 0%Q
    (fun key p (m : option M) (b : X * list T) => loss_fn (outputs (Some key) true p (fst b)) (snd b))
    (fun key p m b => outputs (Some key) true p (fst b)) (fun _ _ _ _ => None)
    (fun p m b => loss_fn (outputs None false p (fst b)) (snd b)) (fun p m b => outputs None false p (fst b))
    monitor cfg bs vs s s' ms mvs eq_refl ltac:(lia) MN) as Z.
  specialize (Z ltac:(intros p b m key E; cbv beta in E; subst m; split; [apply cm_training|reflexivity])).
  specialize (Z ltac:(intros p b m E; cbv beta in E; subst m; eexists; apply cm_validation) RUN). cbv zeta in Z.
  change (if Qlt_bool 0 0 then clip_by 0%Q else fun g => g) with (fun g : G => g) in Z.
  set (upd := gradient_update _ _ _ _ _ _) in Z.
  assert (DD : forall e i, let x := descend upd (step s) (before e i bs) (proj P M G OS s) in fst x = at_ e i /\ snd x = None).
  { intros e i. unfold at_, proj. rewrite MN.
    pose proof (descend_proj _ _ _ (fun x => snd x = None) upd update (fun x => (fst x, tt))
      ltac:(intros j [[p o] m] b E; cbn in E |- *; split; reflexivity) (before e i bs) (step s) (params s, opt_state s, None) eq_refl) as (D1 & D2).
    cbn [fst] in D1. cbn zeta. split; [|exact D2]. rewrite <- D1. reflexivity. }
  destruct Z as (A1 & A2 & A3 & A4 & A5 & A6).
  split; [exact A1|]. split; [exact A2|]. destruct (DD (length ms) 0%nat) as (D1 & D2). rewrite <- A3 in D1, D2. cbn [fst snd proj] in D1, D2.
  split; [exact D1|]. split; [exact D2|]. split; [exact A4|]. split.
  - intros e He. specialize (A5 e He). revert A5. apply mean_rows_eq. apply map_ext. intros [i b]. cbn [fst snd]. destruct (DD e i) as (E1 & _).
    destruct (descend upd (step s) (before e i bs) (proj P M G OS s)) as [[p o] m]. cbn [fst] in E1. rewrite <- E1. cbn [calib_setting s_training_metrics s_metrics s_uncertainty option_map fst]. destruct training_metrics, metrics; reflexivity.
  - destruct vs as [v|]; [|exact A6]. clear - A6 DD. revert A6. generalize (validation_epochs (eval_every cfg) (length ms)) as es. intros es A6.
    induction A6 as [|e m es l Y A6 IH]; [constructor|]. constructor; [|exact IH]. revert Y. apply mean_rows_eq. apply map_ext. intros b. destruct (DD (S e) 0%nat) as (E1 & _).
    destruct (descend upd (step s) (before (S e) 0 bs) (proj P M G OS s)) as [[p o] mu]. cbn [fst] in E1. rewrite <- E1. reflexivity.
Qed.
