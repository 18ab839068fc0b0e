(** Proofs for FlowModel.v: whole fits. *)
From Coq Require Import List Arith ZArith QArith Qfield Bool String Lia.
From Verif Require Import Lib NestedModel NestedSpec FlatModel FlatSpec FlatProofs QuantModel PredModel LikModel CalibModel TrainModel TrainSpec TrainProofs4 DescModel DescSpec DescProofs DescProofs2 CalRunProofs2 FlowModel FlowSpec FlowProofs.
Import ListNotations.
Open Scope list_scope.
Local Notation length := List.length.

Lemma flow_fit : forall (P M X T O K G OS Pr Un C : Type) (ex : Q -> Q) (split : K -> K * K) (normal : K -> nat -> nat -> list (list Q)) (predict : O -> Pr) (fold_in : nat -> K)
    (diff : (flow -> Q) -> flow -> G) gadd gdiv zeros_like clip_by (opt : G -> OS -> flow -> flow * OS) lb d n_samples (unravel : list Q -> P) run_key
    (net : P -> option K -> bool -> option M -> X -> O * M) (log_prior : P -> Q)
    (calibrator : option (bool -> option C -> O -> O * C)) calib_mutable (log_prob : O -> list T -> list Q) n_train n_val
    (metrics : option (list (Pr -> option Un -> list T -> Q))) training_metrics h monitor cfg bs vs (s s' : tstate flow OS G (option M)) ms mvs,
  (forall f g p, (forall q, f q = g q) -> diff f p = diff g p) -> (forall a, h_accumulation h = Some a -> (a <= 1)%nat) ->
  (forall key, length (normal key n_samples d) = n_samples) ->
  advi_run M X T O K G OS Pr Un predict fold_in diff gadd gdiv zeros_like clip_by opt h
    (flow_setting P M X T O K Pr Un ex split normal lb d n_samples unravel run_key net log_prior calibrator calib_mutable log_prob n_train n_val metrics training_metrics) monitor cfg bs vs s = Ok (s', ms, mvs) ->
  let draws := fun key f => map (fun z => unravel (placed ex lb (fl_mean f) (fl_log_std f) z)) (normal (snd (split (snd (split key)))) n_samples d) in
  let outputs := fun key train p m x => let o := fst (net p (Some key) train m x) in
    match calibrator with None => o | Some f => fst (f false (match calib_mutable with Some c => c | None => None end) o) end in
  let negative_log_joint := fun n o (ys : list T) p => (- (total_of (log_prob o ys) * (inject_Z (Z.of_nat n) / inject_Z (Z.of_nat (length ys))) + log_prior p))%Q in
  let objective := fun n train key f m (b : X * list T) =>
    (average_of (map (fun p => negative_log_joint n (outputs (fst (split key)) train p m (fst b)) (snd b) p) (draws key f)) - average_of (map (fun _ => total_of (fl_log_std f)) (draws key f)))%Q in
  let measured := fun train key f m (b : X * list T) fs => map (fun g : Pr -> option Un -> list T -> Q =>
    average_of (map (fun p => g (predict (outputs (fst (split key)) train p m (fst b))) None (snd b)) (draws key f))) fs in
  let clip := fun g => match h_norm h with Some b => if Qlt_le_dec 0 b then clip_by b g else g | None => g end in
  let update := gradient_update diff clip opt fold_in (objective n_train true)
    (fun key f m b => match m with
                      | Some _ => option_map (fun p => snd (net p (Some (fst (split key))) true m (fst b))) (nth_error (draws key f) (n_samples - 1))
                      | None => None end) in
  let at_ := fun e i => descend update (step s) (before e i bs) (params s, opt_state s, mutable s) in
  (length ms <= n_epochs cfg)%nat /\ (is_active (stop_config cfg) = false -> length ms = n_epochs cfg)
  /\ (params s', opt_state s', mutable s') = at_ (length ms) 0%nat /\ step s' = (step s + length ms * length bs)%nat
  /\ (forall e, (e < length ms)%nat ->
        is_mean_of (map (fun ib => let '(f, _, m) := at_ e (fst ib) in let key := fold_in (step s + e * length bs + fst ib)%nat in
            objective n_train true key f m (snd ib) :: match metrics with Some fs => if training_metrics then measured true key f m (snd ib) fs else [] | None => [] end)
          (combine (seq 0 (length bs)) bs)) (nth e ms []))
  /\ match vs with
     | None => mvs = []
     | Some v => Forall2 (fun e row => is_mean_of (map (fun b => let '(f, _, m) := at_ (S e) 0%nat in
            objective n_val false run_key f m b :: match metrics with Some fs => measured false run_key f m b fs | None => [] end) v) row)
          (validation_epochs (eval_every cfg) (length ms)) mvs
     end.
Proof.
  intros P M X T O K G OS Pr Un C ex split normal predict fold_in diff gadd gdiv zeros_like clip_by opt lb d n_samples unravel run_key net log_prior calibrator calib_mutable log_prob n_train n_val metrics training_metrics h monitor cfg bs vs s s' ms mvs
    DE HA HN RUN dr outs negative_log_joint obj measured clip update at_.
  set (k := or_zero 0%nat (h_accumulation h)). set (norm := or_zero 0%Q (h_norm h)).
  assert (RK : run_kwargs FitMAP h = (k, norm)) by reflexivity.
  assert (K1 : (k <= 1)%nat) by (unfold k; destruct (h_accumulation h) as [a|] eqn:E; cbn; [apply HA; reflexivity|lia]).
  unfold advi_run in RUN.
  pose proof (fit_ok flow M X T (list O) K G OS (list Pr) Un (map predict) fold_in diff DE gadd gdiv zeros_like clip_by opt (fun _ => True) FitMAP h
    (flow_setting P M X T O K Pr Un ex split normal lb d n_samples unravel run_key net log_prior calibrator calib_mutable log_prob n_train n_val metrics training_metrics) k norm
    (obj n_train true) (fun key f m b => map (fun p => outs (fst (split key)) true p m (fst b)) (dr key f))
    (change P M X T O K ex split normal net unravel lb d n_samples)
    (fun f m b => obj n_val false run_key f m b) (fun f m b => map (fun p => outs (fst (split run_key)) false p m (fst b)) (dr run_key f))
    monitor cfg bs vs s s' ms mvs RK K1 I) as Z.
  specialize (Z ltac:(intros f b m key _; split; [|exact I];
    destruct (loss_ok P M X T O K ex split normal C net log_prior calibrator calib_mutable log_prob unravel lb d n_samples n_train true run_key f b m (Some key) HN) as (mu & E); exact E)).
  assert (HV : forall (f : flow) (b : X * list T) (m : option M), True -> exists mu,
    validation_loss_step flow M X T (list O) K (flow_loss P M X T O K ex split normal lb d n_samples unravel (map_loss P M X T O K net log_prior calibrator calib_mutable log_prob) run_key) n_val f b m
    = Ok {| an_loss := obj n_val false run_key f m b; an_outputs := Some (map (fun p => outs (fst (split run_key)) false p m (fst b)) (dr run_key f)); an_mutable := mu |}).
  { intros f b m _.
    destruct (loss_ok P M X T O K ex split normal C net log_prior calibrator calib_mutable log_prob unravel lb d n_samples n_val false run_key f b m None HN) as (mu & E).
    exists mu. destruct m; exact E. }
  specialize (Z HV RUN). cbv zeta in Z.
  assert (CE : forall g, (if Qlt_bool 0 norm then clip_by norm else fun g => g) g = clip g).
  { intros g. unfold clip, norm. destruct (h_norm h) as [b|]; cbn [or_zero]; [|reflexivity]. unfold Qlt_bool.
    destruct (Qlt_le_dec 0 b) as [L|L]; destruct (Qle_bool b 0) eqn:E; cbn [negb]; try reflexivity.
    - apply Qle_bool_iff in E. exfalso. apply (Qlt_not_le _ _ L E).
    - exfalso. assert (Qle_bool b 0 = true) by (apply Qle_bool_iff; exact L). congruence. }
  set (upd := gradient_update _ _ _ _ _ _) in Z.
  assert (UE : forall j x b, upd j x b = update j x b).
  { intros j [[p o] m] b. unfold upd, update, gradient_update. rewrite CE. reflexivity. }
  assert (DD : forall e i, descend upd (step s) (before e i bs) (proj flow M G OS s) = at_ e i).
  { intros e i. unfold at_, proj. exact (proj1 (descend_proj _ _ _ (fun _ => True) _ update (fun x => x) (fun j x b _ => conj (UE j x b) I) (before e i bs) (step s) _ I)). }
  assert (MT : forall fs (os : list O) (ys : list T), map (fun f => f (map predict os) (option_map (fun u : list O -> Un => u os) None) ys) (map (flow_metric T Pr Un) fs)
    = map (fun g => average_of (map (fun o => g (predict o) None ys) os)) fs).
  { intros fs os ys. rewrite map_map. apply map_ext. intros g. unfold flow_metric, mean_Q, average_of. rewrite map_map, !map_length. reflexivity. }
  destruct Z as (A1 & A2 & A3 & A4 & A5 & A6).
  split; [exact A1|]. split; [exact A2|]. split; [rewrite DD in A3; exact A3|]. split; [exact A4|]. split.
  - intros e He. specialize (A5 e He). revert A5. apply mean_rows_eq. apply map_ext. intros [i b]. rewrite DD.
    cbn [fst snd flow_setting s_training_metrics s_metrics s_uncertainty]. destruct (at_ e i) as [[p o] m]. f_equal. unfold measured.
    destruct training_metrics, metrics as [fs|]; cbn [option_map]; try reflexivity. rewrite MT. apply map_ext. intros g. rewrite map_map. reflexivity.
  - destruct vs as [v|]; [|exact A6]. clear - A6 DD MT. revert A6. generalize (validation_epochs (eval_every cfg) (length ms)) as es. intros es A6.
    induction A6 as [|e m es l Y A6 IH]; [constructor|]. constructor; [|exact IH]. revert Y. apply mean_rows_eq. apply map_ext. intros b. rewrite DD.
    cbn [flow_setting s_metrics s_val_uncertainty]. destruct (at_ (S e) 0%nat) as [[p o] mu]. f_equal. unfold measured.
    destruct metrics as [fs|]; cbn [option_map]; [|reflexivity]. rewrite MT. apply map_ext. intros g. rewrite map_map. reflexivity.
Qed.

Lemma average_const : forall A (l : list A) c, l <> [] -> (average_of (map (fun _ => c) l) == c)%Q.
Proof.
  intros A l c NE. unfold average_of. rewrite map_length.
  assert (S : (total_of (map (fun _ => c) l) == c * inject_Z (Z.of_nat (length l)))%Q).
  { clear NE. induction l as [|a l IH]; [cbn; ring|]. cbn [map length]. unfold total_of in *. cbn [fold_right]. rewrite IH, Nat2Z.inj_succ, <- Z.add_1_l, inject_Z_plus. ring. }
  rewrite S. field. destruct l; [congruence|]. cbn [length]. unfold Qeq. cbn. lia.
Qed.
