(** Proofs for DescModel.v: fits of MAP posteriors and calibration models. *)
From Coq Require Import List Arith ZArith QArith Bool String Lia.
From Verif Require Import Lib QuantModel PredModel LikModel CalibModel TrainModel TrainSpec TrainProofs TrainProofs2 TrainProofs3 TrainProofs4 DescModel DescSpec DescProofs.
Import ListNotations.
Open Scope list_scope.
Local Notation length := List.length.

Lemma mean_rows_eq : forall rows rows' m, rows = rows' -> is_mean_of rows m -> is_mean_of rows' m.
Proof. intros rows rows' m <-. trivial. Qed.

Section Run.
Variables P M X T O K G OS Pr Un : Type.
Variable predict : O -> Pr.
Variable fold_in : nat -> K.
Variable diff : (P -> Q) -> P -> G.
Hypothesis diff_ext : forall f g p, (forall q, f q = g q) -> diff f p = diff g p.
Variable gadd : G -> G -> G.
Variable gdiv : G -> nat -> G.
Variable zeros_like : G -> G.
Variable clip_by : Q -> G -> G.
Variable opt : G -> OS -> P -> P * OS.
Notation setting := (setting P M X T O K Pr Un).
Notation tst := (tstate P OS G (option M)).
Definition proj (s : tst) : P * OS * option M := (params s, opt_state s, mutable s).

(** a setting whose loss never raises on the states of [inv] *)
Lemma fit_ok : forall (inv : option M -> Prop) r h (c : setting) k norm objective outs change vobjective vouts monitor cfg bs vs (s : tst) s' ms mvs,
  run_kwargs r h = (k, norm) -> (k <= 1)%nat -> inv (mutable s) ->
  (forall p b m key, inv m -> training_loss_step P M X T O K (s_loss _ _ _ _ _ _ _ _ c) (s_n_train _ _ _ _ _ _ _ _ c) p b m key
     = Ok {| an_loss := objective key p m b; an_outputs := Some (outs key p m b); an_mutable := change key p m b |} /\ inv (change key p m b)) ->
  (forall p b m, inv m -> exists mu, validation_loss_step P M X T O K (s_loss _ _ _ _ _ _ _ _ c) (s_n_val _ _ _ _ _ _ _ _ c) p b m
     = Ok {| an_loss := vobjective p m b; an_outputs := Some (vouts p m b); an_mutable := mu |}) ->
  fit P M X T O K G OS Pr Un predict fold_in diff gadd gdiv zeros_like clip_by opt r h c monitor cfg bs vs s = Ok (s', ms, mvs) ->
  let upd := gradient_update diff (if Qlt_bool 0 norm then clip_by norm else fun g => g) opt fold_in objective change in
  let at_ := fun e i => descend upd (step s) (before e i bs) (proj s) in
  (length ms <= n_epochs cfg)%nat /\ (is_active (stop_config cfg) = false -> length ms = n_epochs cfg)
  /\ proj s' = at_ (length ms) 0%nat /\ step s' = (step s + length ms * length bs)%nat
  /\ (forall e, (e < length ms)%nat ->
        is_mean_of (map (fun ib => let '(p, _, m) := at_ e (fst ib) in let key := fold_in (step s + e * length bs + fst ib)%nat in
            objective key p m (snd ib) :: match (if s_training_metrics _ _ _ _ _ _ _ _ c then s_metrics _ _ _ _ _ _ _ _ c else None) with
              | Some fs => map (fun f => f (predict (outs key p m (snd ib))) (option_map (fun u => u (outs key p m (snd ib))) (s_uncertainty _ _ _ _ _ _ _ _ c)) (snd (snd ib))) fs
              | None => [] end) (combine (seq 0 (length bs)) bs)) (nth e ms []))
  /\ match vs with
     | None => mvs = []
     | Some v => Forall2 (fun e row => is_mean_of (map (fun b => let '(p, _, m) := at_ (S e) 0%nat in
            vobjective p m b :: match s_metrics _ _ _ _ _ _ _ _ c with
              | Some fs => map (fun f => f (predict (vouts p m b)) (option_map (fun u => u (vouts p m b)) (s_val_uncertainty _ _ _ _ _ _ _ _ c)) (snd b)) fs
              | None => [] end) v) row) (validation_epochs (eval_every cfg) (length ms)) mvs
     end.
Proof.
  intros inv r h c k norm objective outs change vobjective vouts monitor cfg bs vs s s' ms mvs RK K1 I HT HV RUN upd at_.
  unfold fit in RUN. rewrite RK in RUN.
  set (cfg' := {| accumulation := k; n_epochs := n_epochs cfg; eval_every := eval_every cfg; save_dir := save_dir cfg; save_every := save_every cfg; stop_config := stop_config cfg |}) in *.
  set (clip := if Qlt_bool 0 norm then clip_by norm else fun g => g) in *.
  set (tstep := fit_step _ _ _ _ _ _ _ _ _ _ _ _ _ _ _ _ _ _ _ _ _) in RUN.
  set (vstep := fit_validation _ _ _ _ _ _ _ _ _ _ _ _) in RUN.
  destruct (train _ tstep vstep _ _ _ monitor cfg' bs vs _ (Ok s)) as [[[[t1 s1] ms1] mvs1]|] eqn:E; [|discriminate].
  cbn [bind] in RUN. destruct s1 as [s2|]; [|discriminate]. cbn [bind] in RUN. injection RUN as Z1 Z2 Z3. subst s2 ms1 mvs1.
  set (Ust := fun (j : nat) (s : tst) (b : X * list T) => fst (training_step (fit_value_and_grad _ _ _ _ _ _ _ _ _ predict fold_in diff c) gadd gdiv zeros_like clip opt k s b j)).
  set (R := fun (s : tst) (b : X * list T) (j : nat) => snd (training_step (fit_value_and_grad _ _ _ _ _ _ _ _ _ predict fold_in diff c) gadd gdiv zeros_like clip opt k s b j)).
  set (inv' := fun s : tst => inv (mutable s)).
  assert (KK : (1 <? k)%nat = false) by (apply Nat.ltb_ge; exact K1).
  assert (PU : forall j s b, inv' s -> proj (Ust j s b) = upd j (proj s) b /\ inv' (Ust j s b)).
  { intros j x b Ix. unfold Ust, training_step, fit_value_and_grad, inv' in *. rewrite KK. destruct (HT (params x) b (mutable x) (fold_in j) Ix) as (EH & IH).
    rewrite EH. cbn [fst snd an_mutable apply_gradients mutable]. split; [|exact IH].
    unfold proj, upd, gradient_update, apply_gradients. cbn [params opt_state mutable].
    rewrite (diff_ext _ (fun q => objective (fold_in j) q (mutable x) b)).
    2:{ intros q. destruct (HT q b (mutable x) (fold_in j) Ix) as (EQ & _). rewrite EQ. reflexivity. }
    destruct (opt _ (opt_state x) (params x)); reflexivity. }
  assert (H : forall s b j, inv' s -> tstep (Ok s) b j = (Ok (Ust j s b), R s b j) /\ step (Ust j s b) = S (step s) /\ inv' (Ust j s b)).
  { intros x b j Ix. split; [|split].
    - unfold tstep, fit_step. destruct (HT (params x) b (mutable x) (fold_in j) Ix) as (EH & _). rewrite EH. reflexivity.
    - unfold Ust, training_step, fit_value_and_grad. rewrite KK. reflexivity.
    - now apply PU. }
  destruct (@train_ok tst (X * list T) (X * list T) (fun s => step s) inv' Ust R tstep H vstep monitor cfg' bs vs _ s _ _ ms mvs I K1 E) as (A1 & A2 & A3 & A4 & A5 & A6 & A7).
  assert (PJ : forall e i, proj (descend Ust (step s) (before e i bs) s) = at_ e i /\ inv' (descend Ust (step s) (before e i bs) s)).
  { intros e i. exact (descend_proj tst _ _ inv' Ust upd proj PU (before e i bs) (step s) s I). }
  injection A3 as A3. split; [exact A1|]. split; [exact A2|]. split; [rewrite A3; apply PJ|]. split; [rewrite A3; exact A4|]. split.
  - intros e He. specialize (A6 e He). revert A6. apply mean_rows_eq. apply map_ext. intros [i b]. cbn [fst snd].
    destruct (PJ e i) as (EP & IP). rewrite <- EP. set (x := descend Ust (step s) (before e i bs) s) in *. unfold proj, R, training_step, fit_value_and_grad.
    destruct (HT (params x) b (mutable x) (fold_in (step s + e * length bs + i)) IP) as (EH & _). rewrite EH. reflexivity.
  - destruct vs as [v|]; [|exact A7]. change (eval_every cfg') with (eval_every cfg) in A7. revert A7. generalize (validation_epochs (eval_every cfg) (length ms)) as es. intros es A7. clear E A1 A2 A3 A4 A5 A6.
    induction A7 as [|e m es l Y A7 IH]; [constructor|]. constructor; [|exact IH].
    revert Y. apply mean_rows_eq. apply map_ext. intros b. destruct (PJ (S e) 0%nat) as (EP & IP). rewrite <- EP.
    set (x := descend Ust (step s) (before (S e) 0 bs) s) in *. unfold proj, vstep, fit_validation.
    destruct (HV (params x) b (mutable x) IP) as (mu & EH). rewrite EH. reflexivity.
Qed.

(** ---- MAP ---- *)
Definition calibrated {C} (calibrator : option (bool -> option C -> O -> O * C)) (calib_mutable : option (option C)) (o : O) : O :=
  match calibrator with
  | None => o
  | Some f => fst (f false (match calib_mutable with Some c => c | None => None end) o)
  end.
Lemma map_training : forall C net log_prior (calibrator : option (bool -> option C -> O -> O * C)) calib_mutable log_prob n p (b : X * list T) (m : option M) (key : K),
  training_loss_step P M X T O K (map_loss P M X T O K net log_prior calibrator calib_mutable log_prob) n p b m key
  = Ok {| an_loss := (- (qsum (log_prob (calibrated calibrator calib_mutable (fst (net p (Some key) true m (fst b)))) (snd b))
              * (inject_Z (Z.of_nat n) / inject_Z (Z.of_nat (length (snd b)))) + log_prior p))%Q;
          an_outputs := Some (calibrated calibrator calib_mutable (fst (net p (Some key) true m (fst b))));
          an_mutable := match m with Some _ => Some (snd (net p (Some key) true m (fst b))) | None => None end |}.
Proof.
  intros C net log_prior calibrator calib_mutable log_prob n p [x ys] m key. destruct m as [m|], calibrator as [f|], calib_mutable as [[c|]|]; reflexivity.
Qed.
Lemma map_validation : forall C net log_prior (calibrator : option (bool -> option C -> O -> O * C)) calib_mutable log_prob n p (b : X * list T) (m : option M),
  validation_loss_step P M X T O K (map_loss P M X T O K net log_prior calibrator calib_mutable log_prob) n p b m
  = Ok {| an_loss := (- (qsum (log_prob (calibrated calibrator calib_mutable (fst (net p None false m (fst b)))) (snd b))
              * (inject_Z (Z.of_nat n) / inject_Z (Z.of_nat (length (snd b)))) + log_prior p))%Q;
          an_outputs := Some (calibrated calibrator calib_mutable (fst (net p None false m (fst b))));
          an_mutable := None |}.
Proof.
  intros C net log_prior calibrator calib_mutable log_prob n p [x ys] m. destruct m as [m|], calibrator as [f|], calib_mutable as [[c|]|]; reflexivity.
Qed.
(** ---- calibration models ---- *)
Lemma cm_training : forall net loss_fn n p (b : X * list T) (key : K),
  training_loss_step P M X T O K (calib_model_loss P M X T O K net loss_fn) n p b None key
  = Ok {| an_loss := loss_fn (fst (net p (Some key) true None (fst b))) (snd b);
          an_outputs := Some (fst (net p (Some key) true None (fst b))); an_mutable := None |}.
Proof. intros net loss_fn n p [x ys] key. reflexivity. Qed.
Lemma cm_validation : forall net loss_fn n p (b : X * list T),
  validation_loss_step P M X T O K (calib_model_loss P M X T O K net loss_fn) n p b None
  = Ok {| an_loss := loss_fn (fst (net p None false None (fst b))) (snd b);
          an_outputs := Some (fst (net p None false None (fst b))); an_mutable := None |}.
Proof. intros net loss_fn n p [x ys]. reflexivity. Qed.
Lemma cm_training_mutable : forall net loss_fn n p (b : X * list T) m (key : K),
  training_loss_step P M X T O K (calib_model_loss P M X T O K net loss_fn) n p b (Some m) key = Err TypeError.
Proof. intros net loss_fn n p [x ys] m key. reflexivity. Qed.
End Run.
