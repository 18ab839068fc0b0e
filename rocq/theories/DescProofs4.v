(** Fits that succeed, fits that fail, and hyperparameters without effect. *)
From Coq Require Import List Arith ZArith QArith Qabs Bool String Lia.
From Verif Require Import Lib QuantModel PredModel LikModel CalibModel TrainModel TrainSpec TrainProofs TrainProofs2 TrainProofs3 TrainProofs4 DescModel DescSpec DescProofs DescProofs2.
Import ListNotations.
Open Scope list_scope.
Local Notation length := List.length.

Lemma some_epoch : forall St B V stp tstep (vstep : St -> V -> list Q) f1 f2 f3 monitor c (bs : list B) vs t s t' s' ms mvs,
  train stp tstep vstep f1 f2 f3 monitor c bs vs t s = Ok (t', s', ms, mvs) -> (0 < n_epochs c)%nat -> exists n, length ms = S n.
Proof.
  intros St B V stp tstep vstep f1 f2 f3 monitor c bs vs t s t' s' ms mvs H N. unfold train in H. destruct (n_epochs c) as [|n]; [lia|].
  cbn [epochs_loop] in H. destruct (training_loop _ _ _ _ _ _ _ c bs t s) as [[[t1 s1] m]|e]; cbn [bind] in H; [|discriminate H].
  destruct vs as [v|]; [destruct (should_validate _ c (Some v) 0)|].
  - destruct (validation_loop _ _ _ _ c v t1 s1) as [[t2 mv]|e]; cbn [bind] in H; [|discriminate H].
    destruct (is_active (stop_config c) && should_stop (es t2)).
    + cbn [bind] in H. injection H as _ _ E _. subst ms. exists 0%nat. reflexivity.
    + destruct (epochs_loop _ _ _ _ _ _ _ _ _ _ c bs (Some v) n 1 t2 s1) as [[[[t3 s3] ms0] mvs0]|e]; cbn [bind] in H; [|discriminate H].
      injection H as _ _ E _. subst ms. exists (length ms0). reflexivity.
  - destruct (epochs_loop _ _ _ _ _ _ _ _ _ _ c bs (Some v) n 1 t1 s1) as [[[[t3 s3] ms0] mvs0]|e]; cbn [bind] in H; [|discriminate H].
    injection H as _ _ E _. subst ms. exists (length ms0). reflexivity.
  - destruct (epochs_loop _ _ _ _ _ _ _ _ _ _ c bs None n 1 t1 s1) as [[[[t3 s3] ms0] mvs0]|e]; cbn [bind] in H; [|discriminate H].
    injection H as _ _ E _. subst ms. exists (length ms0). reflexivity.
Qed.

Section Ends.
Variables P M X T O K G OS Pr Un : Type.
Variable predict : O -> Pr.
Variable fold_in : nat -> K.
Variable diff : (P -> Q) -> P -> G.
Variable gadd : G -> G -> G.
Variable gdiv : G -> nat -> G.
Variable zeros_like : G -> G.
Variable clip_by : Q -> G -> G.
Variable opt : G -> OS -> P -> P * OS.
Notation fit := (fit P M X T O K G OS Pr Un predict fold_in diff gadd gdiv zeros_like clip_by opt).
Notation fit_step := (fit_step P M X T O K G OS Pr Un predict fold_in diff gadd gdiv zeros_like clip_by opt).

Lemma fold_sticks : forall (c : setting P M X T O K Pr Un) k norm stp bs e,
  fold_left (fun s b => fst (fit_step c k norm s b (stp s))) bs (Err e) = Err e.
Proof. intros c k norm stp bs e. induction bs as [|b r IH]; [reflexivity|exact IH]. Qed.

Theorem mutable_fails : forall (net : P -> option K -> bool -> option M -> X -> O * M) loss_fn n_train n_val metrics training_metrics uncertainty_fn default
    h monitor cfg (bs : list (X * list T)) vs (s : tstate P OS G (option M)) m,
  mutable s = Some m -> bs <> [] -> (0 < n_epochs cfg)%nat ->
  let run := fit CalibrateModel h (calib_setting P M X T O K Pr Un net loss_fn n_train n_val metrics training_metrics uncertainty_fn default) monitor cfg bs vs s in
  (forall r, run <> Ok r) /\
  (is_active (stop_config cfg) = false -> (forall v, vs = Some v -> v <> []) -> run = Err TypeError).
Proof.
  intros net loss_fn n_train n_val metrics training_metrics uncertainty_fn default h monitor cfg bs vs s m MS NB NE run.
  unfold run, DescModel.fit, run_kwargs.
  set (c := calib_setting P M X T O K Pr Un net loss_fn n_train n_val metrics training_metrics uncertainty_fn default).
  set (cfg' := {| accumulation := 0; n_epochs := n_epochs cfg; eval_every := eval_every cfg; save_dir := save_dir cfg; save_every := save_every cfg; stop_config := stop_config cfg |}).
  set (t0 := {| es := stopping0; gstep := 0; saved := [] |}).
  set (stp := fun s : result (tstate P OS G (option M)) => match s with Ok s => step s | Err _ => 0%nat end).
  set (vstep := fit_validation _ _ _ _ _ _ _ _ _ _ _ c).
  assert (EP : forall n, times (S n) (one_epoch stp (fit_step c 0 0) (fun s => s) (fun s => s) (fun s => s) bs) (Ok s) = Err TypeError).
  { intros n. induction n as [|n IH].
    - destruct bs as [|b r]; [contradiction|]. cbn [times]. unfold one_epoch. cbn [fold_left]. unfold DescModel.fit_step at 2. rewrite MS.
      unfold c at 2. cbn [calib_setting s_loss]. rewrite cm_training_mutable. cbn [fst]. apply fold_sticks.
    - rewrite times_succ, IH. unfold one_epoch. apply fold_sticks. }
  assert (FA : forall t' s' ms mvs, train stp (fit_step c 0 0) vstep (fun s => s) (fun s => s) (fun s => s) monitor cfg' bs vs t0 (Ok s) = Ok (t', s', ms, mvs) -> s' = Err TypeError).
  { intros t' s' ms mvs TR. destruct (some_epoch _ _ _ _ _ _ _ _ _ _ _ _ _ _ _ _ _ _ _ TR NE) as (n & L).
    destruct (@train_runs_epochs _ _ _ stp (fit_step c 0 0) vstep (fun s => s) (fun s => s) (fun s => s) monitor cfg' bs vs t0 (Ok s) t' s' ms mvs TR (Nat.le_0_l _) (fun x => eq_refl)) as (_ & _ & A3 & _).
    rewrite A3, L. apply EP. }
  split.
  - intros r E. destruct (train stp (fit_step c 0 0) vstep (fun s => s) (fun s => s) (fun s => s) monitor cfg' bs vs t0 (Ok s)) as [[[[t' s'] ms] mvs]|e] eqn:TR; cbn [bind] in E; [|discriminate E].
    rewrite (FA _ _ _ _ eq_refl) in E. discriminate E.
  - intros NA NV. destruct (@train_succeeds _ _ _ stp (fit_step c 0 0) vstep (fun s => s) (fun s => s) (fun s => s) monitor cfg' bs vs t0 (Ok s) NB (Nat.le_0_l _) NV) as ([[[t' s'] ms] mvs] & TR).
    { cbn [stop_config cfg']. rewrite NA. discriminate. }
    rewrite TR. cbn [bind]. rewrite (FA _ _ _ _ TR). reflexivity.
Qed.

Theorem ignored_hyperparameters : forall r h h' (c : setting P M X T O K Pr Un) monitor cfg bs vs s,
  r = CalibrateModel \/ r = FitSWAG -> fit r h c monitor cfg bs vs s = fit r h' c monitor cfg bs vs s.
Proof. intros r h h' c monitor cfg bs vs s [E|E]; subst r; reflexivity. Qed.

Lemma fit_total : forall (inv : option M -> Prop) r h (c : setting P M X T O K Pr Un) monitor cfg bs vs (s : tstate P OS G (option M)),
  inv (mutable s) ->
  (forall p b m key, inv m -> exists a, training_loss_step P M X T O K (s_loss _ _ _ _ _ _ _ _ c) (s_n_train _ _ _ _ _ _ _ _ c) p b m key = Ok a /\ inv (an_mutable _ _ a)) ->
  (fst (run_kwargs r h) <= length bs)%nat -> bs <> [] -> (forall v, vs = Some v -> v <> []) -> (is_active (stop_config cfg) = true -> forall row, monitor row <> None) ->
  exists res, fit r h c monitor cfg bs vs s = Ok res.
Proof.
  intros inv r h c monitor cfg bs vs s I HL KL NB NV NM. unfold DescModel.fit. destruct (run_kwargs r h) as [k norm]. cbn [fst] in KL.
  set (cfg' := {| accumulation := k; n_epochs := n_epochs cfg; eval_every := eval_every cfg; save_dir := save_dir cfg; save_every := save_every cfg; stop_config := stop_config cfg |}).
  set (t0 := {| es := stopping0; gstep := 0; saved := [] |}).
  set (stp := fun s : result (tstate P OS G (option M)) => match s with Ok s => step s | Err _ => 0%nat end).
  set (vstep := fit_validation _ _ _ _ _ _ _ _ _ _ _ c).
  destruct (@train_succeeds _ _ _ stp (fit_step c k norm) vstep (fun s => s) (fun s => s) (fun s => s) monitor cfg' bs vs t0 (Ok s) NB KL NV NM) as ([[[t' s'] ms] mvs] & TR).
  rewrite TR. cbn [bind]. enough (Z : exists s2, s' = Ok s2) by (destruct Z as (s2 & ->); eexists; reflexivity).
  assert (ST : forall x b key, inv (mutable x) -> exists y, fst (fit_step c k norm (Ok x) b key) = Ok y /\ inv (mutable y)).
  { intros x b key Ix. unfold DescModel.fit_step. destruct (HL (params x) b (mutable x) (fold_in key) Ix) as (a & E & Ia). rewrite E. cbn [fst]. eexists. split; [reflexivity|].
    unfold training_step, fit_value_and_grad. rewrite E. destruct (1 <? k)%nat; cbn [fst]; [unfold update_with_accumulation; destruct (_ =? 0)%nat|]; exact Ia. }
  assert (BL : forall bs i key t x l, inv (mutable x) -> exists t1 y l1, batches_loop _ _ stp (fit_step c k norm) (fun s => s) cfg' bs i key t (Ok x) l = (t1, Ok y, l1) /\ inv (mutable y)).
  { clear TR NB KL. intros bs0. induction bs0 as [|b rest IH]; intros i key t x l Ix; cbn [batches_loop]; [do 3 eexists; split; [reflexivity|exact Ix]|].
    destruct (ST x b key Ix) as (y & Ey & Iy). destruct (fit_step c k norm (Ok x) b key) as [s1 m]. cbn [fst] in Ey. subst s1.
    destruct (_ && _); [apply IH, Iy|]. unfold step_end. apply IH, Iy. }
  assert (TL : forall t x t1 s1 m, inv (mutable x) -> training_loop _ _ stp (fit_step c k norm) (fun s => s) (fun s => s) (fun s => s) cfg' bs t (Ok x) = Ok (t1, s1, m) -> exists y, s1 = Ok y /\ inv (mutable y)).
  { intros t x t1 s1 m Ix E. unfold training_loop in E. destruct (BL bs 0%nat (stp (Ok x)) t x [] Ix) as (t2 & y & l1 & E2 & Iy). rewrite E2 in E.
    destruct (mean_metrics l1); cbn [bind] in E; [|discriminate E]. injection E as _ <- _. exists y. split; [reflexivity|exact Iy]. }
  assert (EL : forall n e t x t1 s1 l1 l2, inv (mutable x) -> epochs_loop _ _ _ stp (fit_step c k norm) vstep (fun s => s) (fun s => s) (fun s => s) monitor cfg' bs vs n e t (Ok x) = Ok (t1, s1, l1, l2) -> exists y, s1 = Ok y).
  { clear TR. intros n. induction n as [|n IH]; intros e t x t1 s1 l1 l2 Ix E; cbn [epochs_loop] in E; [injection E as _ <- _ _; eexists; reflexivity|].
    destruct (training_loop _ _ _ _ _ _ _ cfg' bs t (Ok x)) as [[[t2 s2] m]|err] eqn:E2; cbn [bind] in E; [|discriminate E].
    destruct (TL _ _ _ _ _ Ix E2) as (y & -> & Iy).
    destruct vs as [v|]; [destruct (should_validate _ cfg' (Some v) e)|].
    - destruct (validation_loop _ _ _ _ cfg' v t2 (Ok y)) as [[t3 mv]|err]; cbn [bind] in E; [|discriminate E].
      destruct (_ && _); [injection E as _ <- _ _; eexists; reflexivity|].
      destruct (epochs_loop _ _ _ _ _ _ _ _ _ _ cfg' bs (Some v) n (S e) t3 (Ok y)) as [[[[t4 s4] l3] l4]|err] eqn:E4; cbn [bind] in E; [|discriminate E].
      injection E as _ <- _ _. exact (IH _ _ _ _ _ _ _ Iy E4).
    - destruct (epochs_loop _ _ _ _ _ _ _ _ _ _ cfg' bs (Some v) n (S e) t2 (Ok y)) as [[[[t4 s4] l3] l4]|err] eqn:E4; cbn [bind] in E; [|discriminate E].
      injection E as _ <- _ _. exact (IH _ _ _ _ _ _ _ Iy E4).
    - destruct (epochs_loop _ _ _ _ _ _ _ _ _ _ cfg' bs None n (S e) t2 (Ok y)) as [[[[t4 s4] l3] l4]|err] eqn:E4; cbn [bind] in E; [|discriminate E].
      injection E as _ <- _ _. exact (IH _ _ _ _ _ _ _ Iy E4). }
  unfold train in TR. destruct (epochs_loop _ _ _ _ _ _ _ _ _ _ cfg' bs vs (n_epochs cfg') 0 t0 (Ok s)) as [[[[t4 s4] l3] l4]|err] eqn:E4; cbn [bind] in TR; [|discriminate TR].
  injection TR as _ <- _ _. exact (EL _ _ _ _ _ _ _ _ I E4).
Qed.

Theorem fits_succeed : forall C (net : P -> option K -> bool -> option M -> X -> O * M) log_prior (calibrator : option (bool -> option C -> O -> O * C)) calib_mutable log_prob loss_fn n_train n_val metrics training_metrics uncertainty_fn default
    h monitor cfg (bs : list (X * list T)) vs (s : tstate P OS G (option M)),
  bs <> [] -> (forall v, vs = Some v -> v <> []) -> (is_active (stop_config cfg) = true -> forall row, monitor row <> None) ->
  (forall r, r = FitMAP \/ r = FitMember -> (forall a, h_accumulation h = Some a -> (a <= length bs)%nat) ->
     exists res, fit r h (map_setting P M X T O K Pr Un net log_prior calibrator calib_mutable log_prob n_train n_val metrics training_metrics) monitor cfg bs vs s = Ok res)
  /\ (mutable s = None -> exists res, fit CalibrateModel h (calib_setting P M X T O K Pr Un net loss_fn n_train n_val metrics training_metrics uncertainty_fn default) monitor cfg bs vs s = Ok res).
Proof.
  intros C net log_prior calibrator calib_mutable log_prob loss_fn n_train n_val metrics training_metrics uncertainty_fn default h monitor cfg bs vs s NB NV NM. split.
  - intros r RR HA. apply (fit_total (fun _ => True)); try assumption; try exact I.
    + intros p b m key _. eexists. split; [apply map_training|exact I].
    + destruct RR; subst r; cbn [run_kwargs fst]; destruct (h_accumulation h) as [a|] eqn:EA; cbn [or_zero]; solve [apply HA; reflexivity|lia].
  - intros MN. apply (fit_total (fun m => m = None)); try assumption.
    + intros p b m key E. cbv beta in E. subst m. eexists. split; [apply cm_training|reflexivity].
    + cbn. lia.
Qed.
End Ends.
