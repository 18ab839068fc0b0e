(** Whole fits of stochastic gradient samplers: trajectory, reports and kept samples. *)
From Coq Require Import List Arith ZArith QArith Bool String Lia Sorted.
From Verif Require Import Lib QuantModel PredModel LikModel CalibModel TrainModel TrainSpec TrainProofs TrainProofs2 TrainProofs3 TrainProofs4 McmcModel McmcSpec McmcProofs DescModel DescSpec DescProofs DescProofs2 DescProofs3 SwagProofs SwagProofs3 ChainModel ChainSpec ChainProofs.
Import ListNotations.
Open Scope list_scope.
Local Notation length := List.length.

Section Loss.
Variables P M X T O K : Type.
Lemma chain_training : forall C net log_prior (calibrator : option (bool -> option C -> O -> O * C)) calib_mutable log_prob n p (b : X * list T) (m : option M) (key : K),
  training_loss_step P M X T O K (chain_loss P M X T O K net log_prior calibrator calib_mutable log_prob) n p b m key
  = Ok {| an_loss := (qsum (log_prob (calibrated O calibrator calib_mutable (fst (net p (Some key) true m (fst b)))) (snd b))
              * (inject_Z (Z.of_nat n) / inject_Z (Z.of_nat (length (snd b)))) + log_prior p)%Q;
          an_outputs := Some (calibrated O calibrator calib_mutable (fst (net p (Some key) true m (fst b))));
          an_mutable := match m with Some _ => Some (snd (net p (Some key) true m (fst b))) | None => None end |}.
Proof. intros C net log_prior calibrator calib_mutable log_prob n p [x ys] m key. destruct m as [m|], calibrator as [f|], calib_mutable as [[c|]|]; reflexivity. Qed.
Lemma chain_validation : forall C net log_prior (calibrator : option (bool -> option C -> O -> O * C)) calib_mutable log_prob n p (b : X * list T) (m : option M),
  validation_loss_step P M X T O K (chain_loss P M X T O K net log_prior calibrator calib_mutable log_prob) n p b m
  = Ok {| an_loss := (qsum (log_prob (calibrated O calibrator calib_mutable (fst (net p None false m (fst b)))) (snd b))
              * (inject_Z (Z.of_nat n) / inject_Z (Z.of_nat (length (snd b)))) + log_prior p)%Q;
          an_outputs := Some (calibrated O calibrator calib_mutable (fst (net p None false m (fst b))));
          an_mutable := None |}.
Proof. intros C net log_prior calibrator calib_mutable log_prob n p [x ys] m. destruct m as [m|], calibrator as [f|], calib_mutable as [[c|]|]; reflexivity. Qed.
End Loss.

Lemma firstn_passes {B} (bs : list B) : forall n e i, (e < n)%nat -> (i <= length bs)%nat -> firstn (e * length bs + i) (passes n bs) = before e i bs.
Proof.
  induction n as [|n IH]; intros e i He Hi; [lia|]. change (passes (S n) bs) with (bs ++ passes n bs). destruct e as [|e].
  - cbn [Nat.mul Nat.add]. rewrite firstn_app. replace (i - length bs)%nat with 0%nat by lia. cbn [firstn]. rewrite app_nil_r. reflexivity.
  - replace (S e * length bs + i)%nat with (length bs + (e * length bs + i))%nat by lia. rewrite firstn_app_2. rewrite IH by lia. unfold before. change (passes (S e) bs) with (bs ++ passes e bs). now rewrite app_assoc.
Qed.

(** everything but the kept samples, for any callback *)
Lemma run_spec : forall (P M X T O K G OS Pr Un C : Type) (predict : O -> Pr) (fold_in : nat -> K) (diff : (P -> Q) -> P -> G)
    gadd gdiv zeros_like clip_by (opt : G -> OS -> P -> P * OS) (net : P -> option K -> bool -> option M -> X -> O * M) (log_prior : P -> Q)
    (calibrator : option (bool -> option C -> O -> O * C)) calib_mutable (log_prob : O -> list T -> list Q) n_train n_val
    (metrics : option (list (Pr -> option Un -> list T -> Q))) training_metrics do n monitor cfg bs vs (s s' : tstate P OS G (option M)) kept ms mvs,
  (forall f g p, (forall q, f q = g q) -> diff f p = diff g p) ->
  chain_run P M X T O K G OS Pr Un predict fold_in diff gadd gdiv zeros_like clip_by opt do n
    (chain_setting P M X T O K Pr Un net log_prior calibrator calib_mutable log_prob n_train n_val metrics training_metrics) monitor cfg bs vs s = Ok (s', kept, ms, mvs) ->
  let outputs := fun key train p m x => let o := fst (net p key train m x) in
    match calibrator with None => o | Some f => fst (f false (match calib_mutable with Some c => c | None => None end) o) end in
  let log_joint := fun n o (ys : list T) p => (total_of (log_prob o ys) * (inject_Z (Z.of_nat n) / inject_Z (Z.of_nat (length ys))) + log_prior p)%Q in
  let update := gradient_update diff (fun g => g) opt fold_in
    (fun key p m (b : X * list T) => log_joint n_train (outputs (Some key) true p m (fst b)) (snd b) p)
    (fun key p m b => match m with Some _ => Some (snd (net p (Some key) true m (fst b))) | None => None end) in
  let at_ := after update (step s) (length ms) bs (params s, opt_state s, mutable s) in
  (length ms <= n_epochs cfg)%nat /\ (is_active (stop_config cfg) = false -> length ms = n_epochs cfg)
  /\ (params s', opt_state s', mutable s') = at_ (length ms * length bs)%nat /\ step s' = (step s + length ms * length bs)%nat
  /\ (forall e, (e < length ms)%nat ->
        is_mean_of (map (fun ib => let '(p, _, m) := at_ (e * length bs + fst ib)%nat in
            let o := outputs (Some (fold_in (step s + e * length bs + fst ib)%nat)) true p m (fst (snd ib)) in let ys := snd (snd ib) in
            log_joint n_train o ys p :: match metrics with Some fs => if training_metrics then map (fun f => f (predict o) None ys) fs else [] | None => [] end)
          (combine (seq 0 (length bs)) bs)) (nth e ms []))
  /\ match vs with
     | None => mvs = []
     | Some v => Forall2 (fun e row => is_mean_of (map (fun b => let '(p, _, m) := at_ (S e * length bs)%nat in
            let o := outputs None false p m (fst b) in
            log_joint n_val o (snd b) p :: match metrics with Some fs => map (fun f => f (predict o) None (snd b)) fs | None => [] end) v) row)
          (validation_epochs (eval_every cfg) (length ms)) mvs
     end
  /\ make_callback do n (n_epochs cfg) (length bs) = Ok do
  /\ exists states, sampling_run do 0 0 states = Ok kept /\ length states = (length ms * length bs)%nat
     /\ forall k, (k < length ms * length bs)%nat -> exists st, nth_error states k = Some st /\ (params st, opt_state st, mutable st) = at_ (S k) /\ step st = (step s + S k)%nat.
Proof.
  intros P M X T O K G OS Pr Un C predict fold_in diff gadd gdiv zeros_like clip_by opt net log_prior calibrator calib_mutable log_prob n_train n_val metrics training_metrics do n monitor cfg bs vs s s' kept ms mvs
    DE RUN outputs log_joint update at_.
  set (c := chain_setting P M X T O K Pr Un net log_prior calibrator calib_mutable log_prob n_train n_val metrics training_metrics) in *.
  pose proof (run_is_fit _ _ _ _ _ _ _ _ _ _ _ _ _ _ _ _ _ _ _ _ _ _ _ _ _ _ _ _ _ _ RUN) as FM.
  destruct (fit_ok P M X T O K G OS Pr Un predict fold_in diff DE gadd gdiv zeros_like clip_by opt (fun _ => True) FitSWAG {| h_norm := None; h_accumulation := None |} c 0%nat 0%Q
    (fun key p m (b : X * list T) => log_joint n_train (outputs (Some key) true p m (fst b)) (snd b) p)
    (fun key p m b => outputs (Some key) true p m (fst b))
    (fun key p m b => match m with Some _ => Some (snd (net p (Some key) true m (fst b))) | None => None end)
    (fun p m b => log_joint n_val (outputs None false p m (fst b)) (snd b) p)
    (fun p m b => outputs None false p m (fst b))
    monitor cfg bs vs s s' ms mvs eq_refl ltac:(lia) I
    ltac:(intros p b m key _; split; [apply chain_training|exact I]) ltac:(intros p b m _; eexists; apply chain_validation) FM) as (A1 & A2 & A3 & A4 & A5 & A6).
  change (if Qlt_bool 0 0 then clip_by 0%Q else fun g => g) with (fun g : G => g) in *. fold update in A3, A5, A6.
  assert (AT : forall e i, (e < length ms)%nat -> (i <= length bs)%nat -> descend update (step s) (before e i bs) (proj P M G OS s) = at_ (e * length bs + i)%nat).
  { intros e i He Hi. unfold at_, after. rewrite firstn_passes by assumption. reflexivity. }
  assert (AL : descend update (step s) (before (length ms) 0 bs) (proj P M G OS s) = at_ (length ms * length bs)%nat).
  { unfold at_, after, before. cbn [firstn]. rewrite app_nil_r. rewrite firstn_all2 by (rewrite passes_length; lia). reflexivity. }
  split; [exact A1|]. split; [exact A2|]. split; [rewrite AL in A3; exact A3|]. split; [exact A4|]. split; [|split].
  - intros e He. specialize (A5 e He). revert A5. apply mean_rows_eq. apply map_ext_in. intros [i b] Hin. cbn [fst snd].
    assert (Hi : (i < length bs)%nat). { apply in_combine_l in Hin. apply in_seq in Hin. lia. }
    rewrite AT by lia. destruct (at_ _) as [[p o] m]. cbn [c chain_setting s_training_metrics s_metrics s_uncertainty option_map]. destruct training_metrics, metrics; reflexivity.
  - assert (HV : forall e, In e (validation_epochs (eval_every cfg) (length ms)) -> (e < length ms)%nat).
    { intros e He. unfold validation_epochs in He. apply filter_In in He. destruct He as [He _]. apply in_seq in He. lia. }
    destruct vs as [v|]; [|exact A6]. revert A6 HV. generalize (validation_epochs (eval_every cfg) (length ms)) as es. intros es A6 HV. clear - A6 HV AT AL at_.
    induction A6 as [|e m es l Y A6 IH]; [constructor|]. constructor; [|apply IH; intros; apply HV; now right]. revert Y. apply mean_rows_eq. apply map_ext. intros b.
    assert (E : descend update (step s) (before (S e) 0 bs) (proj P M G OS s) = at_ (S e * length bs)%nat).
    { specialize (HV e (or_introl eq_refl)). destruct (Nat.eq_dec (S e) (length ms)) as [->|N]; [exact AL|]. rewrite AT by lia. f_equal. lia. }
    rewrite E. destruct (at_ _) as [[p o] m']. reflexivity.
  - set (Ust := fun (j : nat) (s : tstate P OS G (option M)) (b : X * list T) => fst (training_step (fit_value_and_grad _ _ _ _ _ _ _ _ _ predict fold_in diff c) gadd gdiv zeros_like (fun g => g) opt 0 s b j)).
    assert (Hst : forall s b j, fst (fit_step P M X T O K G OS Pr Un predict fold_in diff gadd gdiv zeros_like clip_by opt c 0 0 (Ok s) b j) = Ok (Ust j s b) /\ step (Ust j s b) = S (step s)).
    { intros x b j. unfold fit_step, c. cbn [s_loss s_n_train chain_setting]. rewrite chain_training. split; reflexivity. }
    assert (PU : forall j s b, True -> proj P M G OS (Ust j s b) = update j (proj P M G OS s) b /\ True).
    { intros j x b _. split; [|exact I]. unfold Ust, training_step, fit_value_and_grad, c. cbn [s_loss s_n_train chain_setting Nat.ltb Nat.leb]. rewrite chain_training.
      cbn [fst snd an_mutable apply_gradients mutable]. unfold proj, update, gradient_update, apply_gradients. cbn [params opt_state mutable].
      rewrite (DE _ (fun q => log_joint n_train (outputs (Some (fold_in j)) true q (mutable x) (fst b)) (snd b) q)).
      2:{ intros q. rewrite chain_training. reflexivity. }
      destruct (opt _ (opt_state x) (params x)); reflexivity. }
    destruct (run_kept P M X T O K G OS Pr Un predict fold_in diff gadd gdiv zeros_like clip_by opt c Ust Hst _ _ _ _ _ _ _ _ _ _ _ RUN) as [MC SR].
    split; [exact MC|]. exists (visited P M X T G OS Ust (step s) (passes (length ms) bs) s). split; [exact SR|]. split; [rewrite visited_length; apply passes_length|].
    intros k Hk. eexists. split; [apply visited_nth; rewrite passes_length; exact Hk|]. split.
    + exact (proj1 (descend_proj _ _ _ (fun _ => True) Ust update (proj P M G OS) PU (firstn (S k) (passes (length ms) bs)) (step s) s I)).
    + assert (SS : forall l s, step (descend Ust (step s) l s) = (step s + length l)%nat).
      { induction l as [|b l IH]; intros x; [cbn; lia|]. cbn [descend length]. destruct (Hst x b (step x)) as [_ H2]. rewrite <- H2, IH, H2. lia. }
      rewrite SS, firstn_length, passes_length. lia.
Qed.
