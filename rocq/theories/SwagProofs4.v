(** Statistics and parameters of a fit of SWAG. *)
From Coq Require Import List Arith ZArith QArith Bool String Lia Lqa.
From Verif Require Import Lib QuantModel ConfRegModel ConfRegProofs PredModel LikModel CalibModel TrainModel TrainSpec TrainProofs TrainProofs2 TrainProofs3 TrainProofs4 McmcModel DescModel DescSpec DescProofs DescProofs2 DescProofs3 SwagModel SwagSpec SwagProofs SwagProofs2 SwagProofs3.
Import ListNotations.
Open Scope list_scope.
Local Notation length := List.length.

Section Stats.
Variables P M X T O K G OS Pr Un : Type.
Variable predict : O -> Pr.
Variable fold_in : nat -> K.
Variable diff : (P -> Q) -> P -> G.
Variable gadd : G -> G -> G.
Variable gdiv : G -> nat -> G.
Variable zeros_like : G -> G.
Variable clip_by : Q -> G -> G.
Variable opt : G -> OS -> P -> P * OS.
Variable ravel : P -> list Q.
Notation tst := (tstate P OS G (option M)).
Notation wst := (sw_state P M G OS).
Variable c : setting P M X T O K Pr Un.
Variable rank d : nat.
Variable Ust : nat -> tst -> X * list T -> tst.
Notation sw := (sw_step P M X T O K G OS Pr Un predict fold_in diff gadd gdiv zeros_like clip_by opt ravel rank c 0 0).
Notation no := (sw_step_no P M G OS).
Hypothesis Hst : forall s b j, fst (fit_step P M X T O K G OS Pr Un predict fold_in diff gadd gdiv zeros_like clip_by opt c 0 0 (Ok s) b j) = Ok (Ust j s b) /\ step (Ust j s b) = S (step s).
Hypothesis Hd : forall p, length (ravel p) = d.
Definition coord (j : nat) (s : tst) : Q := nth j (ravel (params s)) 0%Q.
Definition mk (s : tst) (e : nat) (f : nat -> option swag) : wst := {| w_state := Ok s; w_epoch := e; w_stats := map f (seq 0 d) |}.

Lemma one_step s e f b : fst (sw (mk s e f) b (no (mk s e f))) = mk (Ust (step s) s b) e (fun j => swag_step rank (f j) e (coord j (Ust (step s) s b))).
Proof.
  change (no (mk s e f)) with (step s). unfold sw_step. destruct (Hst s b (step s)) as [H _]. change (w_state P M G OS (mk s e f)) with (@Ok tst s).
  destruct (fit_step _ _ _ _ _ _ _ _ _ _ _ _ _ _ _ _ _ _ _ _ _ _ _ _) as [r m]. cbn [fst] in H. subst r. cbn [fst]. unfold mk. f_equal. cbn [w_stats w_epoch].
  rewrite (zip_nth _ d) by (try apply Hd; rewrite map_length, seq_length; reflexivity).
  apply map_ext_in. intros j Hj. apply in_seq in Hj. f_equal. rewrite (nth_indep _ None (f 0%nat)) by (rewrite map_length, seq_length; lia). rewrite map_nth, seq_nth by lia. reflexivity.
Qed.
Lemma fold_epoch_stats bs s e f : fold_left (fun s b => fst (sw s b (no s))) bs (mk s e f)
  = mk (descend Ust (step s) bs s) e (fun j => epoch_run rank e (fun i => coord j (descend Ust (step s) (firstn (S i) bs) s)) (length bs) (f j))
  /\ step (descend Ust (step s) bs s) = (step s + length bs)%nat.
Proof.
  induction bs as [|b bs [IH1 IH2]] using rev_ind.
  - split; [reflexivity|cbn; lia].
  - rewrite fold_left_app, IH1. cbn [fold_left]. rewrite one_step. rewrite descend_app. cbn [descend]. rewrite IH2. split.
    + unfold mk. f_equal. apply map_ext_in. intros j Hj. rewrite app_length. cbn [length]. rewrite Nat.add_1_r, epoch_S. f_equal.
      * unfold epoch_run. apply fold_left_ext_in. intros a i Hi. apply in_seq in Hi. f_equal. f_equal. rewrite firstn_app. replace (S i - length bs)%nat with 0%nat by lia. cbn [firstn]. now rewrite app_nil_r.
      * rewrite firstn_all2 by (rewrite app_length; cbn; lia). rewrite descend_app. reflexivity.
    + rewrite app_length. cbn [length]. destruct (Hst (descend Ust (step s) bs s) b (step s + length bs)%nat) as [_ ->]. rewrite IH2. lia.
Qed.
Lemma epochs_stats bs s : forall n,
  times n (one_epoch no sw (fun s => s) (fun s => s) (sw_next_epoch P M G OS) bs) (sw_init P M G OS ravel s)
  = mk (descend Ust (step s) (passes n bs) s) n (fun j => epochs_run rank (length bs) (fun e i => coord j (descend Ust (step s) (before e (S i) bs) s)) n)
  /\ step (descend Ust (step s) (passes n bs) s) = (step s + n * length bs)%nat.
Proof.
  induction n as [|n [IH1 IH2]].
  - split; [|cbn; lia]. cbn [times]. unfold sw_init, mk. cbn [passes repeat List.concat descend epochs_run]. f_equal.
    assert (Z : forall (l : list Q) m, length l = m -> map (fun _ => @None swag) l = map (fun _ => None) (seq 0 m)).
    { induction l as [|q l IHl]; intros m <-; [reflexivity|]. cbn [length seq map]. f_equal. rewrite <- seq_shift, map_map. apply IHl. reflexivity. }
    apply Z, Hd.
  - rewrite times_right, IH1. unfold one_epoch. cbv beta.
    destruct (fold_epoch_stats bs (descend Ust (step s) (passes n bs) s) n (fun j => epochs_run rank (length bs) (fun e i => coord j (descend Ust (step s) (before e (S i) bs) s)) n)) as [A B].
    rewrite A. rewrite IH2 in *.
    assert (PS : passes (S n) bs = passes n bs ++ bs). { unfold passes. clear. induction n as [|n IHn]; [cbn; now rewrite app_nil_r|]. change (bs ++ List.concat (repeat bs (S n)) = (bs ++ List.concat (repeat bs n)) ++ bs). rewrite IHn. now rewrite app_assoc. }
    rewrite PS, descend_app, passes_length. split; [|rewrite B; lia].
    unfold sw_next_epoch, mk. cbn [w_state w_epoch w_stats]. f_equal. apply map_ext. intros j. cbn [epochs_run]. unfold epoch_run. apply fold_left_ext_in. intros a i _. f_equal. f_equal.
    unfold before. rewrite descend_app, passes_length. reflexivity.
Qed.
End Stats.

Theorem swag_fit_spec : forall (P M X T O K G OS Pr Un C : Type) (predict : O -> Pr) (fold_in : nat -> K) (diff : (P -> Q) -> P -> G)
    gadd gdiv zeros_like clip_by (opt : G -> OS -> P -> P * OS) (ravel : P -> list Q) (net : P -> option K -> bool -> option M -> X -> O * M) (log_prior : P -> Q)
    (calibrator : option (bool -> option C -> O -> O * C)) calib_mutable (log_prob : O -> list T -> list Q) n_train n_val
    (metrics : option (list (Pr -> option Un -> list T -> Q))) training_metrics rank h monitor cfg bs vs (s s' : tstate P OS G (option M)) stats ms mvs d,
  (forall f g p, (forall q, f q = g q) -> diff f p = diff g p) -> (forall p, length (ravel p) = d) ->
  swag_fit P M X T O K G OS Pr Un predict fold_in diff gadd gdiv zeros_like clip_by opt ravel rank h
    (map_setting P M X T O K Pr Un net log_prior calibrator calib_mutable log_prob n_train n_val metrics training_metrics) monitor cfg bs vs s = Ok (s', stats, ms, mvs) ->
  let outputs := fun key p m x => let o := fst (net p (Some key) true m x) in
    match calibrator with None => o | Some f => fst (f false (match calib_mutable with Some c => c | None => None end) o) end in
  let update := gradient_update diff (fun g => g) opt fold_in
    (fun key p m (b : X * list T) => (- (total_of (log_prob (outputs key p m (fst b)) (snd b)) * (inject_Z (Z.of_nat n_train) / inject_Z (Z.of_nat (length (snd b)))) + log_prior p))%Q)
    (fun key p m b => match m with Some _ => Some (snd (net p (Some key) true m (fst b))) | None => None end) in
  let at_ := fun e i => descend update (step s) (before e i bs) (params s, opt_state s, mutable s) in
  let E := n_epochs cfg in let B := length bs in
  (2 <= rank < E)%nat /\ (0 < B)%nat /\ length ms = E
  /\ (params s', opt_state s', mutable s') = at_ E 0%nat /\ step s' = (step s + E * B)%nat
  /\ length stats = d
  /\ forall j, (j < d)%nat ->
     let x := fun e i => nth j (ravel (fst (fst (at_ e (S i))))) 0%Q in
     exists w, nth_error stats j = Some (Some w)
     /\ (sw_mean w * natq (E ^ B) == weighted B E x)%Q
     /\ ((swag_var w + sw_mean w * sw_mean w) * natq (E ^ B) == weighted B E (fun e i => x e i * x e i))%Q
     /\ length (sw_dev w) = rank
     /\ (forall l, (l < rank)%nat -> exists m, let q := (E * B - rank + l)%nat in let e := (q / B)%nat in let i := (q mod B)%nat in
           nth l (sw_dev w) 0%Q = (x e i - m)%Q /\ (0 < e)%nat
           /\ (m * natq (e ^ (B - 1 - i) * (e + 1) ^ S i) == weighted B e x + sum_below (S i) (fun k => swag_weight B e k * x e k))%Q).
Proof.
  intros P M X T O K G OS Pr Un C predict fold_in diff gadd gdiv zeros_like clip_by opt ravel net log_prior calibrator calib_mutable log_prob n_train n_val metrics training_metrics rank h monitor cfg bs vs s s' stats ms mvs d
    DE Hd RUN outputs update at_ E B.
  assert (HR : (2 <= rank < E)%nat).
  { unfold swag_fit, swag_checks in RUN. fold E in RUN. destruct (rank <? 2)%nat eqn:E1; [discriminate|]. destruct (E <=? rank)%nat eqn:E2; [discriminate|]. apply Nat.ltb_ge in E1. apply Nat.leb_gt in E2. lia. }
  set (c := map_setting P M X T O K Pr Un net log_prior calibrator calib_mutable log_prob n_train n_val metrics training_metrics) in *.
  pose proof (swag_is_map P M X T O K G OS Pr Un predict fold_in diff gadd gdiv zeros_like clip_by opt ravel rank h c monitor cfg bs vs s HR) as FM. rewrite RUN in FM. cbn [rmap] in FM. symmetry in FM.
  destruct (map_fit P M X T O K G OS Pr Un C predict fold_in diff gadd gdiv zeros_like clip_by opt net log_prior calibrator calib_mutable log_prob n_train n_val metrics training_metrics FitMAP {| h_norm := None; h_accumulation := None |} monitor _ bs vs s s' ms mvs DE (or_introl eq_refl) (fun a (H : None = Some a) => match H with end) FM)
    as (_ & A2 & A3 & A4 & _). cbn [h_norm TrainModel.stop_config TrainModel.n_epochs] in A2, A3. specialize (A2 eq_refl). fold E in A2. rewrite A2 in A3, A4.
  change (descend _ (step s) (before E 0 bs) _) with (at_ E 0%nat) in A3.
  assert (HB : (0 < B)%nat).
  { destruct bs as [|b bs]; [|unfold B; cbn; lia]. exfalso. unfold fit in FM. cbn [run_kwargs or_zero h_accumulation h_norm] in FM. unfold train in FM. cbn [TrainModel.n_epochs] in FM. fold E in FM. destruct E as [|E']; [lia|]. cbn in FM. discriminate FM. }
  split; [exact HR|]. split; [exact HB|]. split; [exact A2|]. split; [exact A3|]. split; [exact A4|].
  set (Ust := fun (j : nat) (s : tstate P OS G (option M)) (b : X * list T) => fst (training_step (fit_value_and_grad _ _ _ _ _ _ _ _ _ predict fold_in diff c) gadd gdiv zeros_like (fun g => g) opt 0 s b j)).
  assert (Hst : forall s b j, fst (fit_step P M X T O K G OS Pr Un predict fold_in diff gadd gdiv zeros_like clip_by opt c 0 0 (Ok s) b j) = Ok (Ust j s b) /\ step (Ust j s b) = S (step s)).
  { intros x b j. unfold fit_step, c. cbn [s_loss s_n_train map_setting]. rewrite map_training. split; reflexivity. }
  assert (PU : forall j s b, True -> proj P M G OS (Ust j s b) = update j (proj P M G OS s) b /\ True).
  { intros j x b _. split; [|exact I]. unfold Ust, training_step, fit_value_and_grad, c. cbn [s_loss s_n_train map_setting Nat.ltb Nat.leb]. rewrite map_training.
    cbn [fst snd an_mutable apply_gradients mutable]. unfold proj, update, gradient_update, apply_gradients. cbn [params opt_state mutable].
    rewrite (DE _ (fun q => (- (total_of (log_prob (outputs (fold_in j) q (mutable x) (fst b)) (snd b)) * (inject_Z (Z.of_nat n_train) / inject_Z (Z.of_nat (length (snd b)))) + log_prior q))%Q)).
    2:{ intros q. rewrite map_training. reflexivity. }
    destruct (opt _ (opt_state x) (params x)); reflexivity. }
  assert (PJ : forall e i, proj P M G OS (descend Ust (step s) (before e i bs) s) = at_ e i).
  { intros e i. exact (proj1 (descend_proj _ _ _ (fun _ => True) Ust update (proj P M G OS) PU (before e i bs) (step s) s I)). }
  unfold swag_fit in RUN. unfold swag_checks in RUN. fold E in RUN. rewrite (proj2 (Nat.ltb_ge rank 2)) in RUN by lia. rewrite (proj2 (Nat.leb_gt E rank)) in RUN by lia. cbn [bind run_kwargs] in RUN.
  destruct (train (sw_step_no P M G OS) _ _ _ _ _ _ _ _ _ _ _) as [[[[t1 s1] ms1] mvs1]|] eqn:TR; [|discriminate]. cbn [bind] in RUN.
  apply train_runs_epochs in TR; [|cbn; lia|reflexivity]. destruct TR as (_ & B2 & B3 & _). specialize (B2 eq_refl). cbn [TrainModel.n_epochs] in B2. rewrite B2 in B3.
  rewrite (proj1 (epochs_stats P M X T O K G OS Pr Un predict fold_in diff gadd gdiv zeros_like clip_by opt ravel c rank d Ust Hst Hd bs s E)) in B3.
  subst s1. unfold mk in RUN. cbn [w_state w_stats bind] in RUN. injection RUN as Z1 Z2 Z3 Z4. subst stats. split; [rewrite map_length, seq_length; reflexivity|].
  intros j Hj x. destruct (swag_weights rank B E x HB HR) as (w & W1 & W2 & W3 & W4 & W5). exists w. split; [|split; [exact W2|split; [exact W3|split; [exact W4|exact W5]]]].
  rewrite (map_nth_error _ j (seq 0 d) (d := j)); [|rewrite (nth_error_nth' _ 0%nat) by (rewrite seq_length; exact Hj); rewrite seq_nth by exact Hj; reflexivity].
  f_equal. rewrite <- W1. rewrite (run_epochs rank B x).
  assert (EX : forall n, epochs_run rank (length bs) (fun e i => coord P M G OS ravel j (descend Ust (step s) (before e (S i) bs) s)) n = epochs_run rank B x n).
  { induction n as [|n IH]; [reflexivity|]. cbn [epochs_run]. rewrite IH. fold B. unfold epoch_run. apply fold_left_ext_in. intros a i _. f_equal. unfold coord, x. rewrite <- PJ. reflexivity. }
  apply EX.
Qed.
