(** Whole fits of stochastic gradient samplers. *)
From Coq Require Import List Arith ZArith QArith Bool String Lia.
From Verif Require Import Lib QuantModel PredModel LikModel CalibModel TrainModel TrainSpec TrainProofs TrainProofs2 TrainProofs3 TrainProofs4 McmcModel DescModel DescSpec DescProofs DescProofs2 DescProofs3 SwagProofs SwagProofs3 ChainModel ChainSpec.
Import ListNotations.
Open Scope list_scope.
Local Notation length := List.length.

Lemma times_passes {S B} (F : S -> B -> S) bs : forall n s, times n (fun s => fold_left F bs s) s = fold_left F (passes n bs) s.
Proof. induction n as [|n IH]; intros s; [reflexivity|]. change (passes (Datatypes.S n) bs) with (bs ++ passes n bs). rewrite fold_left_app. cbn [times]. apply IH. Qed.
Lemma times_ext {S} (f g : S -> S) n : (forall x, f x = g x) -> forall s, times n f s = times n g s.
Proof. intros H. induction n as [|n IH]; intros s; [reflexivity|]. cbn [times]. rewrite H. apply IH. Qed.

Section Chain.
Variables P M X T O K G OS Pr Un : Type.
Variable predict : O -> Pr.
Variable fold_in : nat -> K.
Variable diff : (P -> Q) -> P -> G.
Variable gadd : G -> G -> G.
Variable gdiv : G -> nat -> G.
Variable zeros_like : G -> G.
Variable clip_by : Q -> G -> G.
Variable opt : G -> OS -> P -> P * OS.
Notation tst := (tstate P OS G (option M)).
Notation cst := (ch_state P M G OS).
Notation FSTEP c := (fit_step P M X T O K G OS Pr Un predict fold_in diff gadd gdiv zeros_like clip_by opt c 0 0).
Notation STEP c := (ch_step P M X T O K G OS Pr Un predict fold_in diff gadd gdiv zeros_like clip_by opt c).
Notation FIT := (fit P M X T O K G OS Pr Un predict fold_in diff gadd gdiv zeros_like clip_by opt).
Notation RUN := (chain_run P M X T O K G OS Pr Un predict fold_in diff gadd gdiv zeros_like clip_by opt).
Notation no := (ch_step_no P M G OS).
Notation fin := (ch_step_end P M G OS).

Lemma end_state do (x : cst) : c_state P M G OS (fin do x) = c_state P M G OS x.
Proof. unfold ch_step_end. destruct (c_state P M G OS x) eqn:E; [|exact E]. destruct (c_kept P M G OS x); [|exact E]. cbv zeta. destruct (do _ _) as [[]|]; reflexivity. Qed.
Lemma run_is_fit do n c monitor cfg bs vs s s' kept ms mvs : RUN do n c monitor cfg bs vs s = Ok (s', kept, ms, mvs) ->
  FIT FitSWAG {| h_norm := None; h_accumulation := None |} c monitor cfg bs vs s = Ok (s', ms, mvs).
Proof.
  unfold chain_run, fit. cbn [run_kwargs]. destruct (make_callback do n (n_epochs cfg) (length bs)) as [do'|]; [|discriminate]. cbn [bind].
  set (cfg' := {| accumulation := 0 |}). intros R.
  pose proof (train_sim cst (result tst) (X * list T) (X * list T) (@c_state P M G OS) no (fun s => match s with Ok s => step s | Err _ => 0%nat end)
    (STEP c) (FSTEP c)
    (fun s => fit_validation P M X T O K G OS Pr Un predict c (c_state P M G OS s)) (fit_validation P M X T O K G OS Pr Un predict c)
    (fun s => s) (fin do') (fun s => s) (fun s => s) (fun s => s) (fun s => s) monitor) as Z.
  specialize (Z ltac:(reflexivity)).
  assert (HS : forall s b k, c_state P M G OS (fst (STEP c s b k)) = fst (FSTEP c (c_state P M G OS s) b k) /\ snd (STEP c s b k) = snd (FSTEP c (c_state P M G OS s) b k)).
  { intros x b k. unfold ch_step. destruct (FSTEP c _ _ _); split; reflexivity. }
  specialize (Z HS ltac:(reflexivity) ltac:(reflexivity) ltac:(intros; apply end_state) ltac:(reflexivity) cfg' bs vs {| es := stopping0; gstep := 0; saved := [] |} (ch_init P M G OS s)).
  unfold tmap in Z. cbn [es gstep saved map] in Z. change (c_state P M G OS (ch_init P M G OS s)) with (@Ok tst s) in Z. rewrite Z. clear Z.
  destruct (train no _ _ _ _ _ _ _ _ _ _ _) as [[[[t1 s1] ms1] mvs1]|]; [|discriminate]. cbn [bind rmap] in *. destruct (c_kept P M G OS s1); [|discriminate]. cbn [bind] in R.
  destruct (c_state P M G OS s1); [|discriminate]. cbn [bind] in *. injection R as <- <- <- <-. reflexivity.
Qed.

Variable c : setting P M X T O K Pr Un.
Variable Ust : nat -> tst -> X * list T -> tst.
Hypothesis Hst : forall s b j, fst (FSTEP c (Ok s) b j) = Ok (Ust j s b) /\ step (Ust j s b) = S (step s).
Definition visited (j : nat) (l : list (X * list T)) (s : tst) : list tst := map (fun k => descend Ust j (firstn (S k) l) s) (seq 0 (length l)).
Lemma visited_cons j b l s : visited j (b :: l) s = Ust j s b :: visited (S j) l (Ust j s b).
Proof. unfold visited. cbn [length seq map firstn descend]. f_equal. rewrite <- seq_shift, map_map. reflexivity. Qed.
Notation F do := (fun x b => fin do (fst (STEP c x b (no x)))).
Lemma broken do l : forall x e, c_kept P M G OS x = Err e -> c_kept P M G OS (fold_left (F do) l x) = Err e.
Proof.
  induction l as [|b l IH]; intros x e H; [exact H|]. cbn [fold_left]. apply IH. unfold ch_step. destruct (FSTEP c _ _ _) as [[s1|] m]; unfold ch_step_end; cbn [fst c_state c_kept]; rewrite ?H; reflexivity.
Qed.
Lemma fold_run do l : forall s cs cc kept,
  match sampling_run do cs cc (visited (step s) l s) with
  | Ok puts => c_kept P M G OS (fold_left (F do) l {| c_state := Ok s; c_step := cs; c_count := cc; c_kept := Ok kept |}) = Ok (kept ++ puts)
  | Err e => c_kept P M G OS (fold_left (F do) l {| c_state := Ok s; c_step := cs; c_count := cc; c_kept := Ok kept |}) = Err e
  end.
Proof.
  induction l as [|b l IH]; intros s cs cc kept.
  - cbn. now rewrite app_nil_r.
  - rewrite visited_cons. cbn [sampling_run fold_left].
    assert (E1 : fst (STEP c {| c_state := Ok s; c_step := cs; c_count := cc; c_kept := Ok kept |} b (step s)) = {| c_state := Ok (Ust (step s) s b); c_step := cs; c_count := cc; c_kept := Ok kept |}).
    { unfold ch_step. cbn [c_state c_step c_count c_kept]. destruct (Hst s b (step s)) as [H _]. destruct (FSTEP c _ _ _) as [r m]. cbn [fst] in *. now subst r. }
    change (no {| c_state := Ok s; c_step := cs; c_count := cc; c_kept := Ok kept |}) with (step s). rewrite E1. clear E1. pose proof (eq_refl (fin do {| c_state := Ok (Ust (step s) s b); c_step := cs; c_count := cc; c_kept := Ok kept |})) as E2. unfold ch_step_end in E2 at 2. cbn [c_state c_step c_count c_kept] in E2. cbv zeta in E2.
    destruct (Hst s b (step s)) as [_ H2]. rewrite <- H2.
    destruct (do (S cs) cc) as [[]|e]; cbn [bind]; rewrite E2; clear E2.
    + specialize (IH (Ust (step s) s b) (S cs) (S cc) (kept ++ [(cc, Ust (step s) s b)])). destruct (sampling_run do (S cs) (S cc) _); cbn [rmap]; [|exact IH]. rewrite IH, <- app_assoc. reflexivity.
    + apply IH.
    + now apply broken.
Qed.
Lemma run_kept do n monitor cfg bs vs s s' kept ms mvs : RUN do n c monitor cfg bs vs s = Ok (s', kept, ms, mvs) ->
  make_callback do n (n_epochs cfg) (length bs) = Ok do /\ sampling_run do 0 0 (visited (step s) (passes (length ms) bs) s) = Ok kept.
Proof.
  unfold chain_run. destruct (make_callback do n (n_epochs cfg) (length bs)) as [do'|] eqn:MC; [|discriminate]. cbn [bind]. intros R.
  assert (do' = do). { unfold make_callback in MC. destruct (count_samples _ _); [|discriminate]. cbn [bind] in MC. destruct (_ <? n)%nat; congruence. } subst do'. split; [reflexivity|].
  destruct (train no _ _ _ _ _ _ _ _ _ _ _) as [[[[t1 s1] ms1] mvs1]|] eqn:TR; [|discriminate]. cbn [bind] in R.
  apply train_runs_epochs in TR; [|cbn; lia|]. 2:{ intros x. unfold ch_step_no. now rewrite end_state. }
  destruct TR as (_ & _ & B3 & _). destruct (c_kept P M G OS s1) as [k1|] eqn:K1; [|discriminate]. cbn [bind] in R. destruct (c_state P M G OS s1); [|discriminate]. cbn [bind] in R. injection R as Z1 Z2 Z3 Z4. subst k1 ms1.
  rewrite (times_ext _ (fun s => fold_left (F do) bs s)) in B3 by reflexivity. rewrite times_passes in B3. subst s1.
  pose proof (fold_run do (passes (length ms) bs) s 0 0 []) as Z. unfold ch_init in K1. rewrite K1 in Z. destruct (sampling_run do 0 0 _); [|discriminate]. injection Z as ->. reflexivity.
Qed.
Lemma visited_nth j l s k : (k < length l)%nat -> nth_error (visited j l s) k = Some (descend Ust j (firstn (S k) l) s).
Proof.
  intros H. unfold visited. rewrite (map_nth_error _ k _ (d := k)); [reflexivity|]. rewrite (nth_error_nth' _ 0%nat) by (rewrite seq_length; exact H). now rewrite seq_nth.
Qed.
Lemma visited_length j l s : length (visited j l s) = length l.
Proof. unfold visited. now rewrite map_length, seq_length. Qed.
End Chain.
