From Coq Require Import List Arith ZArith QArith Bool String Lia Lqa.
From Verif Require Import Lib QuantModel TrainModel TrainSpec TrainProofs.
Import ListNotations.
Open Scope list_scope.
Local Notation length := List.length.

Lemma times_ext : forall {A} (f g : A -> A) n x, (forall y, f y = g y) -> times n f x = times n g x.
Proof. intros A f g n. induction n; intros x H; simpl; [reflexivity|]. rewrite H. apply IHn; exact H. Qed.

Lemma times_succ : forall {A} (f : A -> A) n x, times (S n) f x = f (times n f x).
Proof. intros A f n. induction n; intros x; [reflexivity|]. simpl in *. apply IHn. Qed.

Lemma mean_metrics_spec : forall rows m, mean_metrics rows = Ok m <-> is_mean_of rows m.
Proof.
  intros rows m. unfold mean_metrics, is_mean_of. destruct rows as [|r rows].
  - split; [discriminate|]. intros [H _]. congruence.
  - set (all := r :: rows). split.
    + intros H. injection H as <-. split; [discriminate|]. rewrite map_length, seq_length.
      split; [reflexivity|]. intros j Hj.
      rewrite nth_indep with (d' := qmean (map (fun r0 => nth 0 r0 0%Q) all)) by (rewrite map_length, seq_length; exact Hj).
      rewrite (map_nth (fun j => qmean (map (fun r0 => nth j r0 0%Q) all))).
      rewrite seq_nth by exact Hj. unfold qmean, qsum, qlen, column_mean. rewrite map_length. reflexivity.
    + intros (_ & Hl & Hn). apply (f_equal Ok). apply nth_ext with (d := 0%Q) (d' := 0%Q).
      * rewrite map_length, seq_length. symmetry; exact Hl.
      * intros j Hj. rewrite map_length, seq_length in Hj.
        rewrite Hn by (rewrite Hl; exact Hj).
        rewrite nth_indep with (d' := qmean (map (fun r0 => nth 0 r0 0%Q) all)) by (rewrite map_length, seq_length; exact Hj).
        rewrite (map_nth (fun j => qmean (map (fun r0 => nth j r0 0%Q) all))).
        rewrite seq_nth by exact Hj. unfold qmean, qsum, qlen, column_mean. rewrite map_length. reflexivity.
Qed.

Lemma mean_metrics_err : forall rows e, mean_metrics rows = Err e -> rows = [] /\ e = TypeError.
Proof. intros [|r rows] e H; [cbn in H; split; congruence|discriminate]. Qed.

Lemma mean_metrics_ok : forall rows, rows <> [] -> exists m, mean_metrics rows = Ok m.
Proof. intros [|r rows] H; [congruence|]. eexists. reflexivity. Qed.

Lemma Forall2_weaken : forall {A B} (P Q : A -> B -> Prop) l l',
  (forall x y, In x l -> P x y -> Q x y) -> Forall2 P l l' -> Forall2 Q l l'.
Proof.
  intros A B P Q l l' H F. induction F as [|x y l l' Hxy F IH]; constructor.
  - apply H; [left; reflexivity|exact Hxy].
  - apply IH. intros; apply H; [right; assumption|assumption].
Qed.

Section Loops.
Variables (St Batch VBatch : Type) (step_no : St -> nat) (tstep : St -> Batch -> nat -> St * list Q)
  (vstep : St -> VBatch -> list Q) (cb_start cb_step cb_end : St -> St) (monitor : list Q -> option Q).
Notation bloop := (batches_loop St Batch step_no tstep cb_step).
Notation tloop := (training_loop St Batch step_no tstep cb_start cb_step cb_end).
Notation vloop := (validation_loop St VBatch vstep monitor).
Notation eloop := (epochs_loop St Batch VBatch step_no tstep vstep cb_start cb_step cb_end monitor).
Notation trainm := (train St Batch VBatch step_no tstep vstep cb_start cb_step cb_end monitor).

(** the part of the batch loop that does not depend on the trainer object *)
Fixpoint pure_loop (k : nat) (bs : list Batch) (i key : nat) (s : St) : St * list (list Q) :=
  match bs with
  | [] => (s, [])
  | b :: r =>
      let s1 := fst (tstep s b key) in
      if (0 <? k)%nat && negb (S i mod k =? 0)%nat
      then pure_loop k r (S i) key s1
      else let x := pure_loop k r (S i) (step_no s1) (cb_step s1) in (fst x, snd (tstep s b key) :: snd x)
  end.

Lemma bloop_pure : forall c bs i key t s ms,
  let x := bloop c bs i key t s ms in
  snd (fst x) = fst (pure_loop (accumulation c) bs i key s)
  /\ snd x = ms ++ snd (pure_loop (accumulation c) bs i key s)
  /\ gstep St (fst (fst x)) = (gstep St t + length bs)%nat
  /\ es St (fst (fst x)) = es St t.
Proof.
  intros c bs. induction bs as [|b bs IH]; intros i key t s ms; cbv zeta.
  - cbn. rewrite app_nil_r. repeat split; lia.
  - cbn [batches_loop pure_loop length]. destruct (tstep s b key) as [s1 m] eqn:E. cbn [fst snd].
    destruct ((0 <? accumulation c)%nat && negb (S i mod accumulation c =? 0)%nat) eqn:K.
    + edestruct IH as (A & B & C & D). rewrite A, B, C, D. cbn [gstep es]. repeat split; lia.
    + unfold step_end.
      match goal with |- context [bloop c bs (S i) (step_no s1) ?t2 _ _] => set (t3 := t2) end.
      edestruct (IH (S i) (step_no s1) t3 (cb_step s1) (ms ++ [m])) as (A & B & C & D).
      rewrite A, B, C, D. cbn [fst snd]. rewrite <- app_assoc.
      assert (G : gstep St t3 = S (gstep St t) /\ es St t3 = es St t).
      { unfold t3, save. destruct (save_every c) as [n|]; [|split; reflexivity].
        destruct (_ && _ && _); [|split; reflexivity]. destruct (save_dir c); split; reflexivity. }
      destruct G as [G1 G2]. rewrite G1, G2. repeat split; lia.
Qed.

Definition epoch_rows (k : nat) (bs : list Batch) (s : St) : list (list Q) :=
  snd (pure_loop k bs 0 (step_no (cb_start s)) (cb_start s)).
Definition epoch_state (k : nat) (bs : list Batch) (s : St) : St :=
  cb_end (fst (pure_loop k bs 0 (step_no (cb_start s)) (cb_start s))).

Lemma tloop_ok : forall c bs t s t1 s1 m, tloop c bs t s = Ok (t1, s1, m) ->
  s1 = epoch_state (accumulation c) bs s /\ mean_metrics (epoch_rows (accumulation c) bs s) = Ok m
  /\ gstep St t1 = (gstep St t + length bs)%nat /\ es St t1 = es St t.
Proof.
  intros c bs t s t1 s1 m H. unfold training_loop in H.
  destruct (bloop_pure c bs 0 (step_no (cb_start s)) t (cb_start s) []) as (A & B & C & D).
  destruct (bloop c bs 0 _ t _ []) as [[t' s'] ms']. cbn [fst snd] in *.
  unfold epoch_rows, epoch_state. cbn [app] in B. rewrite <- B, <- A.
  destruct (mean_metrics ms'); cbn in H; [|discriminate]. injection H as <- <- <-. auto.
Qed.

Lemma tloop_total : forall c bs t s, epoch_rows (accumulation c) bs s <> [] ->
  exists t1 s1 m, tloop c bs t s = Ok (t1, s1, m).
Proof.
  intros c bs t s H. unfold training_loop.
  destruct (bloop_pure c bs 0 (step_no (cb_start s)) t (cb_start s) []) as (A & B & C & D).
  destruct (bloop c bs 0 _ t _ []) as [[t' s'] ms']. cbn [fst snd] in *.
  unfold epoch_rows in H. cbn [app] in B. rewrite <- B in H.
  destruct (mean_metrics_ok _ H) as [m Hm]. rewrite Hm. cbn. eauto.
Qed.

Lemma tloop_fail : forall c bs t s, epoch_rows (accumulation c) bs s = [] -> tloop c bs t s = Err TypeError.
Proof.
  intros c bs t s H. unfold training_loop.
  destruct (bloop_pure c bs 0 (step_no (cb_start s)) t (cb_start s) []) as (A & B & C & D).
  destruct (bloop c bs 0 _ t _ []) as [[t' s'] ms']. cbn [fst snd] in *.
  unfold epoch_rows in H. cbn [app] in B. rewrite <- B in H. subst ms'. reflexivity.
Qed.

Lemma vloop_ok : forall c v t s t2 m, vloop c v t s = Ok (t2, m) ->
  mean_metrics (map (vstep s) v) = Ok m /\ gstep St t2 = gstep St t
  /\ (is_active (stop_config c) = true -> exists x, monitor m = Some x /\ es St t2 = early_stopping_update (stop_config c) (es St t) x)
  /\ (is_active (stop_config c) = false -> t2 = t).
Proof.
  intros c v t s t2 m H. unfold validation_loop in H.
  destruct (mean_metrics (map (vstep s) v)) as [m0|] eqn:E; cbn in H; [|discriminate].
  destruct (is_active (stop_config c)) eqn:A.
  - destruct (monitor m0) as [x|] eqn:M; [|discriminate]. injection H as <- <-.
    split; [reflexivity|]. split; [|split; [|discriminate]].
    + destruct (has_improved _); unfold save; [destruct (save_dir c)|]; reflexivity.
    + intros _. exists x. split; [exact M|]. destruct (has_improved _); unfold save; [destruct (save_dir c)|]; reflexivity.
  - injection H as <- <-. repeat split; discriminate || reflexivity.
Qed.

Definition vsel (c : config) (e : nat) : bool :=
  ((0 <? eval_every c)%Z && (Z.of_nat e mod eval_every c =? 0)%Z).

Lemma eloop_spec : forall c bs vs n e t s t' s' ms mvs,
  eloop c bs vs n e t s = Ok (t', s', ms, mvs) ->
  let k := accumulation c in
  let E := length ms in
  (E <= n)%nat
  /\ s' = times E (epoch_state k bs) s
  /\ (forall i, (i < E)%nat -> mean_metrics (epoch_rows k bs (times i (epoch_state k bs) s)) = Ok (nth i ms []))
  /\ gstep St t' = (gstep St t + E * length bs)%nat
  /\ match vs with
     | None => mvs = []
     | Some v => Forall2 (fun x m => mean_metrics (map (vstep (times (S x - e) (epoch_state k bs) s)) v) = Ok m)
                         (filter (vsel c) (seq e E)) mvs
     end
  /\ (is_active (stop_config c) = true -> exists vals,
        map monitor mvs = map Some vals
        /\ es St t' = fold_left (early_stopping_update (stop_config c)) vals (es St t)
        /\ ((E < n)%nat -> vals <> [] /\ should_stop (es St t') = true)
        /\ (vals <> [] -> should_stop (es St t') = true -> (0 < E)%nat /\ vsel c (e + E - 1) = true)
        /\ forall j, (0 < j < length vals)%nat ->
             should_stop (fold_left (early_stopping_update (stop_config c)) (firstn j vals) (es St t)) = false)
  /\ (is_active (stop_config c) = false -> E = n /\ es St t' = es St t).
Proof.
  intros c bs vs n. induction n as [|n IH]; intros e t s t' s' ms mvs H k E.
  - cbn in H. injection H as <- <- <- <-. subst E. cbn. split; [lia|].
    split; [reflexivity|]. split; [intros; lia|]. split; [lia|].
    split; [destruct vs; [constructor|reflexivity]|]. split.
    + intros _. exists []. cbn. split; [reflexivity|]. split; [reflexivity|]. split; [intros; lia|]. split; [congruence|intros; lia].
    + intros _. auto.
  - cbn [epochs_loop] in H.
    destruct (tloop c bs t s) as [[[t1 s1] m]|] eqn:T; cbn [bind] in H; [|discriminate].
    apply tloop_ok in T. destruct T as (T1 & T2 & T3 & T4).
    assert (Step : forall i0 (ms0 : list (list Q)),
       (forall i, (i < length ms0)%nat -> mean_metrics (epoch_rows k bs (times i (epoch_state k bs) s1)) = Ok (nth i ms0 [])) ->
       (i0 < length (m :: ms0))%nat -> mean_metrics (epoch_rows k bs (times i0 (epoch_state k bs) s)) = Ok (nth i0 (m :: ms0) [])).
    { intros [|i0] ms0 G Hi; cbn [times nth]; [exact T2|]. fold k in T1. rewrite <- T1. apply G. cbn in Hi. lia. }
    (* continuing without validation *)
    assert (Cont : forall tt, (vs = None \/ vsel c e = false) -> tt = t1 ->
       bind (eloop c bs vs n (S e) tt s1) (fun r3 => let '(t3, s3, ms, mvs) := r3 in Ok (t3, s3, m :: ms, mvs)) = Ok (t', s', ms, mvs) ->
       (E <= S n)%nat
       /\ s' = times E (epoch_state k bs) s
       /\ (forall i, (i < E)%nat -> mean_metrics (epoch_rows k bs (times i (epoch_state k bs) s)) = Ok (nth i ms []))
       /\ gstep St t' = (gstep St t + E * length bs)%nat
       /\ match vs with
          | None => mvs = []
          | Some v => Forall2 (fun x m => mean_metrics (map (vstep (times (S x - e) (epoch_state k bs) s)) v) = Ok m)
                              (filter (vsel c) (seq e E)) mvs
          end
       /\ (is_active (stop_config c) = true -> exists vals,
             map monitor mvs = map Some vals
             /\ es St t' = fold_left (early_stopping_update (stop_config c)) vals (es St t)
             /\ ((E < S n)%nat -> vals <> [] /\ should_stop (es St t') = true)
             /\ (vals <> [] -> should_stop (es St t') = true -> (0 < E)%nat /\ vsel c (e + E - 1) = true)
             /\ forall j, (0 < j < length vals)%nat ->
                  should_stop (fold_left (early_stopping_update (stop_config c)) (firstn j vals) (es St t)) = false)
       /\ (is_active (stop_config c) = false -> E = S n /\ es St t' = es St t)).
    { intros tt Hv Htt G. subst tt.
      destruct (eloop c bs vs n (S e) t1 s1) as [[[[t3 s3] ms3] mvs3]|] eqn:R; cbn [bind] in G; [|discriminate].
      injection G as <- <- <- <-. specialize (IH _ _ _ _ _ _ _ R). cbv zeta in IH.
      destruct IH as (A & B & C & D & F & G1 & G2). subst E. cbn [length times].
      split; [lia|]. split; [fold k in T1; rewrite <- T1; exact B|].
      split; [intros i Hi; apply Step; [exact C|exact Hi]|].
      split; [rewrite D, T3; nia|]. split; [|split].
      - destruct vs as [v|]; [|exact F]. destruct Hv as [Hv|Hv]; [discriminate|].
        cbn [seq filter]. rewrite Hv. revert F. apply Forall2_weaken. intros x y Hx Hxy.
        apply filter_In in Hx. destruct Hx as [Hx _]. apply in_seq in Hx.
        replace (S x - e)%nat with (S (S x - S e)) by lia. cbn [times]. fold k in T1. rewrite <- T1. exact Hxy.
      - intros Ha. destruct (G1 Ha) as (vals & V1 & V2 & V3 & V5 & V4). exists vals. rewrite T4 in V2, V4.
        split; [exact V1|]. split; [exact V2|]. split; [intros; apply V3; lia|]. split; [|exact V4].
        intros X Y. destruct (V5 X Y) as [Z1 Z2]. split; [lia|]. rewrite <- Z2. f_equal. lia.
      - intros Ha. destruct (G2 Ha) as [X Y]. split; [lia|]. rewrite Y. exact T4. }
    destruct vs as [v|]; [|apply (Cont t1); auto].
    unfold should_validate in H. fold (vsel c e) in H.
    destruct (vsel c e) eqn:V; [|apply (Cont t1); auto]. clear Cont.
    destruct (vloop c v t1 s1) as [[t2 mv]|] eqn:W; cbn [bind] in H; [|discriminate].
    apply vloop_ok in W. destruct W as (W1 & W2 & W3 & W4).
    destruct (is_active (stop_config c) && should_stop (es St t2)) eqn:Stop.
    + injection H as <- <- <- <-. apply andb_true_iff in Stop. destruct Stop as [Ha Hs].
      subst E. cbn [length times]. split; [lia|]. split; [fold k in T1; exact T1|].
      split; [intros i Hi; apply (Step i []); [cbn; intros; lia|exact Hi]|].
      split; [rewrite W2, T3; lia|]. split; [|split].
      * cbn [seq filter]. rewrite V. constructor; [|constructor].
        replace (S e - e)%nat with 1%nat by lia. cbn [times]. fold k in T1. rewrite <- T1. exact W1.
      * intros _. destruct (W3 Ha) as (x & X1 & X2). exists [x]. cbn [map fold_left length]. rewrite X1.
        split; [reflexivity|]. rewrite T4 in X2. split; [exact X2|]. split; [intros _; split; [discriminate|exact Hs]|].
        split; [intros _ _; split; [lia|]; rewrite <- V; f_equal; lia|]. intros j Hj. lia.
      * intros Hb. congruence.
    + destruct (eloop c bs (Some v) n (S e) t2 s1) as [[[[t3 s3] ms3] mvs3]|] eqn:R; cbn [bind] in H; [|discriminate].
      injection H as <- <- <- <-. specialize (IH _ _ _ _ _ _ _ R). cbv zeta in IH.
      destruct IH as (A & B & C & D & F & G1 & G2). subst E. cbn [length times].
      split; [lia|]. split; [fold k in T1; rewrite <- T1; exact B|].
      split; [intros i Hi; apply Step; [exact C|exact Hi]|].
      split; [rewrite D, W2, T3; nia|]. split; [|split].
      * cbn [seq filter]. rewrite V. constructor.
        -- replace (S e - e)%nat with 1%nat by lia. cbn [times]. fold k in T1. rewrite <- T1. exact W1.
        -- revert F. apply Forall2_weaken. intros x y Hx Hxy.
           apply filter_In in Hx. destruct Hx as [Hx _]. apply in_seq in Hx.
           replace (S x - e)%nat with (S (S x - S e)) by lia. cbn [times]. fold k in T1. rewrite <- T1. exact Hxy.
      * intros Ha. destruct (W3 Ha) as (x & X1 & X2). destruct (G1 Ha) as (vals & V1 & V2 & V3 & V5 & V4).
        rewrite T4 in X2. rewrite Ha in Stop. cbn in Stop.
        exists (x :: vals). cbn [map fold_left length]. rewrite X1, V1. rewrite X2 in *.
        split; [reflexivity|]. split; [exact V2|]. split; [|split].
        -- intros Hlt. destruct (V3 ltac:(lia)) as [_ Y]. split; [discriminate|exact Y].
        -- intros _ Y. destruct vals as [|x2 vals].
           ++ cbn in V2. rewrite V2 in Y. congruence.
           ++ destruct (V5 ltac:(discriminate) Y) as [Z1 Z2]. split; [lia|]. rewrite <- Z2. f_equal. lia.
        -- intros [|[|j]] Hj; [lia| |].
           ++ cbn [firstn fold_left]. exact Stop.
           ++ change (firstn (S (S j)) (x :: vals)) with (x :: firstn (S j) vals). cbn [fold_left].
              apply V4. lia.
      * intros Ha. destruct (G2 Ha) as [X Y]. split; [lia|]. rewrite Y, (W4 Ha). exact T4.
Qed.

Lemma train_spec : forall c bs vs t s t' s' ms mvs,
  trainm c bs vs t s = Ok (t', s', ms, mvs) ->
  exists t0, eloop c bs vs (n_epochs c) 0 t s = Ok (t0, s', ms, mvs) /\ t' = save St c true t0 s'
    /\ es St t' = es St t0 /\ gstep St t' = gstep St t0.
Proof.
  intros c bs vs t s t' s' ms mvs H. unfold train in H.
  destruct (eloop c bs vs (n_epochs c) 0 t s) as [[[[t0 s0] ms0] mvs0]|] eqn:E; cbn in H; [|discriminate].
  injection H as <- <- <- <-. exists t0. split; [reflexivity|]. split; [reflexivity|].
  unfold save. destruct (save_dir c); split; reflexivity.
Qed.

Lemma eloop_total : forall c bs vs,
  (forall s, epoch_rows (accumulation c) bs s <> []) ->
  (forall v, vs = Some v -> v <> []) ->
  (is_active (stop_config c) = true -> forall m, monitor m <> None) ->
  forall n e t s, exists r, eloop c bs vs n e t s = Ok r.
Proof.
  intros c bs vs Hb Hv Hm n. induction n as [|n IH]; intros e t s; cbn [epochs_loop]; [eauto|].
  destruct (tloop_total c bs t s (Hb s)) as (t1 & s1 & m & T). rewrite T. cbn [bind].
  assert (Rec : forall f tt, exists r : trainer St * St * list (list Q) * list (list Q),
     bind (eloop c bs vs n (S e) tt s1) (fun r3 => let '(t3, s3, ms, mvs) := r3 in Ok (t3, s3, m :: ms, f mvs)) = Ok r).
  { intros f tt. destruct (IH (S e) tt s1) as [[[[t3 s3] ms3] mvs3] R]. rewrite R. cbn. eauto. }
  destruct vs as [v|]; [|apply (Rec (fun x => x))].
  destruct (should_validate VBatch c (Some v) e); [|apply (Rec (fun x => x))].
  unfold validation_loop.
  destruct (mean_metrics_ok (map (vstep s1) v)) as [mv M].
  { specialize (Hv v eq_refl). destruct v; [congruence|discriminate]. }
  rewrite M. cbn [bind].
  destruct (is_active (stop_config c)) eqn:A.
  - destruct (monitor mv) as [x|] eqn:X; [|exfalso; apply (Hm eq_refl mv X)]. cbn [bind].
    match goal with |- context [if ?b then Ok _ else _] => destruct b end; [eauto|].
    apply (Rec (fun l => mv :: l)).
  - cbn [bind andb]. apply (Rec (fun l => mv :: l)).
Qed.

(** the epoch without accumulation *)
Lemma pure_loop_simple : forall k bs i s, (k <= 1)%nat -> (forall x, step_no (cb_step x) = step_no x) ->
  pure_loop k bs i (step_no s) s = one_pass step_no tstep cb_step bs s.
Proof.
  intros k bs. induction bs as [|b bs IH]; intros i s Hk Hcb; cbn [pure_loop one_pass]; [reflexivity|].
  assert (K : (0 <? k)%nat && negb (S i mod k =? 0)%nat = false).
  { destruct k as [|[|k]]; [reflexivity| |lia]. cbn. reflexivity. }
  rewrite K. destruct (tstep s b (step_no s)) as [s1 a]. cbn [fst snd].
  rewrite <- (Hcb s1) at 1 2. rewrite IH by assumption.
  destruct (one_pass step_no tstep cb_step bs (cb_step s1)). reflexivity.
Qed.

Lemma one_pass_fold : forall bs s,
  fst (one_pass step_no tstep cb_step bs s) = fold_left (fun s b => cb_step (fst (tstep s b (step_no s)))) bs s.
Proof.
  induction bs as [|b bs IH]; intros s; cbn [one_pass fold_left]; [reflexivity|].
  destruct (tstep s b (step_no s)) as [s1 a] eqn:E. cbn [fst].
  rewrite <- IH. destruct (one_pass _ _ _ bs (cb_step s1)). reflexivity.
Qed.

Lemma one_pass_length : forall bs s, length (snd (one_pass step_no tstep cb_step bs s)) = length bs.
Proof.
  induction bs as [|b bs IH]; intros s; cbn [one_pass]; [reflexivity|].
  destruct (tstep s b (step_no s)) as [s1 a] eqn:E.
  specialize (IH (cb_step s1)). destruct (one_pass _ _ _ bs (cb_step s1)). cbn in *. lia.
Qed.

Lemma epoch_state_simple : forall k bs s, (k <= 1)%nat -> (forall x, step_no (cb_step x) = step_no x) ->
  epoch_state k bs s = one_epoch step_no tstep cb_start cb_step cb_end bs s
  /\ epoch_rows k bs s = snd (one_pass step_no tstep cb_step bs (cb_start s)).
Proof.
  intros k bs s Hk Hcb. unfold epoch_state, epoch_rows, one_epoch. rewrite pure_loop_simple by assumption.
  rewrite one_pass_fold. auto.
Qed.

(** with accumulation *)
Lemma pure_loop_grouped : forall k, (1 <= k)%nat ->
  (forall s b key, step_no (fst (tstep s b key)) = S (step_no s)) ->
  (forall x, step_no (cb_step x) = step_no x) ->
  forall bs base i s, step_no s = (base + i)%nat ->
  fst (pure_loop k bs i (base + k * (i / k)) s)
  = fold_left (fun s ib => let s1 := fst (tstep s (snd ib) (base + k * (fst ib / k))%nat) in
                           if ((fst ib + 1) mod k =? 0)%nat then cb_step s1 else s1)
              (combine (seq i (length bs)) bs) s.
Proof.
  intros k Hk Hstep Hcb bs. induction bs as [|b bs IH]; intros base i s Hs;
    cbn [pure_loop length seq combine fold_left]; [reflexivity|].
  cbn [fst snd]. replace (i + 1)%nat with (S i) by lia.
  assert (H0 : (0 <? k)%nat = true) by (apply Nat.ltb_lt; lia). rewrite H0. cbn [andb].
  pose proof (Nat.div_mod i k ltac:(lia)) as D1. pose proof (Nat.mod_upper_bound i k ltac:(lia)) as D2.
  destruct (S i mod k =? 0)%nat eqn:E; cbn [negb].
  - apply Nat.eqb_eq in E. cbn [fst].
    pose proof (Nat.div_mod (S i) k ltac:(lia)) as D3. rewrite E in D3.
    assert (Q1 : (base + k * (S i / k))%nat = step_no (fst (tstep s b (base + k * (i / k))%nat))).
    { rewrite Hstep. lia. }
    rewrite <- Q1. apply IH. rewrite Hcb, Hstep. lia.
  - apply Nat.eqb_neq in E.
    assert (Q1 : (S i / k = i / k)%nat).
    { symmetry. apply (Nat.div_unique _ _ _ (S (i mod k))); [|lia].
      destruct (Nat.eq_dec (S (i mod k)) k) as [X|X]; [|lia].
      exfalso. apply E. replace (S i) with (k * (i / k) + k)%nat by lia.
      replace (k * (i / k) + k)%nat with (0 + (i / k + 1) * k)%nat by nia.
      rewrite Nat.mod_add by lia. apply Nat.mod_0_l. lia. }
    rewrite <- Q1. apply IH. rewrite Hstep. lia.
Qed.

Lemma epoch_state_grouped : forall k bs s, (1 <= k)%nat ->
  (forall s b key, step_no (fst (tstep s b key)) = S (step_no s)) ->
  (forall x, step_no (cb_step x) = step_no x) ->
  epoch_state k bs s = grouped_epoch k step_no tstep cb_start cb_step cb_end bs s.
Proof.
  intros k bs s Hk Hstep Hcb. unfold epoch_state, grouped_epoch.
  pose proof (pure_loop_grouped k Hk Hstep Hcb bs (step_no (cb_start s)) 0 (cb_start s) ltac:(lia)) as G.
  rewrite Nat.div_0_l, Nat.mul_0_r, Nat.add_0_r in G by lia. rewrite G. reflexivity.
Qed.

(** number of entries logged in an epoch *)
Lemma pure_rows_length : forall k bs i key s, (1 <= k)%nat ->
  length (snd (pure_loop k bs i key s)) = ((i + length bs) / k - i / k)%nat.
Proof.
  intros k bs. induction bs as [|b bs IH]; intros i key s Hk; cbn [pure_loop length].
  - cbn. rewrite Nat.add_0_r. lia.
  - assert (H0 : (0 <? k)%nat = true) by (apply Nat.ltb_lt; lia). rewrite H0. cbn [andb].
    replace (i + S (length bs))%nat with (S i + length bs)%nat by lia.
    pose proof (Nat.div_mod i k ltac:(lia)) as D1. pose proof (Nat.mod_upper_bound i k ltac:(lia)) as D2.
    pose proof (Nat.div_le_mono (S i) (S i + length bs) k ltac:(lia) ltac:(lia)) as L.
    pose proof (Nat.div_mod (S i) k ltac:(lia)) as D3. pose proof (Nat.mod_upper_bound (S i) k ltac:(lia)) as D4.
    destruct (S i mod k =? 0)%nat eqn:E; cbn [negb].
    + apply Nat.eqb_eq in E. cbn [snd length]. rewrite IH by lia.
      assert ((S i / k = S (i / k))%nat) by nia. lia.
    + apply Nat.eqb_neq in E. rewrite IH by lia.
      assert ((S i / k = i / k)%nat) by nia. lia.
Qed.

Lemma epoch_rows_nonempty : forall k bs s, (1 <= length bs)%nat -> (k <= length bs)%nat -> epoch_rows k bs s <> [].
Proof.
  intros k bs s H1 H2 E. unfold epoch_rows in E. destruct k as [|k].
  - destruct bs as [|b bs]; [cbn in H1; lia|]. cbn in E. discriminate E.
  - apply (f_equal (@length _)) in E. rewrite pure_rows_length in E by lia. cbn [length] in E.
    rewrite Nat.div_0_l, Nat.add_0_l, Nat.sub_0_r in E by lia.
    pose proof (Nat.div_str_pos (length bs) (S k) ltac:(lia)). lia.
Qed.

Lemma epoch_rows_empty : forall k bs s, bs = [] \/ (length bs < k)%nat -> epoch_rows k bs s = [].
Proof.
  intros k bs s [->|H]; [reflexivity|]. unfold epoch_rows. apply length_zero_iff_nil.
  rewrite pure_rows_length by lia. rewrite Nat.div_0_l, Nat.add_0_l by lia. rewrite Nat.div_small by lia. reflexivity.
Qed.
End Loops.
