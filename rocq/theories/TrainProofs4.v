From Coq Require Import List Arith ZArith QArith Bool String Lia Lqa.
From Verif Require Import Lib QuantModel TrainModel TrainSpec TrainProofs TrainProofs2 TrainProofs3.
Import ListNotations.
Open Scope list_scope.
Local Notation length := List.length.
Arguments es {S} _.
Arguments gstep {S} _.
Arguments saved {S} _.
Arguments train {S Batch VBatch} _ _ _ _ _ _ _ _ _ _ _ _.
Arguments periodic {St} _.
Arguments params {Params OptState Grad Mutable} _.
Arguments opt_state {Params OptState Grad Mutable} _.
Arguments step {Params OptState Grad Mutable} _.
Arguments mutable {Params OptState Grad Mutable} _.
Arguments acc {Params OptState Grad Mutable} _.
Arguments training_step {Params OptState Grad Mutable Batch} _ _ _ _ _ _ _ _ _ _.
Arguments training_step_scaled {Params OptState Grad Mutable Batch} _ _ _ _ _ _ _ _ _ _ _.

(** ---- C20 ---- *)
Lemma stalled_firstn_lt : forall p vals (R : nat -> Prop), R 0%nat -> ~ stalled p (firstn 0 vals) R.
Proof. intros p vals R H [t [Ht _]]. rewrite firstn_O in Ht. cbn in Ht. lia. Qed.

Lemma improvements_firstn : forall d vals R j, improvements d vals R -> improvements d (firstn j vals) R.
Proof.
  intros d vals R j H i Hi. rewrite firstn_length in Hi. rewrite (H i) by lia.
  assert (E : forall l, (l <= i)%nat -> nth l (firstn j vals) 0%Q = nth l vals 0%Q).
  { intros l Hl. rewrite <- (firstn_skipn j vals) at 2. rewrite app_nth1; [reflexivity|]. rewrite firstn_length. lia. }
  split; intros G j' Hj' Rj Hno; specialize (G j' Hj' Rj Hno).
  - rewrite !E by lia. exact G.
  - rewrite !E in G by lia. exact G.
Qed.

Theorem train_early_stopping :
  forall St Batch VBatch step_no (tstep : St -> Batch -> nat -> St * list Q) (vstep : St -> VBatch -> list Q)
    cb_start cb_step cb_end monitor c bs vs t s t' s' ms mvs p,
  train step_no tstep vstep cb_start cb_step cb_end monitor c bs vs t s = Ok (t', s', ms, mvs) ->
  stop_config c = {| patience := Some p; mode := Some "min"%string; min_delta := min_delta (stop_config c) |} ->
  (0 < p)%Z -> es t = stopping0 ->
  exists vals, map monitor mvs = map Some vals /\
  forall R, improvements (min_delta (stop_config c)) vals R ->
    (forall j, (j < length vals)%nat -> ~ stalled (Z.to_nat p) (firstn j vals) R) /\
    ((length ms < n_epochs c)%nat -> stalled (Z.to_nat p) vals R) /\
    (stalled (Z.to_nat p) vals R -> exists e, length ms = S e /\ In e (validation_epochs (eval_every c) (length ms))).
Proof.
  intros St Batch VBatch step_no tstep vstep cb_start cb_step cb_end monitor c bs vs t s t' s' ms mvs p H Hc Hp He.
  apply train_spec in H. destruct H as (t0 & E & _ & Es & _). apply eloop_spec in E. cbv zeta in E.
  destruct E as (_ & _ & _ & _ & _ & A & _).
  assert (Ha : is_active (stop_config c) = true).
  { apply active_iff. rewrite Hc. exists p, "min"%string. auto. }
  destruct (A Ha) as (vals & V1 & V2 & V3 & V5 & V4). exists vals. split; [exact V1|].
  intros R HR. rewrite He in V2, V4.
  assert (St1 : forall l, improvements (min_delta (stop_config c)) l R ->
     (should_stop (fold_left (early_stopping_update (stop_config c)) l stopping0) = true <-> stalled (Z.to_nat p) l R)).
  { intros l Hl. rewrite Hc. apply es_min_stops; [exact Hp|exact Hl]. }
  split; [|split].
  - intros j Hj. destruct j as [|j].
    + intros [u [Hu _]]. rewrite firstn_O in Hu. cbn in Hu. lia.
    + rewrite <- St1 by (apply improvements_firstn; exact HR). rewrite V4 by lia. discriminate.
  - intros Hlt. destruct (V3 Hlt) as [_ Y]. rewrite V2 in Y. apply St1; assumption.
  - intros Hst. assert (Hne : vals <> []). { intros ->. destruct Hst as [u [Hu _]]. cbn in Hu. lia. }
    apply St1 in Hst; [|exact HR]. rewrite <- V2 in Hst. destruct (V5 Hne Hst) as [Z1 Z2].
    exists (length ms - 1)%nat. split; [lia|]. unfold validation_epochs. apply filter_In. split.
    + apply in_seq. lia.
    + replace (0 + length ms - 1)%nat with (length ms - 1)%nat in Z2 by lia. exact Z2.
Qed.

Theorem early_stopping_zero_delta : forall p vs, (0 < p)%Z ->
  (should_stop (fold_left (early_stopping_update {| patience := Some p; mode := Some "min"%string; min_delta := 0 |}) vs stopping0) = true
   <-> stalled (Z.to_nat p) vs (new_minimum vs)).
Proof. intros p vs Hp. apply es_min_stops; [exact Hp|]. apply improvements_zero. Qed.

Theorem inactive_never_stops : forall c vs, ~ (exists p m, patience c = Some p /\ mode c = Some m /\ (0 < p)%Z /\ (m = "min"%string \/ m = "max"%string)) ->
  is_active c = false /\ fold_left (early_stopping_update c) vs stopping0 = stopping0.
Proof.
  intros c vs H. assert (E : is_active c = false).
  { destruct (is_active c) eqn:E; [|reflexivity]. exfalso. apply H, active_iff, E. }
  split; [exact E|]. apply mixin_inactive. exact E.
Qed.

(** an improvement does not undo a stop: with the same trainer object the next call
    stops at its first validation *)
Theorem reused_trainer_stops : exists c vs v, is_active c = true /\
  (forall x, In x vs -> (v < x)%Q) /\
  should_stop (fold_left (early_stopping_update c) (vs ++ [v]) stopping0) = true /\
  has_improved (fold_left (early_stopping_update c) (vs ++ [v]) stopping0) = true.
Proof.
  exists {| patience := Some 1%Z; mode := Some "min"%string; min_delta := 0 |}, [2; 3; 3]%Q, 1%Q.
  repeat split. intros x [<-|[<-|[<-|[]]]]; reflexivity.
Qed.

(** ---- C21 ---- *)
Theorem train_runs_epochs :
  forall St Batch VBatch step_no (tstep : St -> Batch -> nat -> St * list Q) (vstep : St -> VBatch -> list Q)
    cb_start cb_step cb_end monitor c bs vs t s t' s' ms mvs,
  train step_no tstep vstep cb_start cb_step cb_end monitor c bs vs t s = Ok (t', s', ms, mvs) ->
  (accumulation c <= 1)%nat -> (forall x, step_no (cb_step x) = step_no x) ->
  let epoch := one_epoch step_no tstep cb_start cb_step cb_end bs in
  (length ms <= n_epochs c)%nat
  /\ (is_active (stop_config c) = false -> length ms = n_epochs c)
  /\ s' = times (length ms) epoch s
  /\ (forall i, (i < length ms)%nat ->
        is_mean_of (snd (one_pass step_no tstep cb_step bs (cb_start (times i epoch s)))) (nth i ms []))
  /\ match vs with
     | None => mvs = []
     | Some v => Forall2 (fun e m => is_mean_of (map (vstep (times (S e) epoch s)) v) m)
                         (validation_epochs (eval_every c) (length ms)) mvs
     end.
Proof.
  intros St Batch VBatch step_no tstep vstep cb_start cb_step cb_end monitor c bs vs t s t' s' ms mvs H Hk Hcb.
  apply train_spec in H. destruct H as (t0 & E & _ & _). apply eloop_spec in E. cbv zeta in E |- *.
  destruct E as (A & B & C & _ & D & _ & F).
  assert (X : forall y, epoch_state St Batch step_no tstep cb_start cb_step cb_end (accumulation c) bs y
                        = one_epoch step_no tstep cb_start cb_step cb_end bs y).
  { intros y. apply epoch_state_simple; assumption. }
  split; [exact A|]. split; [intros Hi; apply F, Hi|]. split; [rewrite B; apply times_ext; exact X|]. split.
  - intros i Hi. specialize (C i Hi). apply mean_metrics_spec in C.
    rewrite (proj2 (epoch_state_simple St Batch step_no tstep cb_start cb_step cb_end _ _ _ Hk Hcb)) in C.
    rewrite (times_ext _ _ i s X) in C. exact C.
  - destruct vs as [v|]; [|exact D]. revert D. apply Forall2_weaken. intros e m _ G.
    apply mean_metrics_spec in G. rewrite Nat.sub_0_r in G. rewrite (times_ext _ _ (S e) s X) in G. exact G.
Qed.

Theorem train_runs_groups :
  forall St Batch VBatch step_no (tstep : St -> Batch -> nat -> St * list Q) (vstep : St -> VBatch -> list Q)
    cb_start cb_step cb_end monitor c bs vs t s t' s' ms mvs,
  train step_no tstep vstep cb_start cb_step cb_end monitor c bs vs t s = Ok (t', s', ms, mvs) ->
  (1 <= accumulation c)%nat -> (forall x, step_no (cb_step x) = step_no x) ->
  (forall s b key, step_no (fst (tstep s b key)) = S (step_no s)) ->
  (length ms <= n_epochs c)%nat
  /\ (is_active (stop_config c) = false -> length ms = n_epochs c)
  /\ s' = times (length ms) (grouped_epoch (accumulation c) step_no tstep cb_start cb_step cb_end bs) s.
Proof.
  intros St Batch VBatch step_no tstep vstep cb_start cb_step cb_end monitor c bs vs t s t' s' ms mvs H Hk Hcb Hup.
  apply train_spec in H. destruct H as (t0 & E & _ & _). apply eloop_spec in E. cbv zeta in E |- *.
  destruct E as (A & B & C & _ & D & _ & F).
  split; [exact A|]. split; [intros Hi; apply F, Hi|]. rewrite B. apply times_ext. intros y.
  apply epoch_state_grouped; assumption.
Qed.

Theorem train_succeeds :
  forall St Batch VBatch step_no (tstep : St -> Batch -> nat -> St * list Q) (vstep : St -> VBatch -> list Q)
    cb_start cb_step cb_end monitor c (bs : list Batch) vs t s,
  bs <> [] -> (accumulation c <= length bs)%nat -> (forall v, vs = Some v -> v <> []) ->
  (is_active (stop_config c) = true -> forall m, monitor m <> None) ->
  exists r, train step_no tstep vstep cb_start cb_step cb_end monitor c bs vs t s = Ok r.
Proof.
  intros St Batch VBatch step_no tstep vstep cb_start cb_step cb_end monitor c bs vs t s Hb Hk Hv Hm.
  unfold train.
  assert (Hl : (1 <= length bs)%nat) by (destruct bs; [congruence|cbn; lia]).
  destruct (eloop_total St Batch VBatch step_no tstep vstep cb_start cb_step cb_end monitor c bs vs
             (fun s0 => epoch_rows_nonempty _ _ _ _ _ _ _ _ _ Hl Hk) Hv Hm (n_epochs c) 0 t s) as [[[[t1 s1] ms] mvs] E].
  rewrite E. cbn. eauto.
Qed.

Theorem short_epoch_fails :
  forall St Batch VBatch step_no (tstep : St -> Batch -> nat -> St * list Q) (vstep : St -> VBatch -> list Q)
    cb_start cb_step cb_end monitor c (bs : list Batch) vs t s,
  bs = [] \/ (length bs < accumulation c)%nat -> (0 < n_epochs c)%nat ->
  train step_no tstep vstep cb_start cb_step cb_end monitor c bs vs t s = Err TypeError.
Proof.
  intros St Batch VBatch step_no tstep vstep cb_start cb_step cb_end monitor c bs vs t s Hb Hn.
  unfold train. destruct (n_epochs c) as [|n]; [lia|]. cbn [epochs_loop].
  rewrite tloop_fail; [reflexivity|]. apply epoch_rows_empty. exact Hb.
Qed.

(** ---- C61 ---- *)
Theorem train_keys :
  forall St Batch VBatch step_no (tstep : St -> Batch -> nat -> St * list Q) (vstep : St * list nat -> VBatch -> list Q)
    cb_start cb_step cb_end monitor c bs vs t s t' s' l ms mvs,
  (forall s b key, step_no (fst (tstep s b key)) = S (step_no s)) ->
  (forall x, step_no (cb_start x) = step_no x) -> (forall x, step_no (cb_step x) = step_no x) ->
  (forall x, step_no (cb_end x) = step_no x) ->
  train (fun x => step_no (fst x)) (logging tstep) vstep (on_state cb_start) (on_state cb_step) (on_state cb_end)
    monitor c bs vs t (s, []) = Ok (t', (s', l), ms, mvs) ->
  l = group_keys (Nat.max 1 (accumulation c)) (length bs) (length ms) (step_no s).
Proof.
  intros St Batch VBatch step_no tstep vstep cb_start cb_step cb_end monitor c bs vs t s t' s' l ms mvs H1 H2 H3 H4 H.
  apply train_spec in H. destruct H as (t0 & E & _ & _). apply eloop_spec in E. cbv zeta in E.
  destruct E as (_ & B & _).
  pose proof (times_keys St Batch step_no tstep cb_start cb_step cb_end H1 H2 H3 H4
     (Nat.max 1 (accumulation c)) bs (length ms) s [] ltac:(lia)) as K.
  erewrite times_ext in K; [rewrite <- B in K; exact K|].
  intros y. symmetry. apply epoch_state_max1.
Qed.

Lemma group_keys_fresh : forall k n E base, (k <= 1)%nat -> group_keys (Nat.max 1 k) n E base = seq base (E * n) /\ NoDup (seq base (E * n)).
Proof.
  intros k n E base Hk. replace (Nat.max 1 k) with 1%nat by lia. split; [apply group_keys_one|apply seq_NoDup].
Qed.

Lemma group_keys_repeat : forall k n E base, (2 <= k)%nat -> (2 <= n)%nat -> (1 <= E)%nat -> ~ NoDup (group_keys (Nat.max 1 k) n E base).
Proof.
  intros k n E base Hk Hn HE. replace (Nat.max 1 k) with k by lia.
  destruct E as [|E]; [lia|]. destruct n as [|[|n]]; [lia|lia|]. unfold group_keys. cbn [seq flat_map map app].
  rewrite (Nat.div_small 0 k), (Nat.div_small 1 k) by lia. intros H. inversion H as [|? ? Hx _]; subst.
  apply Hx. left. reflexivity.
Qed.

(** ---- C64 ---- *)
Theorem train_checkpoints :
  forall St Batch VBatch step_no (tstep : St -> Batch -> nat -> St * list Q) (vstep : St -> VBatch -> list Q)
    cb_start cb_step cb_end monitor c bs vs t s t' s' ms mvs n,
  (forall s b key, step_no (fst (tstep s b key)) = S (step_no s)) ->
  (forall x, step_no (cb_start x) = step_no x) -> (forall x, step_no (cb_step x) = step_no x) ->
  (forall x, step_no (cb_end x) = step_no x) ->
  train step_no tstep vstep cb_start cb_step cb_end monitor c bs vs t s = Ok (t', s', ms, mvs) ->
  (accumulation c <= 1)%nat -> save_dir c = true -> save_every c = Some n -> (0 < n)%nat ->
  saved t = [] -> gstep t = 0%nat -> step_no s = 0%nat ->
  periodic (saved t') = filter (fun g => g mod n =? 0)%nat (seq 1 (length ms * length bs))
  /\ Forall (fun x => step_no (snd x) = fst (fst x)) (saved t')
  /\ exists l, saved t' = l ++ [(length ms * length bs, true, s')%nat].
Proof.
  intros St Batch VBatch step_no tstep vstep cb_start cb_step cb_end monitor c bs vs t s t' s' ms mvs n
    H1 H2 H3 H4 H Hk Hd Hs Hn Hsv Hg H0.
  apply train_spec in H. destruct H as (t0 & E & Hsave & _).
  destruct (eloop_saves St Batch VBatch step_no tstep vstep cb_start cb_step cb_end monitor H1 H2 H3 H4 c vs n Hk Hd Hs Hn
     bs (n_epochs c) 0 t s 0%Z t0 s' ms mvs) as (new & A & B & C & D & F); [rewrite Hg, H0; reflexivity|exact E|].
  rewrite Hsv in A. cbn [app] in A. rewrite Hg in B, F. cbn [Nat.add] in F.
  subst t'. unfold save. rewrite Hd. cbn [saved]. rewrite A. split; [|split].
  - rewrite periodic_app, B. cbn. rewrite app_nil_r. reflexivity.
  - apply Forall_app. split.
    + eapply Forall_impl; [|exact C]. intros x Hx. unfold aligned in Hx. lia.
    + constructor; [|constructor]. cbn [fst snd]. lia.
  - exists new. rewrite F. reflexivity.
Qed.

(** ---- C22 ---- *)
Theorem accumulation_groups :
  forall (Params OptState Grad Mutable Batch : Type)
    (f : Params -> Mutable -> Batch -> nat -> Grad * Mutable * list Q)
    (gadd : Grad -> Grad -> Grad) (gdiv : Grad -> nat -> Grad) (zeros_like clip : Grad -> Grad)
    (opt : Grad -> OptState -> Params -> Params * OptState) (shape : Grad -> Prop),
  (forall p m b key, shape (fst (fst (f p m b key)))) ->
  (forall g k, shape g -> shape (gdiv g k)) -> (forall g h, shape g -> shape h -> shape (gadd g h)) ->
  (forall g, shape g -> shape (clip g)) -> (forall g h, shape g -> shape h -> gadd g (zeros_like h) = g) ->
  forall k groups rest (s : tstate Params OptState Grad Mutable),
  (1 < k)%nat -> Forall (fun l => length l = k) groups -> (length rest < k)%nat ->
  (step s mod k = 0)%nat -> (acc s = None \/ exists h, shape h /\ acc s = Some (zeros_like h)) ->
  let s' := fold_left (fun s bk => fst (training_step f gadd gdiv zeros_like clip opt k s (fst bk) (snd bk)))
                      (List.concat groups ++ rest) s in
  let '(p, o, m) := fold_left (group_update f gadd (fun g => gdiv g k) clip opt) groups (params s, opt_state s, mutable s) in
  params s' = p /\ opt_state s' = o /\ mutable s' = snd (micro_gradients f p m rest)
  /\ step s' = (step s + k * length groups + length rest)%nat.
Proof.
  intros Params OptState Grad Mutable Batch f gadd gdiv zeros_like clip opt shape H1 H2 H3 H4 H5 k groups rest s Hk Hg Hr Hn Ha.
  exact (accumulation_spec Params OptState Grad Mutable Batch f gadd gdiv zeros_like clip opt shape H1 H2 H3 H4 H5 k groups rest s Hk Hg Hr Hn Ha).
Qed.

Theorem accumulation_vectors :
  forall (Params OptState Mutable Batch : Type) (d : nat)
    (f : Params -> Mutable -> Batch -> nat -> list Q * Mutable * list Q)
    (clip : list Q -> list Q) (opt : list Q -> OptState -> Params -> Params * OptState),
  (forall p m b key, length (fst (fst (f p m b key))) = d) -> (forall g, length (clip g) = length g) ->
  forall k l (s : tstate Params OptState (list Q) Mutable),
  (1 < k)%nat -> length l = k -> (step s mod k = 0)%nat -> acc s = None ->
  let s' := fold_left (fun s bk => fst (training_step f vadd vdiv vzero clip opt k s (fst bk) (snd bk))) l s in
  exists g, (params s', opt_state s') = opt (clip g) (opt_state s) (params s)
    /\ length g = d
    /\ forall j, nth j g 0%Q == column_mean j (fst (micro_gradients f (params s) (mutable s) l)).
Proof.
  intros Params OptState Mutable Batch d f clip opt H1 H4 k l s Hk Hl Hn Ha. cbv zeta.
  pose proof (run_complete Params OptState (list Q) Mutable Batch f vadd vdiv vzero clip opt k l s Hk
    ltac:(lia) ltac:(intros ->; cbn in Hl; lia)) as R.
  pose proof (micro_shape Params (list Q) Mutable Batch f (fun x => length x = d) H1 (params s) l (mutable s)) as Sh.
  pose proof (micro_len Params (list Q) Mutable Batch f (params s) l (mutable s)) as Le.
  destruct (micro_gradients f (params s) (mutable s) l) as [gs m']. cbn [fst] in *. cbv zeta in R.
  destruct R as (g & G1 & G2 & _). rewrite Ha in G1.
  assert (T : total vadd gs = Some g).
  { destruct gs as [|x gs]; [cbn in Le; lia|]. cbn [fold_left] in G1. unfold add_opt at 2 in G1.
    rewrite fold_add_some in G1. exact G1. }
  exists (vdiv g k). split; [exact G2|]. split.
  - unfold vdiv. rewrite map_length. apply (vtotal_nth d gs g 0 Sh T).
  - intros j. rewrite <- Hl, <- Le. apply (mean_is_mean d); assumption.
Qed.

Theorem loss_scaling_ok :
  forall (Params OptState Grad Mutable Batch : Type)
    (f : Params -> Mutable -> Batch -> nat -> Grad * Mutable * list Q)
    (gadd : Grad -> Grad -> Grad) (gdiv : Grad -> nat -> Grad) (zeros_like clip : Grad -> Grad)
    (opt : Grad -> OptState -> Params -> Params * OptState) is_fin k (s : tstate Params OptState Grad Mutable) b key,
  let plain := training_step f gadd gdiv zeros_like clip opt k s b key in
  let scaled := training_step_scaled f gadd gdiv zeros_like clip opt is_fin k s b key in
  let g := fst (fst (f (params s) (mutable s) b key)) in
  (is_fin g = true -> scaled = plain) /\
  (is_fin g = false -> params (fst scaled) = params s /\ opt_state (fst scaled) = opt_state s /\ step (fst scaled) = S (step s)).
Proof.
  intros. split.
  - intros H. apply scaled_finite. exact H.
  - intros H. apply scaled_skips. exact H.
Qed.

(** checkpoints drop the accumulated gradient, mixin.py:49-55: a restored run divides
    the gradient of the remaining micro-batches by k *)
Definition sgd (g : list Q) (o : unit) (p : list Q) : list Q * unit := (vadd p (map Qopp g), o).
Theorem restored_accumulation_wrong : exists (f : list Q -> unit -> Q -> nat -> list Q * unit * list Q) b0 b1 (s : tstate (list Q) unit (list Q) unit),
  let step_ := fun s b => fst (training_step f vadd vdiv vzero (fun g => g) sgd 2 s b 0%nat) in
  let mid := step_ s b0 in
  let restored := Build_tstate _ _ _ _ (params mid) (opt_state mid) (step mid) (mutable mid) None in
  Qeq (nth 0 (params (step_ mid b1)) 0%Q) (-2) /\ Qeq (nth 0 (params (step_ restored b1)) 0%Q) (-1).
Proof.
  exists (fun p _ b _ => ([b], tt, [])), 2%Q, 2%Q, (Build_tstate _ _ _ _ [0%Q] tt 0%nat tt None).
  split; vm_compute; reflexivity.
Qed.

(** loss scaling only tests the gradient of the last micro-batch; None stands for a
    number that is not finite *)
Definition nadd (a b : option Q) : option Q := match a, b with Some x, Some y => Some (x + y)%Q | _, _ => None end.
Definition ndiv (a : option Q) (k : nat) : option Q := match a with Some x => Some (x / inject_Z (Z.of_nat k))%Q | None => None end.
Theorem scaled_accumulation_not_finite :
  exists (f : option Q -> unit -> option Q -> nat -> option Q * unit * list Q) b0 b1 (s : tstate (option Q) unit (option Q) unit),
  let step_ := fun s b => fst (training_step_scaled f nadd ndiv (fun _ => Some 0%Q) (fun g => g)
      (fun g o p => (nadd p (ndiv g 1), o)) (fun g => match g with Some _ => true | None => false end) 2 s b 0%nat) in
  params s <> None /\ params (step_ (step_ s b0) b1) = None.
Proof.
  exists (fun p _ b _ => (b, tt, [])), None, (Some 1%Q), (Build_tstate _ _ _ _ (Some 0%Q) tt 0%nat tt None).
  split; [discriminate|reflexivity].
Qed.

(** with accumulation, batches left over at the end of an epoch keep counting: the
    update falls inside a group of the next epoch's logging *)
Theorem leftover_batches_cross_epochs : exists (f : list Q -> unit -> Q -> nat -> list Q * unit * list Q) b0 b1 b2 (s : tstate (list Q) unit (list Q) unit),
  let step_ := fun s b => fst (training_step f vadd vdiv vzero (fun g => g) sgd 2 s b 0%nat) in
  let epoch := fun s => fold_left step_ [b0; b1; b2] s in
  params (step_ (epoch s) b0) <> params (epoch s) /\ params (step_ (step_ (epoch s) b0) b1) = params (step_ (epoch s) b0).
Proof.
  exists (fun p _ b _ => ([b], tt, [])), 2%Q, 2%Q, 2%Q, (Build_tstate _ _ _ _ [0%Q] tt 0%nat tt None).
  split; vm_compute; [discriminate|reflexivity].
Qed.

(** a toy model for the concrete cases *)
Definition toy_step (s : list nat) (b key : nat) : list nat * list Q := (s ++ [b], [inject_Z (Z.of_nat b)]).
Definition toy_config (k n : nat) (every : Z) (p : option Z) : config :=
  {| accumulation := k; n_epochs := n; eval_every := every; save_dir := true; save_every := Some 2%nat;
     stop_config := {| patience := p; mode := Some "min"%string; min_delta := 0 |} |}.
Definition toy_train (c : config) :=
  train (@length nat) toy_step (fun (_ : list nat) (v : Q) => [v]) (fun s => s) (fun s => s) (fun s => s) (fun m => nth_error m 0)
    c [1; 2; 3]%nat (Some [1; 2]%Q) {| es := stopping0; gstep := 0; saved := [] |} [].

Theorem accumulation_skips_checkpoints : exists c,
  save_dir c = true /\ save_every c = Some 2%nat /\
  exists t s ms mvs, toy_train c = Ok (t, s, ms, mvs) /\ length s = 6%nat /\ periodic (saved t) = [6]%nat.
Proof.
  exists (toy_config 3 2 2 None). split; [reflexivity|]. split; [reflexivity|].
  eexists. eexists. eexists. eexists. split; [vm_compute; reflexivity|]. split; reflexivity.
Qed.
