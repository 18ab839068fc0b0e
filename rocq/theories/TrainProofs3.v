From Coq Require Import List Arith ZArith QArith Bool String Lia Lqa.
From Verif Require Import Lib QuantModel TrainModel TrainSpec TrainProofs TrainProofs2.
Import ListNotations.
Open Scope list_scope.
Local Notation length := List.length.

(** ---- gradient accumulation ---- *)
Section Accumulation.
Variables (Params OptState Grad Mutable Batch : Type)
  (f : Params -> Mutable -> Batch -> nat -> Grad * Mutable * list Q)
  (gadd : Grad -> Grad -> Grad) (gdiv : Grad -> nat -> Grad) (zeros_like clip : Grad -> Grad)
  (opt : Grad -> OptState -> Params -> Params * OptState).
Notation ts := (tstate Params OptState Grad Mutable).
Notation tstep := (training_step Params OptState Grad Mutable Batch f gadd gdiv zeros_like clip opt).
Notation P := (params Params OptState Grad Mutable).
Notation O := (opt_state Params OptState Grad Mutable).
Notation N := (step Params OptState Grad Mutable).
Notation M := (mutable Params OptState Grad Mutable).
Notation A := (acc Params OptState Grad Mutable).

Definition run (k : nat) (l : list (Batch * nat)) (s : ts) : ts :=
  fold_left (fun s bk => fst (tstep k s (fst bk) (snd bk))) l s.

Definition add_opt (a : option Grad) (g : Grad) : option Grad :=
  Some (match a with Some a => gadd g a | None => g end).

Lemma run_below : forall k l s, (1 < k)%nat -> (N s mod k + length l < k)%nat ->
  let '(gs, m') := micro_gradients f (P s) (M s) l in
  let s' := run k l s in
  P s' = P s /\ O s' = O s /\ N s' = (N s + length l)%nat /\ M s' = m' /\ A s' = fold_left add_opt gs (A s).
Proof.
  intros k l. induction l as [|[b key] l IH]; intros s Hk Hl; cbn [micro_gradients].
  - cbn. repeat split; lia.
  - destruct (f (P s) (M s) b key) as [[g m1] lo] eqn:F.
    cbn [length] in Hl.
    assert (Hmod : (S (N s) mod k = S (N s mod k))%nat).
    { rewrite <- Nat.add_1_r, <- Nat.add_mod_idemp_l by lia. rewrite Nat.mod_small by lia. lia. }
    set (s1 := fst (tstep k s b key)).
    assert (S1 : P s1 = P s /\ O s1 = O s /\ N s1 = S (N s) /\ M s1 = m1 /\ A s1 = add_opt (A s) g).
    { unfold s1, training_step. rewrite F. cbn [fst]. rewrite (proj2 (Nat.ltb_lt 1 k) Hk).
      unfold update_with_accumulation. rewrite Hmod. cbn [Nat.eqb]. cbn. auto. }
    destruct S1 as (E1 & E2 & E3 & E4 & E5).
    specialize (IH s1 Hk). rewrite E3, Hmod in IH. specialize (IH ltac:(lia)).
    rewrite E1, E4 in IH. destruct (micro_gradients f (P s) m1 l) as [gs m'].
    cbv zeta in IH |- *. unfold run in *. cbn [fold_left fst snd]. fold s1.
    destruct IH as (I1 & I2 & I3 & I4 & I5). rewrite I1, I2, I3, I4, I5, E2, E5. cbn [fold_left length].
    repeat split; lia.
Qed.

Lemma micro_app : forall p m l1 l2,
  micro_gradients f p m (l1 ++ l2)
  = (fst (micro_gradients f p m l1) ++ fst (micro_gradients f p (snd (micro_gradients f p m l1)) l2),
     snd (micro_gradients f p (snd (micro_gradients f p m l1)) l2)).
Proof.
  intros p m l1. revert m. induction l1 as [|[b key] l1 IH]; intros m l2; cbn [app micro_gradients].
  - cbn. apply surjective_pairing.
  - destruct (f p m b key) as [[g m1] lo]. rewrite IH.
    destruct (micro_gradients f p m1 l1) as [gs m2]. cbn. reflexivity.
Qed.

Lemma run_complete : forall k l s, (1 < k)%nat -> (N s mod k + length l = k)%nat -> l <> [] ->
  let '(gs, m') := micro_gradients f (P s) (M s) l in
  let s' := run k l s in
  exists g, fold_left add_opt gs (A s) = Some g
  /\ (P s', O s') = opt (clip (gdiv g k)) (O s) (P s)
  /\ N s' = (N s + length l)%nat /\ M s' = m' /\ A s' = Some (zeros_like (clip (gdiv g k))).
Proof.
  intros k l s Hk Hl Hne. destruct (@exists_last _ l Hne) as [l0 [[b key] ->]].
  rewrite app_length in Hl. cbn [length] in Hl.
  rewrite micro_app. pose proof (run_below k l0 s Hk ltac:(lia)) as R.
  destruct (micro_gradients f (P s) (M s) l0) as [gs m1]. cbn [fst snd] in *. cbv zeta in R |- *.
  set (s1 := run k l0 s) in *.
  assert (RR : run k (l0 ++ [(b, key)]) s = fst (tstep k s1 b key)).
  { unfold run. rewrite fold_left_app. reflexivity. }
  rewrite RR. destruct R as (R1 & R2 & R3 & R4 & R5).
  cbn [micro_gradients]. unfold training_step. rewrite R1, R4. destruct (f (P s) m1 b key) as [[g m2] lo] eqn:F.
  cbn [fst snd]. rewrite (proj2 (Nat.ltb_lt 1 k) Hk). unfold update_with_accumulation.
  assert (Hm : (S (N s1) mod k = 0)%nat).
  { rewrite R3. replace (S (N s + length l0)) with (N s + (1 + length l0))%nat by lia.
    rewrite <- Nat.add_mod_idemp_l by lia. replace (N s mod k + (1 + length l0))%nat with k by lia. apply Nat.mod_same. lia. }
  rewrite Hm. cbn [Nat.eqb]. rewrite fold_left_app. cbn [fold_left].
  exists (match A s1 with Some a => gadd g a | None => g end).
  rewrite <- R5. split; [reflexivity|]. unfold apply_gradients. cbn. rewrite R1, R2.
  split; [symmetry; apply surjective_pairing|]. rewrite R3. rewrite app_length. cbn. repeat split; lia.
Qed.

Variable shape : Grad -> Prop.
Hypothesis f_shape : forall p m b key, shape (fst (fst (f p m b key))).
Hypothesis div_shape : forall g k, shape g -> shape (gdiv g k).
Hypothesis add_shape : forall g h, shape g -> shape h -> shape (gadd g h).
Hypothesis clip_shape : forall g, shape g -> shape (clip g).
Hypothesis add_zeros : forall g h, shape g -> shape h -> gadd g (zeros_like h) = g.

Definition fresh (a : option Grad) : Prop := a = None \/ exists h, shape h /\ a = Some (zeros_like h).

Lemma fold_add_some : forall gs a, fold_left add_opt gs (Some a) = Some (fold_left (fun a x => gadd x a) gs a).
Proof. induction gs as [|g gs IH]; intros a; cbn; [reflexivity|]. apply IH. Qed.

Lemma micro_shape : forall p l m, Forall shape (fst (micro_gradients f p m l)) .
Proof.
  intros p l. induction l as [|[b key] l IH]; intros m; cbn [micro_gradients]; [constructor|].
  pose proof (f_shape p m b key) as H. destruct (f p m b key) as [[g m1] lo]. cbn in H.
  specialize (IH m1). destruct (micro_gradients f p m1 l). cbn in *. constructor; assumption.
Qed.

Lemma micro_len : forall p l m, length (fst (micro_gradients f p m l)) = length l.
Proof.
  intros p l. induction l as [|[b key] l IH]; intros m; cbn [micro_gradients]; [reflexivity|].
  destruct (f p m b key) as [[g m1] lo].
  specialize (IH m1). destruct (micro_gradients f p m1 l). cbn in *. lia.
Qed.

Lemma fold_fresh : forall gs a, Forall shape gs -> fresh a -> gs <> [] -> fold_left add_opt gs a = total gadd gs.
Proof.
  intros [|g gs] a Hs Ha Hne; [congruence|]. cbn [fold_left total].
  assert (E : add_opt a g = Some g).
  { inversion Hs; subst. destruct Ha as [->|[h [Hh ->]]]; unfold add_opt; [reflexivity|]. rewrite add_zeros; auto. }
  rewrite E. apply fold_add_some.
Qed.

Lemma total_shape : forall gs g, Forall shape gs -> total gadd gs = Some g -> shape g.
Proof.
  intros [|x gs] g Hs H; [discriminate|]. cbn in H. injection H as <-. inversion Hs as [|? ? Hx Hgs]; subst.
  clear Hs. revert x Hx. induction gs as [|y gs IH]; intros x Hx; cbn; [exact Hx|].
  inversion Hgs; subst. apply IH; auto.
Qed.

Theorem accumulation_spec : forall k groups rest s, (1 < k)%nat ->
  Forall (fun l => length l = k) groups -> (length rest < k)%nat -> (N s mod k = 0)%nat -> fresh (A s) ->
  let s' := run k (List.concat groups ++ rest) s in
  let '(p, o, m) := fold_left (group_update f gadd (fun g => gdiv g k) clip opt) groups (P s, O s, M s) in
  P s' = p /\ O s' = o /\ M s' = snd (micro_gradients f p m rest) /\ N s' = (N s + k * length groups + length rest)%nat.
Proof.
  intros k groups. induction groups as [|l groups IH]; intros rest s Hk Hg Hr Hn Ha; cbv zeta.
  - cbn [List.concat app fold_left length]. pose proof (run_below k rest s Hk ltac:(lia)) as R.
    destruct (micro_gradients f (P s) (M s) rest) as [gs m'] eqn:E. cbv zeta in R. cbn [snd].
    destruct R as (R1 & R2 & R3 & R4 & R5). rewrite R3. repeat split; auto; lia.
  - inversion Hg as [|? ? Hl Hg']; subst. cbn [List.concat fold_left]. rewrite <- app_assoc.
    set (k := length l) in *.
    assert (Hne : l <> []). { intros ->. cbn in k. lia. }
    pose proof (run_complete k l s Hk ltac:(unfold k in *; lia) Hne) as R.
    unfold group_update at 2. pose proof (micro_shape (P s) l (M s)) as Sh. pose proof (micro_len (P s) l (M s)) as Le.
    destruct (micro_gradients f (P s) (M s) l) as [gs m1] eqn:E. cbn [fst] in Sh, Le. cbv zeta in R.
    destruct R as (g & G1 & G2 & G3 & G4 & G5).
    assert (gs <> []). { intros ->. cbn in Le. lia. }
    rewrite fold_fresh in G1 by assumption. rewrite G1.
    assert (RR : run k (l ++ List.concat groups ++ rest) s = run k (List.concat groups ++ rest) (run k l s)).
    { unfold run. rewrite fold_left_app. reflexivity. }
    rewrite RR. set (s1 := run k l s) in *.
    assert (Hn1 : (N s1 mod k = 0)%nat).
    { rewrite G3. rewrite <- Nat.add_mod_idemp_l by lia. rewrite Hn. cbn. apply Nat.mod_same. lia. }
    assert (Ha1 : fresh (A s1)).
    { right. exists (clip (gdiv g k)). split; [|exact G5]. apply clip_shape, div_shape. eapply total_shape; eassumption. }
    specialize (IH rest s1 Hk Hg' Hr Hn1 Ha1). cbv zeta in IH.
    assert (EE : (P s1, O s1, M s1) = (opt (clip (gdiv g k)) (O s) (P s), m1)). { rewrite <- G2, G4. reflexivity. }
    rewrite EE in IH.
    destruct (fold_left (group_update f gadd (fun g0 => gdiv g0 k) clip opt) groups (opt (clip (gdiv g k)) (O s) (P s), m1)) as [[p o] m].
    destruct IH as (I1 & I2 & I3 & I4). rewrite I1, I2, I3, I4, G3. cbn [length]. repeat split; try lia.
Qed.

(** loss scaling *)
Variable is_fin : Grad -> bool.
Notation sstep := (training_step_scaled Params OptState Grad Mutable Batch f gadd gdiv zeros_like clip opt is_fin).

Lemma scaled_finite : forall k s b key, is_fin (fst (fst (f (P s) (M s) b key))) = true -> sstep k s b key = tstep k s b key.
Proof. intros k s b key H. unfold training_step_scaled. cbv zeta. rewrite H. reflexivity. Qed.

Lemma scaled_skips : forall k s b key, is_fin (fst (fst (f (P s) (M s) b key))) = false ->
  P (fst (sstep k s b key)) = P s /\ O (fst (sstep k s b key)) = O s /\ N (fst (sstep k s b key)) = S (N s).
Proof.
  intros k s b key H. unfold training_step_scaled. cbv zeta. rewrite H. cbn. repeat split.
  unfold training_step. destruct (f (P s) (M s) b key) as [[g m] l]. cbn [fst].
  destruct (1 <? k)%nat; [|reflexivity]. unfold update_with_accumulation. destruct (_ =? 0)%nat; reflexivity.
Qed.

Lemma step_counts : forall k s b key, N (fst (tstep k s b key)) = S (N s).
Proof.
  intros k s b key. unfold training_step. destruct (f (P s) (M s) b key) as [[g m] l]. cbn [fst].
  destruct (1 <? k)%nat; [|reflexivity]. unfold update_with_accumulation. destruct (_ =? 0)%nat; reflexivity.
Qed.
End Accumulation.

(** vectors of rationals *)
Lemma Qplus_0_r_eq : forall q, (q + 0)%Q = q.
Proof. intros [a b]. unfold Qplus. cbn. rewrite Z.mul_1_r, Z.add_0_r, Pos.mul_1_r. reflexivity. Qed.

Lemma vadd_zero : forall d g h, length g = d -> length h = d -> vadd g (vzero h) = g.
Proof.
  intros d g. revert d. induction g as [|x g IH]; intros d h Hg Hh; [reflexivity|].
  destruct h as [|y h]; [cbn in *; lia|]. unfold vadd, vzero in *. cbn [map combine fst snd].
  rewrite Qplus_0_r_eq. f_equal. apply (IH (length g)); cbn in *; lia.
Qed.
Lemma vadd_length : forall d g h, length g = d -> length h = d -> length (vadd g h) = d.
Proof. intros. unfold vadd. rewrite map_length, combine_length. lia. Qed.
Lemma vadd_nth : forall g h j, length g = length h -> nth j (vadd g h) 0%Q == (nth j g 0 + nth j h 0)%Q.
Proof.
  induction g as [|x g IH]; intros [|y h] j H; try (cbn in H; lia).
  - cbn. destruct j; reflexivity.
  - destruct j; unfold vadd; cbn [combine map nth fst snd]; [reflexivity|]. apply IH. cbn in H. lia.
Qed.
Lemma vtotal_nth : forall d gs g j, Forall (fun x => length x = d) gs -> total vadd gs = Some g ->
  nth j g 0%Q == fold_right Qplus 0%Q (map (fun r => nth j r 0%Q) gs) /\ length g = d.
Proof.
  intros d [|x gs] g j H; [discriminate|]. cbn [total]. intros E. injection E as <-.
  inversion H as [|? ? Hx Hgs]; subst. clear H. cbn [map fold_right].
  assert (K : forall a, length a = length x -> nth j (fold_left (fun a0 x0 => vadd x0 a0) gs a) 0%Q
      == (nth j a 0 + fold_right Qplus 0 (map (fun r => nth j r 0) gs))%Q
      /\ length (fold_left (fun a0 x0 => vadd x0 a0) gs a) = length x).
  { induction gs as [|y gs IH]; intros a Ha; cbn [fold_left map fold_right]; [split; [lra|exact Ha]|].
    inversion Hgs; subst. destruct (IH H2 (vadd y a)) as [I1 I2]; [apply (vadd_length (length x)); auto|].
    split; [|exact I2]. rewrite I1. rewrite vadd_nth by congruence. lra. }
  destruct (K x eq_refl) as [K1 K2]. split; assumption.
Qed.
Lemma vdiv_nth : forall g k j, nth j (vdiv g k) 0%Q == (nth j g 0 / inject_Z (Z.of_nat k))%Q.
Proof.
  intros g k j. unfold vdiv. revert j. induction g as [|x g IH]; intros j; cbn [map nth].
  - destruct j; unfold Qdiv; lra.
  - destruct j; [reflexivity|apply IH].
Qed.
Lemma mean_is_mean : forall d gs g j, Forall (fun x => length x = d) gs -> total vadd gs = Some g ->
  nth j (vdiv g (length gs)) 0%Q == column_mean j gs.
Proof.
  intros d gs g j H1 H2. rewrite vdiv_nth. destruct (vtotal_nth d gs g j H1 H2) as [E _].
  unfold column_mean, Qdiv. rewrite E. reflexivity.
Qed.

(** ---- keys ---- *)
Section Keys.
Variables (St Batch VBatch : Type) (step_no : St -> nat) (tstep : St -> Batch -> nat -> St * list Q)
  (cb_start cb_step cb_end : St -> St).
Hypothesis step_up : forall s b key, step_no (fst (tstep s b key)) = S (step_no s).
Hypothesis start_keeps : forall s, step_no (cb_start s) = step_no s.
Hypothesis step_keeps : forall s, step_no (cb_step s) = step_no s.
Hypothesis end_keeps : forall s, step_no (cb_end s) = step_no s.
Notation sn := (fun x : St * list nat => step_no (fst x)).
Notation lt := (logging tstep).

Lemma pure_loop_one : forall k bs i key s, (k <= 1)%nat ->
  pure_loop St Batch step_no tstep cb_step k bs i key s = pure_loop St Batch step_no tstep cb_step 1 bs i key s.
Proof.
  intros k bs. induction bs as [|b bs IH]; intros i key s Hk; cbn [pure_loop]; [reflexivity|].
  assert (K : (0 <? k)%nat && negb (S i mod k =? 0)%nat = false) by (destruct k as [|[|k]]; [reflexivity|reflexivity|lia]).
  rewrite K. cbn [Nat.ltb Nat.leb Nat.modulo]. cbn. rewrite IH by exact Hk. reflexivity.
Qed.

Definition lstep (k base : nat) (x : St * list nat) (ib : nat * Batch) : St * list nat :=
  let s1 := fst (lt x (snd ib) (base + k * (fst ib / k))%nat) in
  if ((fst ib + 1) mod k =? 0)%nat then on_state cb_step s1 else s1.

Lemma lstep_spec : forall k base s l i b,
  snd (lstep k base (s, l) (i, b)) = l ++ [(base + k * (i / k))%nat]
  /\ step_no (fst (lstep k base (s, l) (i, b))) = S (step_no s).
Proof.
  intros. unfold lstep. cbn [fst snd logging]. destruct ((i + 1) mod k =? 0)%nat; cbn [fst snd on_state logging];
    (split; [reflexivity|]); rewrite ?step_keeps; apply step_up.
Qed.

Lemma logged_fold : forall k base n bs i x,
  n = length bs ->
  snd (fold_left (lstep k base) (combine (seq i n) bs) x) = snd x ++ map (fun j => base + k * (j / k))%nat (seq i n)
  /\ step_no (fst (fold_left (lstep k base) (combine (seq i n) bs) x)) = (step_no (fst x) + n)%nat.
Proof.
  intros k base n bs. revert n. induction bs as [|b bs IH]; intros n i [s l] ->; cbn [length seq combine fold_left map].
  - cbn. rewrite app_nil_r. split; [reflexivity|lia].
  - destruct (lstep_spec k base s l i b) as [L1 L2].
    destruct (IH (length bs) (S i) (lstep k base (s, l) (i, b)) eq_refl) as [I1 I2].
    rewrite I1, I2, L1, L2, <- app_assoc. cbn [fst snd]. split; [reflexivity|lia].
Qed.

Lemma epoch_keys : forall k bs s l, (1 <= k)%nat ->
  let x := epoch_state (St * list nat) Batch sn lt (on_state cb_start) (on_state cb_step) (on_state cb_end) k bs (s, l) in
  snd x = l ++ map (fun j => step_no s + k * (j / k))%nat (seq 0 (length bs))
  /\ step_no (fst x) = (step_no s + length bs)%nat.
Proof.
  intros k bs s l Hk. cbv zeta.
  rewrite epoch_state_grouped; [|exact Hk|intros [s0 l0] b key; apply step_up|intros [s0 l0]; apply step_keeps].
  unfold grouped_epoch. cbn [fst snd on_state].
  change (fun (s0 : St * list nat) (ib : nat * Batch) => _) with (lstep k (step_no (cb_start s))).
  destruct (logged_fold k (step_no (cb_start s)) (length bs) bs 0 (cb_start s, l) eq_refl) as [I1 I2].
  cbn [fst snd] in I1, I2. rewrite end_keeps. rewrite start_keeps in *. split; [exact I1|exact I2].
Qed.

Lemma times_keys : forall k bs E s l, (1 <= k)%nat ->
  snd (times E (epoch_state (St * list nat) Batch sn lt (on_state cb_start) (on_state cb_step) (on_state cb_end) k bs) (s, l))
  = l ++ group_keys k (length bs) E (step_no s).
Proof.
  intros k bs E. induction E as [|E IH]; intros s l Hk; cbn [times].
  - cbn. rewrite app_nil_r. reflexivity.
  - destruct (epoch_keys k bs s l Hk) as [I1 I2].
    destruct (epoch_state (St * list nat) Batch sn lt (on_state cb_start) (on_state cb_step) (on_state cb_end) k bs (s, l)) as [s1 l1].
    cbn [fst snd] in *. rewrite IH by exact Hk. rewrite I1, I2. unfold group_keys. cbn [seq flat_map].
    rewrite <- app_assoc. f_equal. f_equal.
    + apply map_ext. intros; lia.
    + rewrite <- seq_shift, flat_map_concat_map, flat_map_concat_map, map_map. f_equal. apply map_ext. intros e.
      apply map_ext. intros; lia.
Qed.

Lemma epoch_state_max1 : forall k bs s,
  epoch_state St Batch step_no tstep cb_start cb_step cb_end k bs s
  = epoch_state St Batch step_no tstep cb_start cb_step cb_end (Nat.max 1 k) bs s.
Proof.
  intros k bs s. destruct (le_lt_dec k 1) as [H|H].
  - unfold epoch_state. rewrite pure_loop_one by exact H. replace (Nat.max 1 k) with 1%nat by lia. reflexivity.
  - replace (Nat.max 1 k) with k by lia. reflexivity.
Qed.
End Keys.

Lemma seq_shift_add : forall n a b, map (fun i => (a + i)%nat) (seq b n) = seq (a + b) n.
Proof.
  induction n as [|n IH]; intros a b; cbn; [reflexivity|]. f_equal. rewrite IH. f_equal. lia.
Qed.
Lemma group_keys_one : forall n E base, group_keys 1 n E base = seq base (E * n).
Proof.
  intros n E base. unfold group_keys. revert base. induction E as [|E IH]; intros base; [reflexivity|].
  cbn [seq flat_map]. rewrite <- seq_shift, flat_map_concat_map, map_map, <- flat_map_concat_map.
  replace (S E * n)%nat with (n + E * n)%nat by lia. rewrite seq_app. f_equal.
  - transitivity (map (fun i => (base + i)%nat) (seq 0 n)).
    + apply map_ext. intros i. rewrite Nat.div_1_r. lia.
    + rewrite seq_shift_add. f_equal. lia.
  - rewrite <- IH. rewrite !flat_map_concat_map. f_equal. apply map_ext. intros e. apply map_ext. intros; lia.
Qed.

(** ---- checkpoints ---- *)
Section Checkpoints.
Variables (St Batch VBatch : Type) (step_no : St -> nat) (tstep : St -> Batch -> nat -> St * list Q)
  (vstep : St -> VBatch -> list Q) (cb_start cb_step cb_end : St -> St) (monitor : list Q -> option Q).
Hypothesis step_up : forall s b key, step_no (fst (tstep s b key)) = S (step_no s).
Hypothesis start_keeps : forall s, step_no (cb_start s) = step_no s.
Hypothesis step_keeps : forall s, step_no (cb_step s) = step_no s.
Hypothesis end_keeps : forall s, step_no (cb_end s) = step_no s.
Notation bloop := (batches_loop St Batch step_no tstep cb_step).
Notation tloop := (training_loop St Batch step_no tstep cb_start cb_step cb_end).
Notation vloop := (validation_loop St VBatch vstep monitor).
Notation eloop := (epochs_loop St Batch VBatch step_no tstep vstep cb_start cb_step cb_end monitor).

(** the global steps of the checkpoints that were not forced *)
Definition periodic (l : list (nat * bool * St)) : list nat :=
  map (fun x => fst (fst x)) (filter (fun x => negb (snd (fst x))) l).
Definition aligned (off : Z) (x : nat * bool * St) : Prop := (Z.of_nat (step_no (snd x)) - Z.of_nat (fst (fst x)))%Z = off.

Lemma periodic_app : forall l1 l2, periodic (l1 ++ l2) = periodic l1 ++ periodic l2.
Proof. intros. unfold periodic. rewrite filter_app, map_app. reflexivity. Qed.

Lemma bloop_saves : forall c n, (accumulation c <= 1)%nat -> save_dir c = true -> save_every c = Some n -> (0 < n)%nat ->
  forall bs i key t s ms off,
  (Z.of_nat (step_no s) - Z.of_nat (gstep St t))%Z = off ->
  let t' := fst (fst (bloop c bs i key t s ms)) in
  let s' := snd (fst (bloop c bs i key t s ms)) in
  exists new, saved St t' = saved St t ++ new
    /\ periodic new = filter (fun g => g mod n =? 0)%nat (seq (S (gstep St t)) (length bs))
    /\ Forall (aligned off) new
    /\ (Z.of_nat (step_no s') - Z.of_nat (gstep St t'))%Z = off
    /\ gstep St t' = (gstep St t + length bs)%nat.
Proof.
  intros c n Hk Hd Hs Hn bs. induction bs as [|b bs IH]; intros i key t s ms off Ho; cbv zeta.
  - cbn. exists []. rewrite app_nil_r. repeat split; auto; lia.
  - cbn [batches_loop]. pose proof (step_up s b key) as Hup. destruct (tstep s b key) as [s1 m]. cbn [fst] in Hup.
    assert (K : (0 <? accumulation c)%nat && negb (S i mod accumulation c =? 0)%nat = false)
      by (destruct (accumulation c) as [|[|k]]; [reflexivity|reflexivity|lia]).
    rewrite K. unfold step_end. rewrite Hs. cbn [gstep].
    set (t1 := {| es := es St t; gstep := S (gstep St t); saved := saved St t |}).
    set (cond := (0 <? n)%nat && (n <=? S (gstep St t))%nat && (S (gstep St t) mod n =? 0)%nat).
    set (t2 := if cond then save St c false t1 s1 else t1).
    assert (G2 : gstep St t2 = S (gstep St t)).
    { unfold t2, save. destruct cond; [rewrite Hd|]; reflexivity. }
    destruct (IH (S i) (step_no s1) t2 (cb_step s1) (ms ++ [m]) off) as (new & N1 & N2 & N3 & N4 & N5).
    { rewrite G2, step_keeps, Hup. lia. }
    assert (C : cond = (S (gstep St t) mod n =? 0)%nat).
    { unfold cond. rewrite (proj2 (Nat.ltb_lt 0 n) Hn). cbn [andb].
      destruct (S (gstep St t) mod n =? 0)%nat eqn:E; [|rewrite andb_false_r; reflexivity].
      rewrite andb_true_r. apply Nat.leb_le. apply Nat.eqb_eq in E.
      destruct (le_lt_dec n (S (gstep St t))); [assumption|]. rewrite Nat.mod_small in E by assumption. lia. }
    cbn [length seq filter]. rewrite <- C.
    exists ((if cond then [(S (gstep St t), false, s1)] else []) ++ new).
    assert (S2 : saved St t2 = saved St t ++ (if cond then [(S (gstep St t), false, s1)] else [])).
    { unfold t2, save. destruct cond; [rewrite Hd|]; cbn; [reflexivity|rewrite app_nil_r; reflexivity]. }
    rewrite N1, S2, <- app_assoc. split; [reflexivity|]. split; [|split; [|split]].
    + rewrite periodic_app, N2, G2. destruct cond; reflexivity.
    + apply Forall_app. split; [|exact N3]. destruct cond; constructor; [|constructor].
      unfold aligned. cbn [fst snd]. rewrite Hup. lia.
    + exact N4.
    + rewrite N5, G2. lia.
Qed.

Lemma eloop_saves : forall c vs n, (accumulation c <= 1)%nat -> save_dir c = true -> save_every c = Some n -> (0 < n)%nat ->
  forall bs N e t s off t' s' ms mvs,
  (Z.of_nat (step_no s) - Z.of_nat (gstep St t))%Z = off ->
  eloop c bs vs N e t s = Ok (t', s', ms, mvs) ->
  exists new, saved St t' = saved St t ++ new
    /\ periodic new = filter (fun g => g mod n =? 0)%nat (seq (S (gstep St t)) (length ms * length bs))
    /\ Forall (aligned off) new
    /\ (Z.of_nat (step_no s') - Z.of_nat (gstep St t'))%Z = off
    /\ gstep St t' = (gstep St t + length ms * length bs)%nat.
Proof.
  intros c vs n Hk Hd Hs Hn bs N. induction N as [|N IH]; intros e t s off t' s' ms mvs Ho H.
  - cbn in H. injection H as <- <- <- <-. exists []. cbn. rewrite app_nil_r. repeat split; auto; lia.
  - cbn [epochs_loop] in H. unfold training_loop in H.
    destruct (bloop_saves c n Hk Hd Hs Hn bs 0 (step_no (cb_start s)) t (cb_start s) [] off) as (new1 & A1 & A2 & A3 & A4 & A5).
    { rewrite start_keeps. exact Ho. }
    destruct (bloop c bs 0 _ t _ []) as [[t1 s1] ms1]. cbn [fst snd] in *.
    destruct (mean_metrics ms1) as [m|]; cbn [bind] in H; [|discriminate].
    assert (Cont : forall t2 new2 ms2 (f : list (list Q) -> list (list Q)),
       saved St t2 = saved St t1 ++ new2 -> periodic new2 = [] -> Forall (aligned off) new2 -> gstep St t2 = gstep St t1 ->
       bind (eloop c bs vs N (S e) t2 (cb_end s1)) (fun r3 => let '(t3, s3, ms, mvs) := r3 in Ok (t3, s3, m :: ms, f mvs)) = Ok (t', s', ms2, mvs) ->
       exists new, saved St t' = saved St t ++ new
         /\ periodic new = filter (fun g => g mod n =? 0)%nat (seq (S (gstep St t)) (length ms2 * length bs))
         /\ Forall (aligned off) new
         /\ (Z.of_nat (step_no s') - Z.of_nat (gstep St t'))%Z = off
         /\ gstep St t' = (gstep St t + length ms2 * length bs)%nat).
    { intros t2 new2 ms2 f B1 B2 B3 B4 R.
      destruct (eloop c bs vs N (S e) t2 (cb_end s1)) as [[[[t3 s3] ms3] mvs3]|] eqn:E; cbn [bind] in R; [|discriminate].
      injection R as <- <- <- <-.
      destruct (IH (S e) t2 (cb_end s1) off t3 s3 ms3 mvs3) as (new3 & C1 & C2 & C3 & C4 & C5); [|exact E|].
      { rewrite end_keeps, B4. exact A4. }
      exists (new1 ++ new2 ++ new3). rewrite C1, B1, A1, <- !app_assoc. split; [reflexivity|].
      cbn [length]. split; [|split; [|split]].
      - rewrite !periodic_app, B2, A2, C2, B4, A5. cbn [app].
        replace (S (length ms3) * length bs)%nat with (length bs + length ms3 * length bs)%nat by lia.
        rewrite seq_app, filter_app. f_equal.
      - rewrite !Forall_app. auto.
      - exact C4.
      - rewrite C5, B4, A5. lia. }
    destruct vs as [v|].
    2:{ apply (Cont t1 [] ms (fun x => x)); auto. rewrite app_nil_r. reflexivity. }
    destruct (should_validate VBatch c (Some v) e).
    2:{ apply (Cont t1 [] ms (fun x => x)); auto. rewrite app_nil_r. reflexivity. }
    destruct (vloop c v t1 (cb_end s1)) as [[t2 mv]|] eqn:V; cbn [bind] in H; [|discriminate].
    assert (VS : exists new2, saved St t2 = saved St t1 ++ new2 /\ periodic new2 = [] /\ Forall (aligned off) new2 /\ gstep St t2 = gstep St t1).
    { unfold validation_loop in V. destruct (mean_metrics (map (vstep (cb_end s1)) v)) as [mean|]; cbn [bind] in V; [|discriminate].
      assert (Nil : exists new2, saved St t1 = saved St t1 ++ new2 /\ periodic new2 = [] /\ Forall (aligned off) new2 /\ gstep St t1 = gstep St t1).
      { exists []. rewrite app_nil_r. auto. }
      destruct (is_active (stop_config c)).
      - destruct (monitor mean); [|discriminate]. injection V as <- _.
        destruct (has_improved _); [|exact Nil]. unfold save. rewrite Hd. cbn [saved gstep es].
        eexists. split; [reflexivity|]. split; [reflexivity|]. split; [|reflexivity].
        constructor; [|constructor]. unfold aligned. cbn [fst snd]. rewrite end_keeps. exact A4.
      - injection V as <- _. exact Nil. }
    destruct VS as (new2 & B1 & B2 & B3 & B4).
    destruct (is_active (stop_config c) && should_stop (es St t2)).
    + injection H as <- <- <- <-. exists (new1 ++ new2). rewrite B1, A1, <- app_assoc.
      cbn [length]. rewrite !Nat.mul_1_l. split; [reflexivity|]. split; [|split; [|split]].
      * rewrite periodic_app, B2, app_nil_r. exact A2.
      * rewrite Forall_app. auto.
      * rewrite end_keeps, B4. exact A4.
      * rewrite B4. exact A5.
    + apply (Cont t2 new2 ms (fun l => mv :: l)); auto.
Qed.
End Checkpoints.
