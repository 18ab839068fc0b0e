(** Shapes of the convolutional networks (C105). *)
From Coq Require Import List Arith Lia Bool.
From Verif Require Import Lib NetModel NetSpec.
Import ListNotations.

Lemma same_out_1 : forall n, same_out 1 n = n.
Proof. intros n. unfold same_out. rewrite Nat.add_sub, Nat.div_1_r. reflexivity. Qed.
Lemma same_out_2 : forall n, same_out 2 n = half_up n.
Proof. intros n. unfold same_out, half_up. f_equal. lia. Qed.

Lemma half_up_pos : forall n, 1 <= n -> 1 <= half_up n.
Proof. intros n H. unfold half_up. apply (Nat.div_le_lower_bound (n + 1) 2 1); lia. Qed.

Lemma bdim_refl : forall n, bdim n n = Ok n.
Proof. intros n. unfold bdim. rewrite Nat.eqb_refl. reflexivity. Qed.
Lemma add_shape_refl : forall x, add_shape x x = Ok x.
Proof. intros ((h, w), c). unfold add_shape. rewrite !bdim_refl. reflexivity. Qed.
Lemma image_eqb_spec : forall x y, image_eqb x y = true <-> x = y.
Proof.
  intros ((h, w), c) ((h', w'), c'). unfold image_eqb. rewrite !andb_true_iff, !Nat.eqb_eq. split.
  - intros ((-> & ->) & ->). reflexivity.
  - intros E. injection E as -> -> ->. auto.
Qed.

(** block [b] with expansion [e] *)
Definition resnet_like (e : nat) (block : nat -> nat -> image -> result (bool * image)) : Prop :=
  forall f s x, s = 1 \/ s = 2 -> 
  block f s x = Ok (negb (image_eqb x (conv_same (e * f) s x)), conv_same (e * f) s x).

Lemma conv_one : forall f g s x, conv_same f 1 (conv_same g s x) = conv_same f s x.
Proof. intros f g s ((h, w), c). unfold conv_same. rewrite !same_out_1. reflexivity. Qed.
Lemma one_conv : forall f g s x, conv_same f s (conv_same g 1 x) = conv_same f s x.
Proof. intros f g s ((h, w), c). unfold conv_same. rewrite !same_out_1. reflexivity. Qed.

Lemma basic_like : resnet_like 1 resnet_block.
Proof.
  intros f s x _. unfold resnet_block. rewrite conv_one, Nat.mul_1_l.
  destruct (image_eqb x (conv_same f s x)) eqn:E.
  - apply image_eqb_spec in E. cbn [negb]. rewrite <- E. rewrite add_shape_refl. reflexivity.
  - cbn [negb]. rewrite add_shape_refl. reflexivity.
Qed.

Lemma bottleneck_like : resnet_like 4 bottleneck_block.
Proof.
  intros f s x _. unfold bottleneck_block. rewrite conv_one, one_conv, (Nat.mul_comm 4 f).
  destruct (image_eqb x (conv_same (f * 4) s x)) eqn:E.
  - apply image_eqb_spec in E. cbn [negb]. rewrite <- E. rewrite add_shape_refl. reflexivity.
  - cbn [negb]. rewrite add_shape_refl. reflexivity.
Qed.

(** blocks after the first keep the shape *)
Lemma stage_rest : forall e block nf i n k h w, resnet_like e block ->
  stage block nf i (seq (S k) n) (h, w, e * (nf * 2 ^ i)) = Ok (repeat false n, (h, w, e * (nf * 2 ^ i))).
Proof.
  intros e block nf i n. induction n as [|n IH]; intros k h w Hb; [reflexivity|].
  cbn [seq stage]. replace ((0 <? i) && (S k =? 0)) with false by (rewrite andb_false_r; reflexivity).
  rewrite Hb by auto.
  assert (E : conv_same (e * (nf * 2 ^ i)) 1 (h, w, e * (nf * 2 ^ i)) = (h, w, e * (nf * 2 ^ i))).
  { unfold conv_same. rewrite !same_out_1. reflexivity. }
  rewrite E. unfold bind at 1. cbn [fst snd]. rewrite IH by exact Hb. unfold bind. cbn [fst snd repeat].
  replace (image_eqb (h, w, e * (nf * 2 ^ i)) (h, w, e * (nf * 2 ^ i))) with true by (symmetry; apply image_eqb_spec; reflexivity).
  reflexivity.
Qed.

(** channels entering stage [i] *)
Definition entering (e nf i c : nat) : Prop := (i = 0 /\ c = nf) \/ (0 < i /\ c < e * nf * 2 ^ i).

Lemma stage_ok : forall e block nf i n h w c, resnet_like e block -> 1 <= e -> 1 <= nf -> entering e nf i c ->
  stage block nf i (seq 0 (S n)) (h, w, c)
  = Ok (((0 <? i) || negb (e =? 1)) :: repeat false n,
        match i with 0 => (h, w, e * nf * 2 ^ i) | _ => (half_up h, half_up w, e * nf * 2 ^ i) end).
Proof.
  intros e block nf i n h w c Hb He Hnf Hc. cbn [seq stage].
  destruct Hc as [(-> & ->)|(Hi & Hlt)].
  - cbn [Nat.ltb Nat.leb andb orb Nat.eqb]. rewrite Hb by auto. unfold bind at 1. cbn [fst snd].
    assert (E : conv_same (e * (nf * 2 ^ 0)) 1 (h, w, nf) = (h, w, e * (nf * 2 ^ 0))).
    { unfold conv_same. rewrite !same_out_1. reflexivity. }
    rewrite E, (stage_rest e block nf 0 n 0 h w Hb). unfold bind. cbn [fst snd].
    rewrite Nat.mul_assoc.
    replace (image_eqb (h, w, nf) (h, w, e * nf * 2 ^ 0)) with (e =? 1); [reflexivity|].
    unfold image_eqb. rewrite !Nat.eqb_refl. cbn [andb Nat.pow]. rewrite Nat.mul_1_r.
    destruct (Nat.eqb_spec e 1) as [->|Hne]; symmetry; [apply Nat.eqb_eq; lia|]. apply Nat.eqb_neq. nia.
  - replace (0 <? i) with true by (symmetry; apply Nat.ltb_lt; exact Hi). cbn [andb orb Nat.eqb].
    rewrite Hb by auto. unfold bind at 1. cbn [fst snd].
    assert (E : conv_same (e * (nf * 2 ^ i)) 2 (h, w, c) = (half_up h, half_up w, e * (nf * 2 ^ i))).
    { unfold conv_same. rewrite !same_out_2. reflexivity. }
    rewrite E, (stage_rest e block nf i n 0 _ _ Hb). unfold bind. cbn [fst snd].
    replace (image_eqb (h, w, c) (half_up h, half_up w, e * (nf * 2 ^ i))) with false.
    + rewrite Nat.mul_assoc. destruct i; [lia|reflexivity].
    + symmetry. unfold image_eqb. replace (c =? e * (nf * 2 ^ i)) with false; [rewrite andb_false_r; reflexivity|].
      symmetry. apply Nat.eqb_neq. rewrite Nat.mul_assoc. lia.
Qed.

Lemma entering_next : forall e nf i, 1 <= e -> 1 <= nf -> entering e nf (S i) (e * nf * 2 ^ i).
Proof.
  intros e nf i He Hnf. right. split; [lia|]. cbn [Nat.pow].
  assert (1 <= 2 ^ i) by (apply Nat.neq_0_lt_0, Nat.pow_nonzero; lia). nia.
Qed.
Lemma entering_skip : forall e nf i c, 1 <= e -> 1 <= nf -> entering e nf i c -> entering e nf (S i) c.
Proof.
  intros e nf i c He Hnf [(-> & ->)|(Hi & Hc)]; right; (split; [lia|]); cbn [Nat.pow].
  - nia.
  - assert (1 <= 2 ^ i) by (apply Nat.neq_0_lt_0, Nat.pow_nonzero; lia). nia.
Qed.

Lemma stages_ok : forall e block nf sizes i x, resnet_like e block -> 1 <= e -> 1 <= nf -> entering e nf i (snd x) ->
  stages block nf i sizes x = Ok (stages_projections e i sizes, stages_shape e nf i sizes x).
Proof.
  intros e block nf sizes. induction sizes as [|n sizes IH]; intros i ((h, w), c) Hb He Hnf Hc; [reflexivity|].
  cbn [snd] in Hc. cbn [stages].
  destruct n as [|n].
  - cbn [seq stage]. unfold bind at 1. cbn [fst snd]. rewrite (IH (S i) (h, w, c) Hb He Hnf).
    + reflexivity.
    + cbn [snd]. apply entering_skip; assumption.
  - rewrite (stage_ok e block nf i n h w c Hb He Hnf Hc). unfold bind at 1. cbn [fst snd].
    rewrite IH; try assumption.
    + reflexivity.
    + destruct i; cbn [snd]; apply entering_next; assumption.
Qed.

Lemma stem_out : forall n, 1 <= n -> same_out 2 (padded_out 7 2 3 n) = half_up (half_up n).
Proof.
  intros n H. rewrite same_out_2. f_equal. unfold padded_out, valid_out, half_up.
  destruct (n + 2 * 3 <? 7) eqn:E; [apply Nat.ltb_lt in E; lia|].
  replace (n + 2 * 3 - 7) with (n - 1) by lia.
  replace (n + 1) with (n - 1 + 1 * 2) by lia. rewrite Nat.div_add by lia. reflexivity.
Qed.

Lemma resnet_features_ok : forall e block nf sizes h w c, resnet_like e block -> 1 <= e -> 1 <= nf -> 1 <= h -> 1 <= w ->
  resnet_features block nf sizes (h, w, c)
  = Ok (stages_projections e 0 sizes, stages_shape e nf 0 sizes (half_up (half_up h), half_up (half_up w), nf)).
Proof.
  intros e block nf sizes h w c Hb He Hnf Hh Hw. unfold resnet_features, resnet_stem.
  rewrite !stem_out by assumption. apply stages_ok; try assumption. left. split; reflexivity.
Qed.

Lemma stages_channels : forall e nf sizes i x, Forall (fun n => 1 <= n) sizes -> sizes <> [] ->
  snd (stages_shape e nf i sizes x) = e * nf * 2 ^ (i + length sizes - 1).
Proof.
  intros e nf sizes. induction sizes as [|n sizes IH]; intros i ((h, w), c) H Hne; [congruence|].
  inversion H as [|? ? Hn Hs]; subst. destruct n as [|n]; [lia|]. cbn [stages_shape].
  destruct sizes as [|m sizes].
  - cbn [stages_shape length]. replace (i + 1 - 1) with i by lia. destruct i; reflexivity.
  - rewrite IH; [|assumption|discriminate]. cbn [length]. f_equal. f_equal. lia.
Qed.

Lemma resnet_general : forall e block, resnet_like e block -> 1 <= e ->
  forall nf sizes out h w c, 1 <= nf -> 1 <= h -> 1 <= w -> Forall (fun n => 1 <= n) sizes -> sizes <> [] ->
  resnet block nf sizes out (h, w, c) = Ok ((e * nf * 2 ^ (length sizes - 1), out), out).
Proof.
  intros e block Hb He nf sizes out h w c Hnf Hh Hw Hs Hne. unfold resnet.
  rewrite (resnet_features_ok e block nf sizes h w c Hb He Hnf Hh Hw). unfold bind. cbn [snd].
  pose proof (stages_channels e nf sizes 0 (half_up (half_up h), half_up (half_up w), nf) Hs Hne) as E.
  destruct (stages_shape e nf 0 sizes (half_up (half_up h), half_up (half_up w), nf)) as ((h', w'), c').
  cbn [snd Nat.add] in E. rewrite E. reflexivity.
Qed.

Lemma resnet_basic : forall nf sizes h w c, 1 <= nf -> 1 <= h -> 1 <= w ->
  resnet_features resnet_block nf sizes (h, w, c)
  = Ok (stages_projections 1 0 sizes, stages_shape 1 nf 0 sizes (half_up (half_up h), half_up (half_up w), nf)).
Proof. intros. apply (resnet_features_ok 1 resnet_block); auto. apply basic_like. Qed.
Lemma resnet_bottleneck : forall nf sizes h w c, 1 <= nf -> 1 <= h -> 1 <= w ->
  resnet_features bottleneck_block nf sizes (h, w, c)
  = Ok (stages_projections 4 0 sizes, stages_shape 4 nf 0 sizes (half_up (half_up h), half_up (half_up w), nf)).
Proof. intros. apply (resnet_features_ok 4 bottleneck_block); auto with arith. apply bottleneck_like. Qed.
Lemma resnet_basic_outputs : forall nf sizes out h w c, 1 <= nf -> 1 <= h -> 1 <= w -> Forall (fun n => 1 <= n) sizes -> sizes <> [] ->
  resnet resnet_block nf sizes out (h, w, c) = Ok ((nf * 2 ^ (length sizes - 1), out), out).
Proof. intros. rewrite <- (Nat.mul_1_l nf) at 2. apply (resnet_general 1); auto. apply basic_like. Qed.
Lemma resnet_bottleneck_outputs : forall nf sizes out h w c, 1 <= nf -> 1 <= h -> 1 <= w -> Forall (fun n => 1 <= n) sizes -> sizes <> [] ->
  resnet bottleneck_block nf sizes out (h, w, c) = Ok ((4 * nf * 2 ^ (length sizes - 1), out), out).
Proof. intros. apply (resnet_general 4); auto with arith; apply bottleneck_like. Qed.

(** ---- wide residual networks ---- *)
Lemma wide_block_ok : forall f s h w c, s = 1 \/ s = 2 ->
  wide_block f s (h, w, c) = Ok (negb (c =? f) || negb (s =? 1), conv_same f s (h, w, c)).
Proof.
  intros f s h w c Hs. unfold wide_block. rewrite conv_one.
  destruct (negb (c =? f) || negb (s =? 1)) eqn:E.
  - rewrite add_shape_refl. reflexivity.
  - apply orb_false_iff in E. destruct E as (E1 & E2). apply negb_false_iff, Nat.eqb_eq in E1, E2. subst.
    assert (E : conv_same f 1 (h, w, f) = (h, w, f)) by (unfold conv_same; rewrite !same_out_1; reflexivity).
    rewrite E, add_shape_refl. reflexivity.
Qed.

Lemma wide_rest : forall f s n k h w, wide_group f s (seq (S k) n) (h, w, f) = Ok (repeat false n, (h, w, f)).
Proof.
  intros f s n. induction n as [|n IH]; intros k h w; [reflexivity|]. cbn [seq wide_group Nat.eqb].
  rewrite wide_block_ok by auto. rewrite Nat.eqb_refl. cbn [negb orb Nat.eqb]. unfold bind at 1. cbn [fst snd].
  assert (E : conv_same f 1 (h, w, f) = (h, w, f)) by (unfold conv_same; rewrite !same_out_1; reflexivity).
  rewrite E, IH. reflexivity.
Qed.

Lemma wide_group_ok : forall f s n x, s = 1 \/ s = 2 ->
  wide_group f s (seq 0 (S n)) x = Ok ((negb (snd x =? f) || negb (s =? 1)) :: repeat false n, conv_same f s x).
Proof.
  intros f s n ((h, w), c) Hs. cbn [seq wide_group Nat.eqb]. rewrite wide_block_ok by exact Hs. unfold bind at 1. cbn [fst snd].
  unfold conv_same. rewrite wide_rest. reflexivity.
Qed.

Lemma depth_blocks : forall depth, 10 <= depth -> exists n, (depth - 4) / 6 = S n.
Proof.
  intros depth H. exists ((depth - 4) / 6 - 1).
  assert (1 <= (depth - 4) / 6) by (apply Nat.div_le_lower_bound; lia). lia.
Qed.

Lemma wide_groups_ok : forall depth widen h w c, 10 <= depth -> 
  exists n, (depth - 4) / 6 = S n /\
  wide_groups depth widen (h, w, c)
  = Ok ([negb (widen =? 1) :: repeat false n; true :: repeat false n; true :: repeat false n],
        (half_up (half_up h), half_up (half_up w), 64 * widen)).
Proof.
  intros depth widen h w c Hd. destruct (depth_blocks depth Hd) as (n & En). exists n. split; [exact En|].
  unfold wide_groups. rewrite En. rewrite wide_group_ok by auto. unfold bind at 1. cbn [fst snd].
  rewrite wide_group_ok by auto. unfold bind at 1. cbn [fst snd].
  rewrite wide_group_ok by auto. unfold bind at 1. cbn [fst snd].
  change (negb (2 =? 1)) with true. change (negb (1 =? 1)) with false. rewrite !orb_true_r, orb_false_r.
  replace (snd (conv_same 16 1 (h, w, c)) =? 16 * widen) with (widen =? 1).
  - unfold conv_same. rewrite !same_out_2, !same_out_1. reflexivity.
  - unfold conv_same. cbn [snd]. destruct (Nat.eqb_spec widen 1) as [->|Hne]; symmetry; [reflexivity|]. apply Nat.eqb_neq. lia.
Qed.

Lemma valid_out_1 : forall k n, 1 <= k -> valid_out k 1 n = n + 1 - k.
Proof.
  intros k n Hk. unfold valid_out. destruct (n <? k) eqn:E.
  - apply Nat.ltb_lt in E. lia.
  - apply Nat.ltb_ge in E. rewrite Nat.div_1_r. lia.
Qed.

Lemma wide_features_ok : forall depth widen h w c, 10 <= depth ->
  wide_features depth widen (h, w, c)
  = Ok ((half_up (half_up h) - 7) * (half_up (half_up w) - 7) * (64 * widen)).
Proof.
  intros depth widen h w c Hd. unfold wide_features. destruct (wide_groups_ok depth widen h w c Hd) as (n & _ & E).
  rewrite E. unfold bind. cbn [snd]. unfold flat. rewrite !valid_out_1 by lia. do 2 f_equal. f_equal; lia.
Qed.

Lemma half_half : forall n k, k < half_up (half_up n) <-> 4 * k < n.
Proof.
  intros n k. unfold half_up.
  assert (A : forall a b, b < (a + 1) / 2 <-> 2 * b < a).
  { intros a b. pose proof (Nat.div_mod (a + 1) 2 ltac:(lia)) as E. pose proof (Nat.mod_upper_bound (a + 1) 2 ltac:(lia)). lia. }
  rewrite !A. lia.
Qed.

Lemma wide_some_feature : forall depth widen h w c n, 10 <= depth -> 1 <= widen ->
  wide_features depth widen (h, w, c) = Ok n -> (0 < n <-> 29 <= h /\ 29 <= w).
Proof.
  intros depth widen h w c n Hd Hk H. rewrite wide_features_ok in H by exact Hd. injection H as <-.
  pose proof (half_half h 7). pose proof (half_half w 7). split.
  - intros Hpos.
    assert (0 < half_up (half_up h) - 7 /\ 0 < half_up (half_up w) - 7) as (A & B) by (split; nia). lia.
  - intros (A & B). apply Nat.mul_pos_pos; [apply Nat.mul_pos_pos; lia|lia].
Qed.

Lemma wide_one_window : forall depth widen h w c, 10 <= depth -> 29 <= h <= 32 -> 29 <= w <= 32 ->
  wide_features depth widen (h, w, c) = Ok (64 * widen).
Proof.
  intros depth widen h w c Hd Hh Hw. rewrite wide_features_ok by exact Hd.
  pose proof (half_half h 7). pose proof (half_half w 7). pose proof (half_half h 8). pose proof (half_half w 8).
  replace (half_up (half_up h)) with 8 by lia. replace (half_up (half_up w)) with 8 by lia. f_equal. lia.
Qed.

Lemma wide_shallow : forall depth widen h w c, depth < 10 ->
  wide_features depth widen (h, w, c) = Ok ((h - 7) * (w - 7) * 16).
Proof.
  intros depth widen h w c Hd. unfold wide_features, wide_groups.
  replace ((depth - 4) / 6) with 0 by (symmetry; apply Nat.div_small; lia).
  cbn [seq wide_group]. unfold bind. cbn [snd]. unfold conv_same, flat. rewrite !same_out_1, !valid_out_1 by lia.
  do 2 f_equal. f_equal; lia.
Qed.

(** ---- LeNet-5 and CNN ---- *)
Lemma pool_out : forall n, valid_out 2 2 n = n / 2.
Proof.
  intros n. unfold valid_out. destruct (n <? 2) eqn:E.
  - apply Nat.ltb_lt in E. symmetry. apply Nat.div_small. exact E.
  - apply Nat.ltb_ge in E. replace n with (n - 2 + 1 * 2) at 2 by lia. rewrite Nat.div_add by lia. reflexivity.
Qed.

Lemma lenet_flat_ok : forall h w c, lenet_flat (h, w, c) = ((h - 4) / 2 - 4) / 2 * (((w - 4) / 2 - 4) / 2) * 16.
Proof.
  intros h w c. unfold lenet_flat, conv_valid, pool2, flat. rewrite !pool_out, !valid_out_1 by lia.
  assert (E : forall n, n + 1 - 5 = n - 4) by (intros; lia). rewrite !E. reflexivity.
Qed.

Lemma half_pos : forall n, 0 < n / 2 <-> 2 <= n.
Proof.
  intros n. split; intros H.
  - destruct (le_lt_dec 2 n); [assumption|]. rewrite Nat.div_small in H by lia. lia.
  - apply Nat.div_str_pos. lia.
Qed.

Lemma lenet_side : forall n, 0 < ((n - 4) / 2 - 4) / 2 <-> 16 <= n.
Proof.
  intros n. rewrite half_pos. split; intros H.
  - pose proof (Nat.div_mod (n - 4) 2 ltac:(lia)). lia.
  - pose proof (Nat.div_mod (n - 4) 2 ltac:(lia)). pose proof (Nat.mod_upper_bound (n - 4) 2 ltac:(lia)). lia.
Qed.

Lemma lenet_some : forall h w c, 0 < lenet_flat (h, w, c) <-> 16 <= h /\ 16 <= w.
Proof.
  intros h w c. rewrite lenet_flat_ok. rewrite <- (lenet_side h), <- (lenet_side w). split.
  - intros H. split; nia.
  - intros (A & B). apply Nat.mul_pos_pos; [apply Nat.mul_pos_pos; assumption|lia].
Qed.

Lemma cnn_flat_ok : forall h w c, cnn_flat (h, w, c) = (h - 2) / 2 * ((w - 2) / 2) * 32.
Proof.
  intros h w c. unfold cnn_flat, conv_valid, pool2, flat. rewrite !pool_out, !valid_out_1 by lia.
  assert (E : forall n, n + 1 - 3 = n - 2) by (intros; lia). rewrite !E. reflexivity.
Qed.

Lemma cnn_some : forall h w c, 0 < cnn_flat (h, w, c) <-> 4 <= h /\ 4 <= w.
Proof.
  intros h w c. rewrite cnn_flat_ok. pose proof (half_pos (h - 2)). pose proof (half_pos (w - 2)). split.
  - intros H1. assert (0 < (h - 2) / 2 /\ 0 < (w - 2) / 2) by (split; nia). lia.
  - intros (A & B). apply Nat.mul_pos_pos; [apply Nat.mul_pos_pos|]; lia.
Qed.
