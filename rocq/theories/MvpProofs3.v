(** BatchMVP: loss of a patch and reasons to stop. *)
From Coq Require Import List Arith ZArith QArith Qabs Qminmax Bool Lia Lqa.
From Verif Require Import Lib QuantModel QuantSpec QuantProofs ConfRegModel ConfRegProofs ConfClassModel MultiModel MultiSpec MultiProofs MultiProofs2 MultiProofs3 MultiProofs4 MultiProofs5 MultiSpec3 MultiProofs8 MvpSpec MvpProofs MvpProofs2.
Import ListNotations.
Open Scope Q_scope.

Lemma apply_mvp c cfg k p groups values : ptype_of cfg = Additive -> length groups = length values ->
  apply_one (batch_mvp c) cfg groups values (k, p) = zip_with (shift_where (eta cfg) p) (members (batch_mvp c) cfg k groups values) values.
Proof. intros Pt L. exact (apply_one_shift cfg k p groups values Pt L). Qed.
Lemma column_unit scores : Forall (Forall in_unit) scores -> Forall in_unit (column_of 0 scores).
Proof.
  intros F. unfold column_of. rewrite Forall_forall in *. intros x Hx. apply in_map_iff in Hx. destruct Hx as (s & <- & Hs). specialize (F s Hs). destruct s as [|y s]; [split; vm_compute; discriminate|].
  inversion_clear F. exact H.
Qed.
Lemma column_length c scores : length (column_of c scores) = length scores. Proof. apply map_length. Qed.

Theorem loss_step : forall c cfg groups scores values k d,
  ptype_of cfg = Additive -> 0 <= eta cfg <= 1 -> 0 <= c <= 1 -> (2 <= n_buckets cfg)%nat -> n_dims cfg = 1%nat ->
  length groups = length values -> length scores = length values -> Forall (Forall in_unit) scores -> In k (keys cfg) ->
  patch_for (batch_mvp c) cfg groups scores values k = Ok (Some d) ->
  let bs := members (batch_mvp c) cfg k groups values in
  let ss := column_of 0 scores in
  0 < n_where bs -> miss_at c d bs values ss < miss_at c 0 bs values ss ->
  pinball_error c (apply_patches (batch_mvp c) cfg [(k, d)] groups values) ss <=
  pinball_error c values ss + eta cfg * (miss_at c d bs values ss * Qmax 0 (2 / inject_Z (Z.of_nat (n_buckets cfg - 1)) - Qabs d)).
Proof.
  intros c cfg groups scores values k d Pt E C N D Lg Ls U K P bs ss W LT.
  change (apply_patches (batch_mvp c) cfg [(k, d)] groups values) with (apply_one (batch_mvp c) cfg groups values (k, d)).
  rewrite apply_mvp by assumption. fold bs. unfold patch_for in P. cbn [m_patch m_val batch_mvp] in P. rewrite map_id, Pt, (keys_c0 cfg k D K) in P.
  apply (patch_loss (n_buckets cfg) c (eta cfg) d bs values ss); try assumption.
  - apply members_length. exact Lg.
  - unfold ss. rewrite column_length. lia.
  - now apply column_unit.
Qed.

Theorem loss_down : forall c cfg groups scores values k d,
  ptype_of cfg = Additive -> 0 <= eta cfg <= 1 -> 0 <= c <= 1 -> (2 <= n_buckets cfg)%nat -> n_dims cfg = 1%nat ->
  length groups = length values -> length scores = length values -> Forall (Forall in_unit) scores -> In k (keys cfg) ->
  patch_for (batch_mvp c) cfg groups scores values k = Ok (Some d) ->
  let bs := members (batch_mvp c) cfg k groups values in
  let ss := column_of 0 scores in
  0 < n_where bs -> miss_at c d bs values ss < miss_at c 0 bs values ss -> 2 <= Qabs d * inject_Z (Z.of_nat (n_buckets cfg - 1)) ->
  pinball_error c (apply_patches (batch_mvp c) cfg [(k, d)] groups values) ss <= pinball_error c values ss.
Proof.
  intros c cfg groups scores values k d Pt E C N D Lg Ls U K P bs ss W LT B.
  eapply Qle_trans; [apply loss_step; eassumption|]. fold bs ss.
  assert (NP : 0 < inject_Z (Z.of_nat (n_buckets cfg - 1))) by (rewrite <- (Zlt_Qlt 0); lia).
  assert (X : 2 / inject_Z (Z.of_nat (n_buckets cfg - 1)) <= Qabs d) by (apply Qle_shift_div_r; assumption).
  assert (Z : Qmax 0 (2 / inject_Z (Z.of_nat (n_buckets cfg - 1)) - Qabs d) == 0) by (apply Q.max_l; lra).
  rewrite Z. ring_simplify. apply Qle_refl.
Qed.

Lemma mvp_error_nonneg c cfg groups scores vs k : 0 <= key_error (batch_mvp c) cfg groups scores vs k.
Proof.
  unfold key_error. cbn [m_error m_val batch_mvp]. unfold mvp_error. apply Qmult_le_0_compat; [apply prob_nonneg|]. unfold mvp_prob_error.
  set (y := c - _). destruct (Qlt_le_dec y 0); nra.
Qed.
Lemma mvp_loss_some c xs ss : length ss = length xs -> xs <> [] -> exists v, m_loss (batch_mvp c) xs ss = Some v /\ v * inject_Z (Z.of_nat (length xs)) == pinball_error c xs (column_of 0 ss).
Proof. intros L N. exact (proj1 (proj2 (documented_losses c xs ss)) L N). Qed.
Lemma shift_nobody e d : forall bs xs, length bs = length xs -> n_where bs <= 0 -> zip_with (shift_where e d) bs xs = xs.
Proof.
  induction bs as [|b bs IH]; intros [|x xs] L W; cbn in L; try discriminate; [reflexivity|]. rewrite zip_cons. unfold n_where in *. destruct b; cbn [filter] in W.
  - exfalso. cbn [length] in W. change 0 with (inject_Z 0) in W. rewrite <- Zle_Qle in W. lia.
  - rewrite IH; [reflexivity|lia|exact W].
Qed.
Lemma oltb_pinball c xs ys ss : length ss = length xs -> length ys = length xs -> oltb (m_loss (batch_mvp c) xs ss) (m_loss (batch_mvp c) ys ss) = true ->
  pinball_error c xs (column_of 0 ss) < pinball_error c ys (column_of 0 ss).
Proof.
  intros L1 L2 H. destruct xs as [|x xs]; [destruct ys; [|discriminate]; destruct ss; [|discriminate]; vm_compute in H; discriminate|].
  assert (NE : x :: xs <> []) by discriminate. assert (NY : ys <> []) by (destruct ys; [discriminate|intros Z; discriminate]). revert L1 L2 H NE. generalize (x :: xs). intros zs L1 L2 H NE.
  destruct (mvp_loss_some c zs ss L1 NE) as (v & Ev & Qv). destruct (mvp_loss_some c ys ss ltac:(lia) NY) as (w & Ew & Qw).
  rewrite Ev, Ew in H. cbn [oltb] in H. apply Qltb_true in H. rewrite <- Qv, <- Qw, L2. pose proof (nQ_pos zs NE). apply Qmult_lt_compat_r; assumption.
Qed.

Theorem mvp_stop_reasons : forall c cfg n groups vgroups scores vscores values val_values s,
  ptype_of cfg = Additive -> 0 <= eta cfg <= 1 -> 0 <= c <= 1 -> (2 <= n_buckets cfg)%nat -> n_dims cfg = 1%nat ->
  length groups = length values -> length scores = length values -> length vgroups = length val_values -> length vscores = length val_values ->
  Forall (Forall in_unit) scores ->
  run (batch_mvp c) cfg n groups vgroups scores vscores values val_values = Break s -> l_converged s = false ->
  length (l_patches s) = n \/
  (forall k, In k (keys cfg) -> prob_of (members (batch_mvp c) cfg k groups (l_values s)) < min_prob cfg) \/
  pinball_error c (apply_patches (batch_mvp c) cfg (l_patches s) vgroups val_values) (column_of 0 vscores) < pinball_error c (l_val_values s) (column_of 0 vscores) \/
  (let vs := apply_patches (batch_mvp c) cfg (l_patches s) groups values in
   exists k d, In k (keys cfg) /\ patch_for (batch_mvp c) cfg groups scores vs k = Ok (Some d) /\
     (forall k', In k' (keys cfg) -> min_prob cfg <= prob_of (members (batch_mvp c) cfg k' groups vs) ->
        key_error (batch_mvp c) cfg groups scores vs k' <= key_error (batch_mvp c) cfg groups scores vs k) /\
     (Qabs d * inject_Z (Z.of_nat (n_buckets cfg - 1)) < 2 \/
      (forall i, (Z.abs i <= Z.of_nat (n_buckets cfg - 1))%Z ->
         miss_at c 0 (members (batch_mvp c) cfg k groups vs) vs (column_of 0 scores) <=
         miss_at c (inject_Z i / inject_Z (Z.of_nat (n_buckets cfg - 1))) (members (batch_mvp c) cfg k groups vs) vs (column_of 0 scores)))).
Proof.
  intros c cfg n groups vgroups scores vscores values val_values s Pt E C N D Lg Ls Lvg Lvs U H Hc. apply run_final in H.
  destruct H as (_ & _ & _ & _ & _ & _ & extra & X & Ev & Evv & _ & _ & _ & A & B). destruct X as [->|(k & p & -> & Xc & Xp)].
  - destruct (A eq_refl) as [_ [W|W]]; [now left|]. right. left. intros k Hk. eapply choose_none; eassumption.
  - right. right. set (vs := apply_patches (batch_mvp c) cfg (l_patches s) groups values).
    change (replay (batch_mvp c) cfg (l_patches s) groups values) with vs in *.
    assert (Lvs' : length vs = length values) by (unfold vs; apply replay_length; exact Lg).
    destruct (B ltac:(discriminate) Hc) as [W|W].
    + right. cbv zeta. destruct (choose_spec (batch_mvp c) cfg groups scores (fun vs k => mvp_error_nonneg c cfg groups scores vs k) _ _ Xc) as [K KB].
      exists k, p. split; [exact K|]. split; [exact Xp|]. split; [exact KB|].
      rewrite Ev, replay_app in W. change (replay (batch_mvp c) cfg [(k, p)] groups ?x) with (apply_one (batch_mvp c) cfg groups x (k, p)) in W. fold vs in W.
      set (bs := members (batch_mvp c) cfg k groups vs) in *. set (ss := column_of 0 scores) in *.
      assert (Lb : length bs = length vs) by (apply members_length; lia).
      change (replay (batch_mvp c) cfg (l_patches s) groups values) with vs in W. apply oltb_pinball in W; [|lia|rewrite apply_one_length by lia; reflexivity]. fold ss in W.
      destruct (Qlt_le_dec 0 (n_where bs)) as [Wb|Wb].
      2:{ exfalso. rewrite apply_mvp in W by (assumption || lia). fold bs in W. rewrite shift_nobody in W by assumption. lra. }
      destruct (Qlt_le_dec (Qabs p * inject_Z (Z.of_nat (n_buckets cfg - 1))) 2) as [S|S]; [now left|]. right. intros i Hi.
      destruct (Qlt_le_dec (miss_at c p bs vs ss) (miss_at c 0 bs vs ss)) as [T|T].
      { exfalso. assert (G : pinball_error c (apply_one (batch_mvp c) cfg groups vs (k, p)) ss <= pinball_error c vs ss).
        { apply (loss_down c cfg groups scores vs k p); try assumption; lia. }
        lra. }
      eapply Qle_trans; [exact T|]. pose proof Xp as P. unfold patch_for in P. cbn [m_patch m_val batch_mvp] in P. rewrite map_id, Pt, (keys_c0 cfg k D K) in P. fold bs ss in P.
      destruct (mvp_patch_best (n_buckets cfg) c ss vs bs N) as (d' & P' & IN & BEST & _). rewrite P in P'. injection P' as <-.
      set (j := Z.to_nat (i + Z.of_nat (n_buckets cfg - 1))). assert (J : (j < 2 * n_buckets cfg - 1)%nat) by (unfold j; lia).
      assert (V := shift_value (n_buckets cfg) j N J). replace (Z.of_nat j - Z.of_nat (n_buckets cfg - 1))%Z with i in V by (unfold j; lia).
      rewrite <- (miss_proper c _ _ bs vs ss V). apply err_le; [exact Lb|unfold ss; rewrite column_length; lia|exact Wb|]. apply BEST. apply nth_In. rewrite shifts_length by lia. exact J.
    + left. rewrite Evv in *. unfold apply_patches. apply oltb_pinball in W; [exact W|rewrite replay_length by lia; lia|].
      rewrite !replay_length by lia. reflexivity.
Qed.
