From Coq Require Import List Arith ZArith QArith Qround Qminmax Qabs Bool Lia Lqa.
From Verif Require Import Lib QuantModel QuantSpec QuantProofs ConfRegModel ConfRegProofs ConfClassModel ConfClassProofs ConfClassProofs2 ConfClassSpec ConfClassProofs3 MultiModel MultiSpec.
Import ListNotations.
Open Scope Q_scope.

Lemma qclip_range x : 0 <= qclip 0 1 x <= 1.
Proof.
  unfold qclip. split.
  - apply Q.min_glb; [lra|apply Q.le_max_r].
  - apply Q.le_min_l.
Qed.
Lemma patched_range pt eta p x : in_unit (patched pt eta p x).
Proof. destruct pt; apply qclip_range. Qed.

Lemma half_width_pos n : (0 < n)%nat -> 0 < half_width n /\ half_width n * (2 * inject_Z (Z.of_nat n)) == 1.
Proof.
  intros H. unfold half_width. assert (P : 0 < inject_Z (Z.of_nat n)) by (rewrite <- (Zlt_Qlt 0); lia). split.
  - apply Qlt_shift_div_l; lra.
  - field. lra.
Qed.
Lemma mul_lt x y z : 0 < z -> (x < y <-> x * z < y * z).
Proof. intros Z. split; intros H; [now apply Qmult_lt_compat_r|]. destruct (Qlt_le_dec x y) as [|L]; [assumption|].
  apply (Qmult_le_compat_r _ _ z) in L; lra. Qed.
Lemma mul_le x y z : 0 < z -> (x <= y <-> x * z <= y * z).
Proof. intros Z. split; intros H; [apply Qmult_le_compat_r; lra|]. destruct (Qlt_le_dec y x) as [L|]; [|assumption].
  apply (Qmult_lt_compat_r _ _ z) in L; lra. Qed.

Theorem membership : forall n k row x, (0 < n)%nat -> (b1 n k row x = true <-> selected n k row x).
Proof.
  intros n k row x N. unfold b1, selected. destruct (half_width_pos n N) as [_ E].
  assert (P : 0 < 2 * inject_Z (Z.of_nat n)). { assert (0 < inject_Z (Z.of_nat n)) by (rewrite <- (Zlt_Qlt 0); lia). lra. }
  set (z := 2 * inject_Z (Z.of_nat n)) in *. rewrite andb_true_iff. unfold in_bucket.
  destruct (k_tau k) as [|[|t]].
  - rewrite Qltb_true, (mul_lt _ _ z P), E. tauto.
  - rewrite Qleb_true, (mul_le _ _ z P), Qmult_plus_distr_l, E. tauto.
  - rewrite Qleb_true, (mul_le _ _ z P). assert (X : (x - half_width n) * z == x * z - 1) by (rewrite <- E; ring). rewrite X.
    split; intros [A B]; split; auto; lra.
Qed.

Lemma argmax_top xs c : (0 < length xs)%nat -> (argmax xs = c <-> top_label_is xs c).
Proof.
  intros L. assert (NE : xs <> []) by (destruct xs; [cbn in L; lia|discriminate]). destruct (argmax_spec xs NE) as (A & B & C). split.
  - intros <-. split; [exact A|]. split; [exact B|exact C].
  - intros (A' & B' & C'). destruct (Nat.lt_trichotomy (argmax xs) c) as [H|[H|H]]; [|exact H|].
    + specialize (C' _ H). specialize (B c A'). lra.
    + specialize (C _ H). specialize (B' _ A). lra.
Qed.
Theorem membership_top : forall n k row xs, (0 < n)%nat -> (0 < length xs)%nat ->
  (b_top n k row xs = true <-> selected n k row (nth (k_c k) xs 0) /\ top_label_is xs (k_c k)).
Proof.
  intros n k row xs N L. unfold b_top. rewrite andb_true_iff, Nat.eqb_eq, (argmax_top xs _ L).
  pose proof (membership n k row (nth (k_c k) xs 0) N) as M. unfold b1 in M. rewrite M. tauto.
Qed.

(** ---- zip ---- *)
Lemma zip_nth_error {A B C} (f : A -> B -> C) l m i : nth_error (zip_with f l m) i =
  match nth_error l i, nth_error m i with Some a, Some b => Some (f a b) | _, _ => None end.
Proof.
  unfold zip_with. revert m i. induction l as [|x l IH]; intros [|y m] [|i]; cbn; try reflexivity.
  - now destruct (nth_error l i).
  - apply IH.
Qed.
Lemma zip_app {A B C} (f : A -> B -> C) l1 : forall l2 m1 m2, length l1 = length m1 -> zip_with f (l1 ++ l2) (m1 ++ m2) = zip_with f l1 m1 ++ zip_with f l2 m2.
Proof.
  induction l1 as [|x l1 IH]; intros l2 [|y m1] m2 L; cbn in L; try discriminate; [reflexivity|].
  cbn [app]. rewrite !zip_cons. cbn [app]. f_equal. apply IH. congruence.
Qed.
Lemma zip_in {A B C} (f : A -> B -> C) l m z : In z (zip_with f l m) -> exists a b, In a l /\ In b m /\ z = f a b.
Proof.
  unfold zip_with. rewrite in_map_iff. intros ([a b] & <- & H). exists a, b. split; [eapply in_combine_l; eassumption|]. split; [eapply in_combine_r; eassumption|reflexivity].
Qed.

(** ---- one patch ---- *)
Section Generic.
Context {V : Type} (m : method V) (cfg : config).
Lemma apply_one_length groups values p : length groups = length values -> length (apply_one m cfg groups values p) = length values.
Proof. intros H. unfold apply_one. rewrite zip_length by exact H. exact H. Qed.
Lemma replay_length ps : forall groups values, length groups = length values -> length (replay m cfg ps groups values) = length values.
Proof.
  induction ps as [|p ps IH]; intros groups values H; [reflexivity|]. cbn [replay fold_left]. fold (replay m cfg ps groups (apply_one m cfg groups values p)).
  rewrite IH; rewrite apply_one_length by exact H; auto.
Qed.
Lemma replay_app ps qs groups values : replay m cfg (ps ++ qs) groups values = replay m cfg qs groups (replay m cfg ps groups values).
Proof. unfold replay. apply fold_left_app. Qed.
Lemma replay_cons p ps groups values : replay m cfg (p :: ps) groups values = replay m cfg ps groups (apply_one m cfg groups values p).
Proof. reflexivity. Qed.

Theorem replay_concat_gen : forall ps g1 g2 v1 v2, length g1 = length v1 ->
  apply_patches m cfg ps (g1 ++ g2) (v1 ++ v2) = apply_patches m cfg ps g1 v1 ++ apply_patches m cfg ps g2 v2.
Proof.
  unfold apply_patches. induction ps as [|p ps IH]; intros g1 g2 v1 v2 L; [reflexivity|]. rewrite !replay_cons.
  unfold apply_one at 1. rewrite zip_app by exact L. apply IH. unfold apply_one. rewrite zip_length by exact L. reflexivity.
Qed.

(** ---- the loop ---- *)
Variables (groups vgroups : list (list bool)) (scores vscores : list (list Q)) (values val_values : list V).
Definition chosen_at (ps : list (key * Q)) : Prop :=
  forall i k p, nth_error ps i = Some (k, p) ->
    choose m cfg groups scores (replay m cfg (firstn i ps) groups values) = Some k /\
    patch_for m cfg groups scores (replay m cfg (firstn i ps) groups values) k = Ok (Some p).
Definition losses_down (ls : list (option Q)) : Prop := forall i a b, nth_error ls i = Some a -> nth_error ls (S i) = Some b -> no_increase b a.
Definition calib_down (ps : list (key * Q)) : Prop := forall i, (i < length ps)%nat ->
  no_increase (m_loss m (replay m cfg (firstn i ps) groups values) scores) (m_loss m (replay m cfg (firstn (S i) ps) groups values) scores).
Record inv (s : lstate V) : Prop := {
  i_values : l_values s = replay m cfg (l_patches s) groups values;
  i_val : l_val_values s = replay m cfg (l_patches s) vgroups val_values;
  i_chosen : chosen_at (l_patches s);
  i_old : l_old s = m_loss m (l_values s) scores;
  i_len : length (l_losses s) = S (length (l_patches s));
  i_hd : hd None (l_losses s) = m_loss m (l_val_values s) vscores;
  i_down : losses_down (l_losses s);
  i_calib : calib_down (l_patches s);
  i_first : last (l_losses s) None = m_loss m val_values vscores;
  i_conv : l_converged s = false }.

Lemma inv_start : inv (start m groups vgroups scores vscores values val_values).
Proof.
  constructor; cbn; try reflexivity.
  - intros i k p H. now destruct i.
  - intros i a b H1 H2. destruct i as [|[|i]]; discriminate.
  - intros i H. cbn in H. inversion H.
Qed.
Lemma oltb_false a b : oltb a b = false -> no_increase a b.
Proof. intros H x y -> ->. cbn in H. now apply Qltb_false in H. Qed.

(** what a round can do *)
Definition step_of (s : lstate V) (k : key) (p : Q) (s' : lstate V) : Prop :=
  choose m cfg groups scores (l_values s) = Some k /\ patch_for m cfg groups scores (l_values s) k = Ok (Some p) /\
  l_values s' = apply_one m cfg groups (l_values s) (k, p) /\ l_val_values s' = apply_one m cfg vgroups (l_val_values s) (k, p) /\
  l_losses s' = m_loss m (l_val_values s') vscores :: l_losses s.
Lemma round_cases s : inv s ->
  match round m cfg groups vgroups scores vscores s with
  | Continue s' => exists k p, step_of s k p s' /\ l_patches s' = l_patches s ++ [(k, p)] /\ inv s'
  | Break s' => s' = s /\ choose m cfg groups scores (l_values s) = None \/
      exists k p, step_of s k p s' /\ l_patches s' = l_patches s /\
        (l_converged s' = true -> exists v, m_loss m (l_val_values s') vscores = Some v /\
           (v <= atol cfg \/ exists a, m_loss m (l_val_values s) vscores = Some a /\ v <= a /\ ~ a == 0 /\ (a - v) / a <= rtol cfg)) /\
        (l_converged s' = false -> oltb (l_old s) (m_loss m (l_values s') scores) = true \/ oltb (m_loss m (l_val_values s) vscores) (m_loss m (l_val_values s') vscores) = true)
  | Raise e => e = ZeroDivisionError \/ exists k, choose m cfg groups scores (l_values s) = Some k /\ patch_for m cfg groups scores (l_values s) k = Err e
  | NonFinite s' => s' = s /\ exists k, choose m cfg groups scores (l_values s) = Some k /\ patch_for m cfg groups scores (l_values s) k = Ok None
  end.
Proof.
  intros I. unfold round. destruct (choose m cfg groups scores (l_values s)) as [k|] eqn:Ec; [|left; auto].
  destruct (patch_for m cfg groups scores (l_values s) k) as [[p|]|e] eqn:Ep.
  2:{ split; [reflexivity|]. exists k. split; [reflexivity|exact Ep]. }
  2:{ right. exists k. split; [reflexivity|exact Ep]. }
  cbv zeta. set (vs := apply_one m cfg groups (l_values s) (k, p)). set (vvs := apply_one m cfg vgroups (l_val_values s) (k, p)).
  set (loss := m_loss m vs scores). set (vloss := m_loss m vvs vscores).
  destruct (oltb (l_old s) loss) eqn:E1.
  { right. exists k, p. split; [repeat split; auto|]. split; [reflexivity|]. cbn [l_converged l_values l_val_values]. split.
    - rewrite (i_conv s I). discriminate.
    - intros _. now left. }
  destruct (oleb vloss (Some (atol cfg))) eqn:E2.
  { right. exists k, p. split; [repeat split; auto|]. split; [reflexivity|]. cbn [l_converged l_values l_val_values]. split; [|discriminate].
    intros _. unfold oleb in E2. fold vloss. destruct vloss as [v|]; [|discriminate]. apply Qleb_true in E2. exists v. auto. }
  destruct (oltb (hd None (l_losses s)) vloss) eqn:E3.
  { right. exists k, p. split; [repeat split; auto|]. split; [reflexivity|]. cbn [l_converged l_values l_val_values]. split.
    - rewrite (i_conv s I). discriminate.
    - intros _. right. rewrite <- (i_hd s I). exact E3. }
  assert (Go : exists k0 p0, step_of s k0 p0 {| l_values := vs; l_val_values := vvs; l_old := loss; l_losses := vloss :: l_losses s;
                                l_patches := l_patches s ++ [(k, p)]; l_converged := l_converged s |} /\
                 l_patches s ++ [(k, p)] = l_patches s ++ [(k0, p0)] /\
                 inv {| l_values := vs; l_val_values := vvs; l_old := loss; l_losses := vloss :: l_losses s;
                                l_patches := l_patches s ++ [(k, p)]; l_converged := l_converged s |}).
  { exists k, p. split; [repeat split; auto|]. split; [reflexivity|].
    assert (Vs : vs = replay m cfg (l_patches s ++ [(k, p)]) groups values) by (rewrite replay_app, <- (i_values s I); reflexivity).
    constructor; cbn [l_values l_val_values l_old l_losses l_patches l_converged].
    - exact Vs.
    - rewrite replay_app, <- (i_val s I). reflexivity.
    - intros i k' p' H. destruct (Nat.lt_ge_cases i (length (l_patches s))) as [L|L].
      + rewrite nth_error_app1 in H by exact L. rewrite firstn_app. replace (i - length (l_patches s))%nat with O by lia. cbn [firstn]. rewrite app_nil_r.
        exact (i_chosen s I i k' p' H).
      + rewrite nth_error_app2 in H by exact L. destruct (i - length (l_patches s))%nat as [|d] eqn:Ed; [|destruct d; discriminate].
        injection H as <- <-. rewrite firstn_app, Ed. cbn [firstn]. rewrite app_nil_r, firstn_all2 by lia. rewrite <- (i_values s I). auto.
    - reflexivity.
    - cbn [length]. rewrite app_length, (i_len s I). cbn. lia.
    - reflexivity.
    - intros i a b H1 H2. destruct i as [|i].
      + cbn in H1. injection H1 as <-. cbn [nth_error] in H2. pose proof (oltb_false _ _ E3) as N.
        destruct (l_losses s) as [|x r]; [discriminate|]. cbn in H2. injection H2 as <-. exact N.
      + exact (i_down s I i a b H1 H2).
    - intros i H. rewrite app_length in H. cbn [length] in H. destruct (Nat.lt_ge_cases i (length (l_patches s))) as [L|L].
      + rewrite !firstn_app. replace (i - length (l_patches s))%nat with O by lia. replace (S i - length (l_patches s))%nat with O by lia.
        cbn [firstn]. rewrite !app_nil_r. exact (i_calib s I i L).
      + replace i with (length (l_patches s)) by lia.
        assert (F1 : firstn (length (l_patches s)) (l_patches s ++ [(k, p)]) = l_patches s) by (rewrite firstn_app, firstn_all, Nat.sub_diag; apply app_nil_r).
        rewrite F1. rewrite firstn_all2 by (rewrite app_length; cbn; lia). rewrite <- Vs, <- (i_values s I), <- (i_old s I). exact (oltb_false _ _ E1).
    - rewrite <- (i_first s I). assert (Ll := i_len s I). destruct (l_losses s); [discriminate|reflexivity].
    - exact (i_conv s I). }
  destruct (existsb (fun b => b) (members m cfg k vgroups (l_val_values s))); [|exact Go].
  destruct (hd None (l_losses s)) as [a|] eqn:Eh; [|exact Go]. destruct vloss as [v|] eqn:Ev; [|exact Go].
  destruct (Qeq_bool a 0) eqn:E4; [left; reflexivity|]. destruct (Qle_bool ((a - v) / a) (rtol cfg)) eqn:E5; [|exact Go].
  right. exists k, p. split; [repeat split; auto; cbn [l_losses l_val_values]; fold vvs; fold vloss; rewrite Ev; reflexivity|]. split; [reflexivity|]. cbn [l_converged l_values l_val_values]. split; [|discriminate].
  intros _. exists v. split; [exact Ev|]. right. exists a. rewrite <- (i_hd s I), Eh. split; [reflexivity|].
  split; [apply (oltb_false _ _ E3); reflexivity|]. split; [now apply Qeq_bool_neq|now apply Qleb_true].
Qed.

(** the whole loop *)
Definition final_of (n : nat) (s : lstate V) : Prop :=
  (length (l_patches s) <= n)%nat /\ chosen_at (l_patches s) /\ calib_down (l_patches s) /\
  losses_down (skipn (length (l_losses s) - S (length (l_patches s))) (l_losses s)) /\
  (S (length (l_patches s)) <= length (l_losses s) <= S (S (length (l_patches s))))%nat /\ last (l_losses s) None = m_loss m val_values vscores /\
  exists extra, (extra = [] \/ exists k p, extra = [(k, p)] /\ choose m cfg groups scores (replay m cfg (l_patches s) groups values) = Some k /\
                    patch_for m cfg groups scores (replay m cfg (l_patches s) groups values) k = Ok (Some p)) /\
    l_values s = replay m cfg (l_patches s ++ extra) groups values /\
    l_val_values s = replay m cfg (l_patches s ++ extra) vgroups val_values /\
    length (l_losses s) = (S (length (l_patches s)) + length extra)%nat /\ hd None (l_losses s) = m_loss m (l_val_values s) vscores /\
    (l_converged s = true -> extra <> [] /\ exists v, m_loss m (l_val_values s) vscores = Some v /\
       (v <= atol cfg \/ exists a, m_loss m (replay m cfg (l_patches s) vgroups val_values) vscores = Some a /\ v <= a /\ ~ a == 0 /\ (a - v) / a <= rtol cfg)) /\
    (extra = [] -> l_converged s = false /\ (length (l_patches s) = n \/ choose m cfg groups scores (l_values s) = None)) /\
    (extra <> [] -> l_converged s = false ->
       oltb (m_loss m (replay m cfg (l_patches s) groups values) scores) (m_loss m (l_values s) scores) = true \/
       oltb (m_loss m (replay m cfg (l_patches s) vgroups val_values) vscores) (m_loss m (l_val_values s) vscores) = true).
Lemma inv_final n s : inv s -> (length (l_patches s) <= n)%nat ->
  (length (l_patches s) = n \/ choose m cfg groups scores (l_values s) = None) -> final_of n s.
Proof.
  intros I L W. split; [exact L|]. split; [exact (i_chosen s I)|]. split; [exact (i_calib s I)|].
  rewrite (i_len s I), Nat.sub_diag. split; [exact (i_down s I)|]. split; [lia|]. split; [exact (i_first s I)|].
  exists []. rewrite app_nil_r. split; [now left|]. split; [exact (i_values s I)|]. split; [exact (i_val s I)|]. split; [cbn; lia|]. split; [exact (i_hd s I)|].
  rewrite (i_conv s I). split; [discriminate|]. split; [|congruence]. intros _. split; [reflexivity|exact W].
Qed.
Lemma rounds_final r : forall s n, inv s -> (length (l_patches s) + r = n)%nat ->
  match rounds m cfg r groups vgroups scores vscores s with
  | Break s' => final_of n s'
  | Continue _ => False
  | _ => True
  end.
Proof.
  induction r as [|r IH]; intros s n I L; cbn [rounds].
  - apply inv_final; [exact I|lia|left; lia].
  - pose proof (round_cases s I) as C. destruct (round m cfg groups vgroups scores vscores s) as [s'|s'|e|s']; [| |exact Logic.I|exact Logic.I].
    + destruct C as (k & p & _ & E & I'). apply IH; [exact I'|]. rewrite E, app_length. cbn. lia.
    + destruct C as [[-> Nc]|(k & p & (C1 & C2 & C3 & C4 & C5) & E & Cv & Cn)].
      * apply inv_final; [exact I|lia|now right].
      * split; [rewrite E; lia|]. split; [rewrite E; exact (i_chosen s I)|]. split; [rewrite E; exact (i_calib s I)|].
        rewrite C5, E. cbn [length]. rewrite (i_len s I). replace (S (S (length (l_patches s))) - S (length (l_patches s)))%nat with 1%nat by lia.
        split; [exact (i_down s I)|]. split; [lia|]. split. { assert (Ll := i_len s I). rewrite <- (i_first s I). destruct (l_losses s); [discriminate|reflexivity]. }
        exists [(k, p)]. rewrite !replay_app, <- (i_values s I), <- (i_val s I).
        split; [right; exists k, p; auto|]. split; [exact C3|]. split; [exact C4|]. split; [cbn; lia|]. split; [reflexivity|].
        split; [|split; [discriminate|intros _ Hf; rewrite <- (i_old s I); exact (Cn Hf)]]. intros Hc. split; [discriminate|]. destruct (Cv Hc) as (v & Ev & W). exists v. split; [exact Ev|]. exact W.
Qed.
Lemma run_final n s : run m cfg n groups vgroups scores vscores values val_values = Break s -> final_of n s.
Proof.
  intros H. pose proof (rounds_final n _ n inv_start eq_refl) as R. unfold run in H. rewrite H in R. exact R.
Qed.
End Generic.
