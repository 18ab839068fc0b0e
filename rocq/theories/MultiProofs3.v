From Coq Require Import List Arith ZArith QArith Qround Qminmax Qabs Bool Lia Lqa.
From Verif Require Import Lib QuantModel QuantSpec QuantProofs ConfRegModel ConfRegProofs ConfClassModel ConfClassProofs ConfClassProofs2 ConfClassSpec ConfClassProofs3 MultiModel MultiSpec MultiProofs MultiProofs2.
Import ListNotations.
Open Scope Q_scope.

(** ---- consequences of the loop invariant (C37, C38) ---- *)
Theorem replay_reproduces : forall V (m : method V) cfg n groups vgroups scores vscores values val_values s,
  run m cfg n groups vgroups scores vscores values val_values = Break s ->
  exists extra, (length extra <= 1)%nat /\
    l_values s = apply_patches m cfg (l_patches s ++ extra) groups values /\
    l_val_values s = apply_patches m cfg (l_patches s ++ extra) vgroups val_values /\
    (l_converged s = true -> length extra = 1%nat) /\
    (forall i k p, nth_error (l_patches s ++ extra) i = Some (k, p) ->
       choose m cfg groups scores (apply_patches m cfg (firstn i (l_patches s)) groups values) = Some k /\
       patch_for m cfg groups scores (apply_patches m cfg (firstn i (l_patches s)) groups values) k = Ok (Some p)).
Proof.
  intros V m cfg n groups vgroups scores vscores values val_values s H. apply run_final in H.
  destruct H as (_ & Ch & _ & _ & _ & _ & extra & X & Ev & Evv & _ & _ & Cv & _). exists extra.
  split; [destruct X as [->|(k & p & -> & _)]; cbn; lia|]. split; [exact Ev|]. split; [exact Evv|]. split.
  { intros Hc. destruct (Cv Hc) as [Ne _]. destruct X as [->|(k & p & -> & _)]; [congruence|reflexivity]. }
  intros i k p Hi. unfold apply_patches. destruct (Nat.lt_ge_cases i (length (l_patches s))) as [L|L].
  - rewrite nth_error_app1 in Hi by exact L. exact (Ch i k p Hi).
  - rewrite nth_error_app2 in Hi by exact L. destruct X as [->|(k' & p' & -> & A & B)]; [destruct (i - length (l_patches s))%nat; discriminate|].
    destruct (i - length (l_patches s))%nat as [|d]; [|destruct d; discriminate]. cbn in Hi. injection Hi as <- <-.
    rewrite firstn_all2 by lia. auto.
Qed.
Theorem replay_concat : forall V (m : method V) cfg ps g1 g2 v1 v2, length g1 = length v1 ->
  apply_patches m cfg ps (g1 ++ g2) (v1 ++ v2) = apply_patches m cfg ps g1 v1 ++ apply_patches m cfg ps g2 v2.
Proof. intros. now apply replay_concat_gen. Qed.
Theorem replay_nothing : forall V (m : method V) cfg groups values, apply_patches m cfg [] groups values = values.
Proof. reflexivity. Qed.
Theorem replay_in_two_steps : forall V (m : method V) cfg ps qs groups values,
  apply_patches m cfg (ps ++ qs) groups values = apply_patches m cfg qs groups (apply_patches m cfg ps groups values).
Proof. intros. apply replay_app. Qed.
(** results do not depend on the other points of the batch *)
Theorem replay_pointwise : forall V (m : method V) cfg ps groups values i row x,
  nth_error groups i = Some row -> nth_error values i = Some x -> length groups = length values ->
  nth_error (apply_patches m cfg ps groups values) i = nth_error (apply_patches m cfg ps [row] [x]) 0.
Proof.
  intros V m cfg ps groups values i row x G X L.
  destruct (nth_error_split _ _ G) as (g1 & g2 & Eg & Lg). destruct (nth_error_split _ _ X) as (v1 & v2 & Ev & Lv).
  subst groups values. rewrite replay_concat by lia. rewrite nth_error_app2; unfold apply_patches; rewrite replay_length by lia; [|lia].
  rewrite Lv, Nat.sub_diag. fold (apply_patches m cfg ps (row :: g2) (x :: v2)).
  change (row :: g2) with ([row] ++ g2). change (x :: v2) with ([x] ++ v2). rewrite replay_concat by reflexivity.
  unfold apply_patches. rewrite nth_error_app1; [reflexivity|]. rewrite replay_length by reflexivity. cbn. lia.
Qed.

Theorem rounds_bound : forall V (m : method V) cfg n groups vgroups scores vscores values val_values s,
  run m cfg n groups vgroups scores vscores values val_values = Break s ->
  (length (l_patches s) <= n)%nat /\ st_n_rounds (status_of s) = length (l_patches s).
Proof. intros V m cfg n groups vgroups scores vscores values val_values s H. apply run_final in H. destruct H as (L & _). split; [exact L|reflexivity]. Qed.

Lemma nth_error_rev {A} (l : list A) i x : nth_error (rev l) i = Some x -> (i < length l)%nat /\ nth_error l (length l - S i) = Some x.
Proof.
  intros H. assert (L : (i < length l)%nat). { rewrite <- rev_length. apply nth_error_Some. congruence. } split; [exact L|].
  assert (Hn := nth_error_nth _ _ x H). rewrite rev_nth in Hn by exact L. rewrite (nth_error_nth' l x) by lia. now rewrite Hn.
Qed.
Lemma nth_error_skipn {A} (l : list A) d i : nth_error (skipn d l) i = nth_error l (d + i).
Proof. revert l i. induction d as [|d IH]; intros [|x l] i; cbn; try reflexivity. - now destruct i. - apply IH. Qed.
Theorem validation_losses_decrease : forall V (m : method V) cfg n groups vgroups scores vscores values val_values s,
  run m cfg n groups vgroups scores vscores values val_values = Break s ->
  let losses := st_losses (status_of s) in
  nth_error losses 0 = Some (m_loss m val_values vscores) /\
  (length losses = S (length (l_patches s)) \/ length losses = S (S (length (l_patches s)))) /\
  (forall i a b, (i < length (l_patches s))%nat -> nth_error losses i = Some a -> nth_error losses (S i) = Some b -> no_increase a b).
Proof.
  intros V m cfg n groups vgroups scores vscores values val_values s H losses. apply run_final in H. destruct H as (_ & _ & _ & D & L & F & _).
  unfold losses, status_of. cbn [st_losses]. rewrite rev_length. split; [|split; [lia|]].
  - rewrite <- F. destruct (l_losses s) as [|x r] eqn:E; [cbn in L; lia|]. rewrite <- E in *. destruct (exists_last (l := l_losses s)) as (r' & y & E'); [congruence|].
    rewrite E', last_last, rev_app_distr. reflexivity.
  - intros i a b Hi Ha Hb. apply nth_error_rev in Ha. apply nth_error_rev in Hb. destruct Ha as [La Ha], Hb as [Lb Hb].
    set (d := (length (l_losses s) - S (length (l_patches s)))%nat) in *.
    apply (D (length (l_losses s) - S (S i) - d)%nat b a); rewrite nth_error_skipn.
    + rewrite <- Hb. f_equal. lia.
    + rewrite <- Ha. f_equal. lia.
Qed.
Theorem calibration_losses_decrease : forall V (m : method V) cfg n groups vgroups scores vscores values val_values s i,
  run m cfg n groups vgroups scores vscores values val_values = Break s -> (i < length (l_patches s))%nat ->
  no_increase (m_loss m (apply_patches m cfg (firstn i (l_patches s)) groups values) scores)
              (m_loss m (apply_patches m cfg (firstn (S i) (l_patches s)) groups values) scores).
Proof.
  intros V m cfg n groups vgroups scores vscores values val_values s i H L. apply run_final in H. destruct H as (_ & _ & C & _). exact (C i L).
Qed.
Theorem converged_meaning : forall V (m : method V) cfg n groups vgroups scores vscores values val_values s,
  run m cfg n groups vgroups scores vscores values val_values = Break s -> st_converged (status_of s) = true ->
  exists v, m_loss m (l_val_values s) vscores = Some v /\
    (v <= atol cfg \/ exists a, m_loss m (apply_patches m cfg (l_patches s) vgroups val_values) vscores = Some a /\ v <= a /\ ~ a == 0 /\ (a - v) / a <= rtol cfg).
Proof.
  intros V m cfg n groups vgroups scores vscores values val_values s H Hc. apply run_final in H.
  destruct H as (_ & _ & _ & _ & _ & _ & extra & X & Ev & Evv & _ & _ & Cv & _). exact (proj2 (Cv Hc)).
Qed.
Theorem no_zero_division : forall V (m : method V) cfg n groups vgroups scores vscores values val_values, 0 <= atol cfg ->
  (forall vs k, patch_for m cfg groups scores vs k <> Err ZeroDivisionError) ->
  run m cfg n groups vgroups scores vscores values val_values <> Raise ZeroDivisionError.
Proof.
  intros V m cfg n groups vgroups scores vscores values val_values A P. unfold run. generalize (start m groups vgroups scores vscores values val_values).
  induction n as [|n IH]; intros s; [discriminate|]. cbn [rounds].
  destruct (round m cfg groups vgroups scores vscores s) eqn:R; try discriminate; [apply IH|].
  intros H. injection H as ->. revert R. unfold round. destruct (choose m cfg groups scores (l_values s)) as [k|]; [|discriminate].
  destruct (patch_for m cfg groups scores (l_values s) k) as [[p|]|e] eqn:Ep; [|discriminate|intros H; injection H as ->; exact (P _ _ Ep)].
  cbv zeta. destruct (oltb (l_old s) _); [discriminate|]. destruct (oleb _ _) eqn:E2; [discriminate|]. destruct (oltb (hd None (l_losses s)) _) eqn:E3; [discriminate|].
  destruct (existsb _ _); [|discriminate]. destruct (hd None (l_losses s)) as [a|]; [|discriminate].
  destruct (m_loss m (apply_one m cfg vgroups (l_val_values s) (k, p)) vscores) as [v|]; [|discriminate].
  destruct (Qeq_bool a 0) eqn:E4; [|destruct (Qle_bool ((a - v) / a) (rtol cfg)); discriminate].
  cbn in E2, E3. apply Qltb_false in E3. apply Qeq_bool_iff in E4. apply Qleb_false in E2. lra.
Qed.

(** ---- choice of the set ---- *)
Theorem in_keys : forall cfg k, In k (keys cfg) <->
  In (k_tau k) (taus cfg) /\ (k_g k < n_groups cfg)%nat /\ In (k_v k) (get_buckets (n_buckets cfg)) /\ (k_c k < n_dims cfg)%nat.
Proof.
  intros cfg k. unfold keys. rewrite in_flat_map. setoid_rewrite in_flat_map. setoid_rewrite in_flat_map. setoid_rewrite in_map_iff. setoid_rewrite in_seq. split.
  - intros (t & Ht & g & Hg & v & Hv & c & <- & Hc). cbn. intuition lia.
  - intros (A & B & C & D). exists (k_tau k). split; [exact A|]. exists (k_g k). split; [lia|]. exists (k_v k). split; [exact C|]. exists (k_c k). split; [now destruct k|lia].
Qed.
Section Choice.
Context {V : Type} (m : method V) (cfg : config) (groups : list (list bool)) (scores : list (list Q)).
Hypothesis err_nonneg : forall vs k, 0 <= key_error m cfg groups scores vs k.
Lemma choose_spec values k : choose m cfg groups scores values = Some k ->
  In k (keys cfg) /\ forall k', In k' (keys cfg) -> min_prob cfg <= prob_of (members m cfg k' groups values) ->
    key_error m cfg groups scores values k' <= key_error m cfg groups scores values k.
Proof.
  unfold choose. destruct (existsb (frequent m cfg groups values) (keys cfg)) eqn:Ex; [|discriminate]. intros H. split; [eapply nth_error_In; exact H|].
  intros k' Hk' Hp. set (f := fun k => key_error m cfg groups scores values k * of_bool (frequent m cfg groups values k)) in *.
  assert (NE : map f (keys cfg) <> []) by (intros E; apply map_eq_nil in E; rewrite E in Ex; discriminate).
  destruct (argmax_spec _ NE) as (A & B & _). destruct (In_nth _ _ k Hk') as (j & Hj & Ej).
  specialize (B j ltac:(rewrite map_length; exact Hj)).
  assert (Nf : forall i x, nth_error (keys cfg) i = Some x -> nth i (map f (keys cfg)) 0 = f x). { intros i x Hi. apply nth_error_nth. now apply map_nth_error. }
  rewrite (Nf _ _ H) in B. rewrite (Nf j k') in B by (rewrite <- Ej; now apply nth_error_nth').
  unfold f in B. assert (F : frequent m cfg groups values k' = true) by (unfold frequent; now apply Qleb_true). rewrite F in B. cbn [of_bool] in B.
  pose proof (err_nonneg values k). destruct (frequent m cfg groups values k); cbn [of_bool] in B; lra.
Qed.
Lemma choose_none values : choose m cfg groups scores values = None -> forall k, In k (keys cfg) -> prob_of (members m cfg k groups values) < min_prob cfg.
Proof.
  unfold choose. destruct (existsb (frequent m cfg groups values) (keys cfg)) eqn:Ex.
  - intros H. exfalso. apply nth_error_None in H. set (f := fun k => key_error m cfg groups scores values k * of_bool (frequent m cfg groups values k)) in *.
    assert (NE : map f (keys cfg) <> []) by (intros E; apply map_eq_nil in E; rewrite E in Ex; discriminate).
    destruct (argmax_spec _ NE) as (A & _). rewrite map_length in A. lia.
  - intros _ k Hk. destruct (Qlt_le_dec (prob_of (members m cfg k groups values)) (min_prob cfg)) as [|L]; [assumption|].
    assert (existsb (frequent m cfg groups values) (keys cfg) = true); [|congruence]. apply existsb_exists. exists k. split; [exact Hk|]. unfold frequent. now apply Qleb_true.
Qed.

(** ---- progress ---- *)
Fixpoint total (f : nat -> Q) (n : nat) : Q := match n with O => 0 | S n' => total f n' + f n' end.
Lemma pigeon f n B : (0 < n)%nat -> total f n <= B -> exists i, (i < n)%nat /\ inject_Z (Z.of_nat n) * f i <= B.
Proof.
  intros Hn H. assert (P : 0 < inject_Z (Z.of_nat n)) by (rewrite <- (Zlt_Qlt 0); lia).
  assert (G : forall k, (exists i, (i < S k)%nat /\ inject_Z (Z.of_nat n) * f i <= B) \/ inject_Z (Z.of_nat (S k)) * B < inject_Z (Z.of_nat n) * total f (S k)).
  { induction k as [|k IH].
    - destruct (Qlt_le_dec B (inject_Z (Z.of_nat n) * f O)) as [L|L]; [|left; exists O; split; [lia|exact L]].
      right. cbn [total]. change (inject_Z (Z.of_nat 1)) with 1. lra.
    - destruct IH as [(i & Hi & Hb)|IH]; [left; exists i; split; [lia|exact Hb]|].
      destruct (Qlt_le_dec B (inject_Z (Z.of_nat n) * f (S k))) as [L|L]; [|left; exists (S k); split; [lia|exact L]].
      right. rewrite nat_S_Q. change (total f (S (S k))) with (total f (S k) + f (S k)). rewrite Qmult_plus_distr_r, Qmult_plus_distr_l. lra. }
  destruct n as [|k]; [lia|]. destruct (G k) as [E|L]; [exact E|]. exfalso. apply (Qmult_le_l _ _ _ P) in H. lra.
Qed.

Variables (Phi : list V -> Q) (good : list V -> Prop) (c : Q).
Hypothesis c_nonneg : 0 <= c.
Hypothesis Phi_nonneg : forall vs, 0 <= Phi vs.
Hypothesis good_step : forall vs k p, good vs -> good (apply_one m cfg groups vs (k, p)).
Hypothesis decrease : forall vs k p, good vs -> In k (keys cfg) -> patch_for m cfg groups scores vs k = Ok (Some p) ->
  Phi (apply_one m cfg groups vs (k, p)) <= Phi vs - c * key_error m cfg groups scores vs k.
Lemma good_replay ps : forall vs, good vs -> good (replay m cfg ps groups vs).
Proof. induction ps as [|[k p] ps IH]; intros vs G; [exact G|]. rewrite replay_cons. apply IH. now apply good_step. Qed.
Lemma telescope values ps : good values -> chosen_at m cfg groups scores values ps -> forall j, (j <= length ps)%nat ->
  total (fun i => c * match nth_error ps i with Some (k, _) => key_error m cfg groups scores (replay m cfg (firstn i ps) groups values) k | None => 0 end) j
    <= Phi values - Phi (replay m cfg (firstn j ps) groups values).
Proof.
  intros G Ch. induction j as [|j IH]; intros Hj.
  - cbn [total firstn]. unfold replay. cbn [fold_left]. lra.
  - specialize (IH ltac:(lia)). cbn [total]. destruct (nth_error ps j) as [[k p]|] eqn:E; [|apply nth_error_None in E; lia].
    destruct (Ch j k p E) as (A & B). apply choose_spec in A. destruct A as (A & _).
    assert (Sn : firstn (S j) ps = firstn j ps ++ [(k, p)]).
    { clear -E. revert j E. induction ps as [|q ps IH]; intros [|j] E; try discriminate; cbn in *; [now injection E as ->|]. f_equal. now apply IH. }
    assert (R : replay m cfg (firstn (S j) ps) groups values = apply_one m cfg groups (replay m cfg (firstn j ps) groups values) (k, p)) by (rewrite Sn, replay_app; reflexivity).
    rewrite R.
    assert (D := decrease _ k p (good_replay (firstn j ps) values G) A B). 
 lra.
Qed.
Lemma progress_gen values ps : good values -> chosen_at m cfg groups scores values ps -> ps <> [] ->
  exists i, (i < length ps)%nat /\ forall k, In k (keys cfg) -> min_prob cfg <= prob_of (members m cfg k groups (replay m cfg (firstn i ps) groups values)) ->
    inject_Z (Z.of_nat (length ps)) * (c * key_error m cfg groups scores (replay m cfg (firstn i ps) groups values) k) <= Phi values.
Proof.
  intros G Ch NE. assert (T := telescope values ps G Ch (length ps) (le_n _)).
  pose proof (Phi_nonneg (replay m cfg (firstn (length ps) ps) groups values)).
  assert (P0 : (0 < length ps)%nat) by (destruct ps; [congruence|cbn; lia]).
  destruct (pigeon _ (length ps) (Phi values) P0 ltac:(eapply Qle_trans; [exact T|lra])) as (i & Hi & B). exists i. split; [exact Hi|].
  intros k Hk Hp. eapply Qle_trans; [|exact B]. assert (P : 0 < inject_Z (Z.of_nat (length ps))) by (rewrite <- (Zlt_Qlt 0); lia).
  apply (Qmult_le_l _ _ _ P). destruct (nth_error ps i) as [[k' p]|] eqn:E; [|apply nth_error_None in E; lia].
  destruct (Ch i k' p E) as (A & _). apply choose_spec in A. destruct A as (_ & A). specialize (A k Hk Hp).
  rewrite !(Qmult_comm c). now apply Qmult_le_compat_r.
Qed.
End Choice.
