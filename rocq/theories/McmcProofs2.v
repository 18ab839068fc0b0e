(** Proofs about SWAG moments. *)
From Coq Require Import List Arith ZArith QArith Qminmax Bool Lia Lqa.
From Verif Require Import Lib QuantModel QuantProofs ConfRegModel ConfClassModel MetricSpec MetricProofs MetricProofs2 PredModel PredSpec PredProofs3 McmcModel McmcSpec.
Import ListNotations.
Open Scope Q_scope.

Lemma nQ_succ n : nQ (Datatypes.S n) == nQ n + 1.
Proof. unfold nQ. rewrite Nat2Z.inj_succ, <- Z.add_1_r, inject_Z_plus. reflexivity. Qed.
Lemma nQ_ge0 n : 0 <= nQ n.
Proof. apply nQ_nonneg. Qed.
Lemma swag_run_snoc rank steps e p : swag_run rank (steps ++ [(e, p)]) = swag_step rank (swag_run rank steps) e p.
Proof. unfold swag_run. now rewrite fold_left_app. Qed.
Lemma swag_run_some rank steps : steps <> [] -> exists s, swag_run rank steps = Some s.
Proof.
  destruct steps as [|x l] using rev_ind; [congruence|]. intros _. destruct x as [e p]. rewrite swag_run_snoc. unfold swag_step. destruct (swag_run rank l); eauto.
Qed.
Lemma total_snoc l x : total (l ++ [x]) == total l + x.
Proof. induction l as [|y l IH]; cbn [app total fold_right]. lra. change (y + total (l ++ [x]) == y + total l + x). rewrite IH. lra. Qed.

Lemma total_nonneg l : (forall x, In x l -> 0 <= x) -> 0 <= total l.
Proof. induction l as [|x l IH]; intros H. discriminate. assert (A := H x (or_introl eq_refl)). specialize (IH (fun y Hy => H y (or_intror Hy))). change (0 <= x + total l). lra. Qed.
(** one update per epoch: exact averages *)
Definition one_per_epoch (ps : list Q) : list (nat * Q) := combine (seq 0 (length ps)) ps.
Lemma one_per_epoch_snoc ps p : one_per_epoch (ps ++ [p]) = one_per_epoch ps ++ [(length ps, p)].
Proof.
  unfold one_per_epoch. rewrite app_length. cbn [length]. rewrite Nat.add_1_r, seq_S. cbn [Nat.add].
  assert (G : forall (l : list nat) (ps : list Q) a p, length l = length ps -> combine (l ++ [a]) (ps ++ [p]) = combine l ps ++ [(a, p)]).
  { induction l as [|x l IH]; intros [|y qs] a q L; try discriminate; cbn [app combine]; [reflexivity|]. injection L as L. now rewrite IH. }
  apply G. now rewrite seq_length.
Qed.
Theorem swag_moments : forall rank ps, ps <> [] -> exists s, swag_run rank (combine (seq 0 (length ps)) ps) = Some s /\
  sw_mean s == mean_of ps /\ sw_mean_sq s == mean_square ps /\ swag_var s == variance_of ps.
Proof.
  intros rank ps. change (combine (seq 0 (length ps)) ps) with (one_per_epoch ps). intros NE.
  assert (G : exists s, swag_run rank (one_per_epoch ps) = Some s /\ sw_mean s == mean_of ps /\ sw_mean_sq s == mean_square ps).
  { revert NE. induction ps as [|p ps IH] using rev_ind; [congruence|]. intros _. rewrite one_per_epoch_snoc, swag_run_snoc. destruct ps as [|a ps].
    - cbn [length one_per_epoch seq combine swag_run fold_left swag_step]. eexists. split; [reflexivity|]. cbn [sw_mean sw_mean_sq app]. split; [change (p == (p + 0) / 1)|change (p * p == (p * p + 0) / 1)]; field.
    - destruct IH as (s & E & M & V); [discriminate|]. rewrite E. cbn [swag_step]. eexists. split; [reflexivity|]. cbn [sw_mean sw_mean_sq]. set (l := a :: ps) in *. assert (P : 0 < nQ (length l)) by (apply nQ_pos; unfold l; cbn; lia). change (inject_Z (Z.of_nat (length l))) with (nQ (length l)).
      unfold mean_of, mean_square. rewrite M, V. unfold mean_of, mean_square. rewrite map_app. cbn [map]. rewrite !total_snoc, app_length. cbn [length]. rewrite Nat.add_1_r, nQ_succ. split; field; split; lra. }
  destruct G as (s & E & M & V). exists s. split; [exact E|]. split; [exact M|]. split; [exact V|]. unfold swag_var. rewrite M, V.
  assert (P : 0 < nQ (length ps)). { apply nQ_pos. destruct ps; [congruence|cbn; lia]. }
  assert (X : variance_of ps == mean_square ps - mean_of ps * mean_of ps).
  { unfold variance_of. set (m := mean_of ps). assert (T : forall l, total (map (fun x => (x - m) * (x - m)) l) == total (map (fun x => x * x) l) - 2 * m * total l + nQ (length l) * (m * m)).
    { induction l as [|x l IH]. change (0 == 0 - 2 * m * 0 + 0 * (m * m)). ring. cbn [map length]. change ((x - m) * (x - m) + total (map (fun x => (x - m) * (x - m)) l) == (x * x + total (map (fun x => x * x) l)) - 2 * m * (x + total l) + nQ (Datatypes.S (length l)) * (m * m)). rewrite IH, nQ_succ. ring. }
    rewrite T. assert (Y : total ps == m * nQ (length ps)). { unfold m, mean_of. field. lra. } rewrite Y. unfold mean_square. field. lra. }
  rewrite X. apply Q.max_r. rewrite <- X. unfold variance_of. apply Qle_shift_div_l; [exact P|]. rewrite Qmult_0_l. apply total_nonneg. intros x Hx. apply in_map_iff in Hx. destruct Hx as (y & <- & _). apply sq_nonneg.
Qed.

(** any number of updates per epoch *)
Lemma swag_inv rank steps (lo hi : Q) : (forall ep, In ep steps -> lo <= snd ep <= hi) ->
  forall s, swag_run rank steps = Some s -> lo <= sw_mean s <= hi /\ 0 <= sw_mean_sq s - sw_mean s * sw_mean s.
Proof.
  induction steps as [|[e p] steps IH] using rev_ind; intros B s E; [discriminate|]. rewrite swag_run_snoc in E. assert (Bp : lo <= p <= hi). { apply (B (e, p)). apply in_app_iff. right. now left. }
  destruct (swag_run rank steps) as [s0|] eqn:E0; cbn [swag_step] in E; injection E as <-; cbn [sw_mean sw_mean_sq].
  - destruct (IH (fun ep H => B ep (in_or_app _ _ _ (or_introl H))) s0 eq_refl) as [[A1 A2] V]. change (inject_Z (Z.of_nat e)) with (nQ e). assert (N := nQ_ge0 e). set (k := nQ e) in *. assert (K : 0 < k + 1) by lra. 
    set (m := sw_mean s0) in *. set (q := sw_mean_sq s0) in *. split; [split|].
    + apply Qle_shift_div_l; [exact K|]. nra.
    + apply Qle_shift_div_r; [exact K|]. nra.
    + assert (X : (q * k + p * p) / (k + 1) - (m * k + p) / (k + 1) * ((m * k + p) / (k + 1)) == k / (k + 1) * (q - m * m) + k / (k + 1) * ((p - m) / (k + 1) * ((p - m) / 1))). { field. lra. }
      rewrite X. assert (F : 0 <= k / (k + 1)). { apply Qle_shift_div_l; [exact K|]. lra. }
      assert (G : 0 <= (p - m) / (k + 1) * ((p - m) / 1)). { setoid_replace ((p - m) / (k + 1) * ((p - m) / 1)) with ((p - m) * (p - m) / (k + 1)) by (field; lra). apply Qle_shift_div_l; [exact K|]. pose proof (sq_nonneg (p - m)). lra. }
      pose proof (Qmult_le_0_compat _ _ F V). pose proof (Qmult_le_0_compat _ _ F G). lra.
  - split; [lra|]. lra.
Qed.
Theorem swag_bounds : forall rank steps lo hi s, (forall ep, In ep steps -> lo <= snd ep <= hi) -> swag_run rank steps = Some s ->
  lo <= sw_mean s <= hi /\ sw_mean s * sw_mean s <= sw_mean_sq s /\ swag_var s == sw_mean_sq s - sw_mean s * sw_mean s.
Proof.
  intros rank steps lo hi s B E. destruct (swag_inv rank steps lo hi B s E) as [A V]. split; [exact A|]. split; [lra|]. unfold swag_var. apply Q.max_r. exact V.
Qed.
(** the deviation matrix: the latest [rank] of all deviations ever computed *)
Definition all_deviations (rank : nat) (steps : list (nat * Q)) : list Q :=
  map (fun i => match nth_error steps i, swag_run rank (firstn (Datatypes.S i) steps) with
                | Some ep, Some s => if (i =? 0)%nat then 0 else snd ep - sw_mean s
                | _, _ => 0 end) (seq 0 (length steps)).
Lemma all_deviations_snoc rank steps e p s : swag_run rank (steps ++ [(e, p)]) = Some s -> steps <> [] ->
  all_deviations rank (steps ++ [(e, p)]) = all_deviations rank steps ++ [p - sw_mean s].
Proof.
  intros E NE. unfold all_deviations. rewrite app_length. cbn [length]. rewrite Nat.add_1_r, seq_S, map_app. cbn [Nat.add map]. f_equal.
  - apply map_ext_in. intros i Hi. apply in_seq in Hi. rewrite nth_error_app1 by lia. rewrite firstn_app. replace (Datatypes.S i - length steps)%nat with 0%nat by lia. cbn [firstn]. now rewrite app_nil_r.
  - rewrite nth_error_app2 by lia. rewrite Nat.sub_diag. cbn [nth_error]. rewrite firstn_all2 by (rewrite app_length; cbn; lia). rewrite E. destruct steps; [congruence|]. reflexivity.
Qed.
Lemma all_deviations_length rank steps : length (all_deviations rank steps) = length steps.
Proof. unfold all_deviations. now rewrite map_length, seq_length. Qed.
Lemma latest_snoc {A} k (l : list A) x : (1 <= k)%nat -> latest (k - 1) l ++ [x] = latest k (l ++ [x]).
Proof.
  intros H. unfold latest. rewrite app_length. cbn [length]. rewrite skipn_app. replace (length l + 1 - k)%nat with (length l - (k - 1))%nat by lia. f_equal. replace (length l - (k - 1) - length l)%nat with 0%nat by lia. reflexivity.
Qed.
Lemma latest_latest {A} a b (l : list A) : (a <= b)%nat -> latest a (latest b l) = latest a l.
Proof.
  intros H. unfold latest. rewrite skipn_length. destruct (Nat.le_gt_cases (length l) b) as [L|L].
  - replace (length l - b)%nat with 0%nat by lia. cbn [skipn]. f_equal. lia.
  - assert (SK : forall (A : Type) x y (m : list A), skipn x (skipn y m) = skipn (y + x) m). { intros B x y. induction y as [|y IH]; intros m; [reflexivity|]. destruct m; cbn [skipn Nat.add]; [now rewrite skipn_nil|apply IH]. }
    rewrite SK. f_equal. lia.
Qed.
Theorem swag_deviations : forall rank steps s, (2 <= rank)%nat -> swag_run rank steps = Some s ->
  sw_dev s = latest rank (all_deviations rank steps).
Proof.
  intros rank steps s H. revert s. induction steps as [|[e p] steps IH] using rev_ind; intros s E; [discriminate|]. destruct steps as [|x steps].
  - cbn [app swag_run fold_left swag_step] in E. injection E as <-. cbn [sw_dev]. change (all_deviations rank ([] ++ [(e, p)])) with [0]. unfold latest. cbn [length]. replace (1 - rank)%nat with 0%nat by lia. reflexivity.
  - set (l := x :: steps) in *. rewrite (all_deviations_snoc rank l e p s E) by discriminate. rewrite swag_run_snoc in E. destruct (swag_run rank l) as [s0|] eqn:E0. 2: { destruct (swag_run_some rank l) as [z Z]; [discriminate|congruence]. }
    cbn [swag_step] in E. injection E as <-. cbn [sw_dev sw_mean]. rewrite (IH s0 eq_refl). unfold last_columns. destruct (Nat.eqb_spec rank 1); [lia|]. change (skipn (length (latest rank (all_deviations rank l)) - (rank - 1)) (latest rank (all_deviations rank l))) with (latest (rank - 1) (latest rank (all_deviations rank l))). rewrite latest_latest by lia. rewrite latest_snoc by lia. reflexivity.
Qed.
(** column j counted from the newest, j = 0 .. rank-1 *)
Theorem swag_columns : forall rank steps s, (2 <= rank)%nat -> (rank < length steps)%nat -> swag_run rank steps = Some s ->
  length (sw_dev s) = rank /\
  forall j, (j < rank)%nat -> exists ep si,
    let i := (length steps - rank + j)%nat in
    nth_error steps i = Some ep /\ swag_run rank (firstn (Datatypes.S i) steps) = Some si /\ nth j (sw_dev s) 0 = snd ep - sw_mean si.
Proof.
  intros rank steps s H L E. rewrite (swag_deviations rank steps s H E). unfold latest. rewrite all_deviations_length. split. { rewrite skipn_length, all_deviations_length. lia. }
  intros j Hj. set (i := (length steps - rank + j)%nat). assert (NS : forall (A : Type) a b (l : list A) d, nth b (skipn a l) d = nth (a + b) l d). { intros A a b l d. revert l. induction a as [|a IH]; intros l; [reflexivity|]. destruct l; cbn [skipn Nat.add]. now destruct b. apply IH. }
  rewrite NS. change (length steps - rank + j)%nat with i. unfold all_deviations. rewrite (nth_indep _ 0 ((fun i => match nth_error steps i, swag_run rank (firstn (Datatypes.S i) steps) with Some ep, Some s => if (i =? 0)%nat then 0 else snd ep - sw_mean s | _, _ => 0 end) 0%nat)) by (rewrite map_length, seq_length; lia).
  rewrite (map_nth (fun i => match nth_error steps i, swag_run rank (firstn (Datatypes.S i) steps) with Some ep, Some s => if (i =? 0)%nat then 0 else snd ep - sw_mean s | _, _ => 0 end)). rewrite seq_nth by lia. cbn [Nat.add].
  destruct (nth_error steps i) as [ep|] eqn:N. 2: { apply nth_error_None in N. lia. }
  destruct (swag_run_some rank (firstn (Datatypes.S i) steps)) as [si Si]. { destruct steps; [cbn in L; lia|discriminate]. }
  exists ep, si. cbn zeta. rewrite Si. destruct (Nat.eqb_spec i 0); [lia|]. auto.
Qed.
Theorem swag_accepted : forall rank n_epochs, swag_checks rank n_epochs = Ok tt <-> (2 <= rank < n_epochs)%nat.
Proof.
  intros rank n. unfold swag_checks. destruct (Nat.ltb_spec rank 2); [split; [discriminate|lia]|]. destruct (Nat.leb_spec n rank); split; try discriminate; try lia; auto.
Qed.
(** several updates in epoch 0: everything but the last one is forgotten *)
Theorem swag_epoch0 : forall rank steps p s, swag_run rank (map (fun q => (0%nat, q)) steps ++ [(0%nat, p)]) = Some s -> sw_mean s == p /\ sw_mean_sq s == p * p.
Proof.
  intros rank steps p s E. rewrite swag_run_snoc in E. destruct (swag_run rank _); cbn [swag_step] in E; injection E as <-; cbn [sw_mean sw_mean_sq]; [|split; reflexivity]. change (inject_Z (Z.of_nat 0)) with 0. split; field.
Qed.
Theorem swag_average_refuted : exists rank steps s, (2 <= rank)%nat /\ swag_run rank steps = Some s /\ ~ sw_mean s == mean_of (map snd steps).
Proof. exists 2%nat, [(0%nat, 0); (0%nat, 4)], {| sw_mean := (0 * 0 + 4) / (0 + 1); sw_mean_sq := (0 * 0 * 0 + 4 * 4) / (0 + 1); sw_dev := [0; 4 - (0 * 0 + 4) / (0 + 1)] |}. split; [lia|]. split; [reflexivity|]. vm_compute. discriminate. Qed.
(** rank 1 would keep every column *)
Theorem swag_rank_one : forall steps s, swag_run 1 steps = Some s -> length (sw_dev s) = length steps.
Proof.
  induction steps as [|[e p] steps IH] using rev_ind; intros s E; [discriminate|]. rewrite swag_run_snoc in E. destruct (swag_run 1 steps) as [s0|] eqn:E0; cbn [swag_step] in E; injection E as <-; cbn [sw_dev].
  - unfold last_columns. cbn [Nat.eqb]. rewrite !app_length. now rewrite (IH s0 eq_refl).
  - destruct steps; [reflexivity|]. destruct (swag_run_some 1 (p0 :: steps)) as [z Z]; [discriminate|congruence].
Qed.
