From Coq Require Import List Arith ZArith QArith Qabs Qminmax Qround Bool Lia Lqa Sorted Permutation.
From Verif Require Import Lib LoaderProofs QuantModel QuantSpec QuantProofs ConfRegModel ConfRegProofs ConfClassModel ConfClassProofs ConfClassProofs2 ConfClassSpec ConfClassProofs3 MultiModel MultiSpec MultiSpec3 MultiProofs MultiProofs2 MultiProofs3 MultiProofs4 MultiProofs5 MultiProofs8 OneShotModel OneShotSpec OneShotProofs OneShotProofs2 IterModel IterSpec IterProofs IterProofs2 IterProofs3.
Import ListNotations.
Open Scope Q_scope.

Lemma qsum_append a b : qsum (a ++ b) == qsum a + qsum b.
Proof. induction a as [|x a IH]; [change (qsum b == 0 + qsum b); lra|]. change (x + qsum (a ++ b) == x + qsum a + qsum b). lra. Qed.
(** ---- replaying as a function of one point ---- *)
Section Point.
Context {V : Type} (m : method V) (cfg : config).
Definition sent (ps : list (key * Q)) (row : list bool) (x : V) : V := fold_left (fun x p => apply_patch1 m cfg (fst p) (snd p) row x) ps x.
Lemma zip_with_zip (f g : list bool -> V -> V) : forall rows xs, length rows = length xs -> zip_with f rows (zip_with g rows xs) = zip_with (fun r x => f r (g r x)) rows xs.
Proof. induction rows as [|r rows IH]; intros [|x xs] L; try discriminate L; [reflexivity|]. rewrite !zip_cons. f_equal. apply IH. now injection L. Qed.
Lemma zip_snd : forall (rows : list (list bool)) (xs : list V), length rows = length xs -> zip_with (fun _ x => x) rows xs = xs.
Proof. induction rows as [|r rows IH]; intros [|x xs] L; try discriminate L; [reflexivity|]. rewrite zip_cons. f_equal. apply IH. now injection L. Qed.
Lemma replay_points ps : forall rows xs, length rows = length xs -> replay m cfg ps rows xs = zip_with (sent ps) rows xs.
Proof.
  induction ps as [|p ps IH]; intros rows xs L; [symmetry; now apply zip_snd|]. rewrite replay_cons. unfold apply_one. rewrite IH.
  - now rewrite zip_with_zip.
  - now rewrite zip_length.
Qed.
End Point.
Lemma zip_maps {I A B C} (f : A -> B -> C) (g : I -> A) (h : I -> B) l : zip_with f (map g l) (map h l) = map (fun i => f (g i) (h i)) l.
Proof. induction l as [|i l IH]; [reflexivity|]. cbn [map]. rewrite zip_cons. f_equal. exact IH. Qed.
Lemma gather_all {A} (d : A) l n : length l = n -> (0 < n)%nat -> gather d (seq 0 n) l = l.
Proof.
  intros L P. unfold gather. apply (nth_ext _ _ d d); [now rewrite map_length, seq_length|]. intros i Hi. rewrite map_length, seq_length in Hi.
  rewrite (nth_indep _ d (clamped d 0 l)) by (rewrite map_length, seq_length; exact Hi). rewrite (map_nth (fun i => clamped d i l)). rewrite seq_nth by exact Hi.
  unfold clamped. rewrite L, Nat.min_l by lia. reflexivity.
Qed.

(** ---- the loss of a family, as a sum over points ---- *)
Section Loss.
Variable rnd : random.
Context {V : Type} (m : method V) (cfg : config) (d : V) (h : V -> list Q -> Q) (P : V -> Prop) (S : list Q -> Prop) (c : nat -> Q).
Hypothesis loss_is : forall xs ss, length ss = length xs -> xs <> [] -> Forall P xs -> Forall S ss ->
  0 < c (length xs) /\ exists v, m_loss m xs ss = Some v /\ v * c (length xs) == qsum (zip_with h xs ss).
Hypothesis P_kept : forall k p row x, P x -> P (apply_patch1 m cfg k p row x).
Lemma P_zip k p : forall rows xs, Forall P xs -> Forall P (zip_with (apply_patch1 m cfg k p) rows xs).
Proof. induction rows as [|r rows IH]; intros [|x xs] F; try constructor; inversion_clear F; [now apply P_kept|now apply IH]. Qed.
Lemma P_replay ps : forall rows xs, Forall P xs -> Forall P (replay m cfg ps rows xs).
Proof. induction ps as [|q ps IH]; intros rows xs F; [exact F|]. rewrite replay_cons. apply IH. now apply P_zip. Qed.
Lemma compare_losses xs ys ss : length ss = length xs -> length ys = length xs -> Forall P xs -> Forall P ys -> Forall S ss ->
  no_increase (m_loss m xs ss) (m_loss m ys ss) -> qsum (zip_with h ys ss) <= qsum (zip_with h xs ss).
Proof.
  intros L L' F F' G N. destruct xs as [|x xs]; [destruct ys; [apply Qle_refl|discriminate]|].
  destruct (loss_is (x :: xs) ss L ltac:(discriminate) F G) as (C & v & E1 & E2).
  destruct (loss_is ys ss ltac:(congruence) ltac:(destruct ys; discriminate) F' G) as (_ & w & E3 & E4).
  rewrite L' in E4. rewrite <- E2, <- E4. specialize (N v w E1 E3). apply Qmult_le_compat_r; lra.
Qed.
Section Run.
Variables (n : nat) (groups vgroups : list (list bool)) (scores vscores : list (list Q)) (values val_values : list V) (s : lstate V).
Hypothesis R : run m cfg n groups vgroups scores vscores values val_values = Break s.
Lemma calibration_part : length groups = length values -> length scores = length values -> Forall P values -> Forall S scores ->
  qsum (zip_with h (replay m cfg (l_patches s) groups values) scores) <= qsum (zip_with h values scores).
Proof.
  intros L1 L2 F G. enough (X : forall i, (i <= length (l_patches s))%nat -> qsum (zip_with h (replay m cfg (firstn i (l_patches s)) groups values) scores) <= qsum (zip_with h values scores)).
  { specialize (X _ (le_n _)). now rewrite firstn_all in X. }
  induction i as [|i IH]; intros Hi; [apply Qle_refl|]. eapply Qle_trans; [|apply IH; lia].
  assert (N := calibration_losses_decrease _ m cfg n groups vgroups scores vscores values val_values s i R ltac:(lia)). unfold apply_patches in N.
  apply compare_losses; try (apply P_replay; exact F); try exact G; try exact N; rewrite !replay_length; auto.
Qed.
Lemma validation_part : length vgroups = length val_values -> length vscores = length val_values -> Forall P val_values -> Forall S vscores ->
  qsum (zip_with h (replay m cfg (l_patches s) vgroups val_values) vscores) <= qsum (zip_with h val_values vscores).
Proof.
  intros L1 L2 F G. enough (X : forall i, (i <= length (l_patches s))%nat -> qsum (zip_with h (replay m cfg (firstn i (l_patches s)) vgroups val_values) vscores) <= qsum (zip_with h val_values vscores)).
  { specialize (X _ (le_n _)). now rewrite firstn_all in X. }
  induction i as [|i IH]; intros Hi; [apply Qle_refl|]. eapply Qle_trans; [|apply IH; lia].
  destruct (validation_losses_decrease _ m cfg n groups vgroups scores vscores values val_values s R) as (_ & _ & D).
  destruct (losses_of_patches _ m cfg n groups vgroups scores vscores values val_values s R) as [Ls _].
  assert (N := D i _ _ ltac:(lia) (Ls i ltac:(lia)) (Ls (Datatypes.S i) ltac:(lia))). unfold apply_patches in N.
  apply compare_losses; try (apply P_replay; exact F); try exact G; try exact N; rewrite !replay_length; auto.
Qed.
End Run.
Theorem fit_improves a groups scores values st ps : fit rnd m cfg d a groups scores values = (Ok st, ps) ->
  (0 < length scores)%nat -> length groups = length scores -> length values = length scores -> Permutation (r_perm rnd (length scores)) (seq 0 (length scores)) ->
  Forall P values -> Forall S scores ->
  qsum (zip_with h (replay m cfg ps groups values) scores) <= qsum (zip_with h values scores).
Proof.
  intros H N Lg Lv Pm FP FS. apply fit_ok in H. destruct H as (s & R & _ & ->). set (size := length scores) in *.
  set (rw := fun i => clamped [] i groups). set (sc := fun i => clamped [] i scores). set (vl := fun i => clamped d i values). set (ps := l_patches s) in *.
  assert (IN : forall {A} (Z : A -> Prop) (e : A) (l : list A) i, length l = size -> Forall Z l -> Z (clamped e i l)).
  { intros A Z e l i L F. unfold clamped. rewrite Forall_forall in F. apply F. apply nth_In. lia. }
  assert (before : forall idx, qsum (zip_with h (gather d idx values) (gather [] idx scores)) = qsum (map (fun i => h (vl i) (sc i)) idx)) by (intros idx; unfold gather; now rewrite zip_maps).
  assert (after : forall idx, qsum (zip_with h (replay m cfg ps (gather [] idx groups) (gather d idx values)) (gather [] idx scores)) = qsum (map (fun i => h (sent m cfg ps (rw i) (vl i)) (sc i)) idx)).
  { intros idx. rewrite replay_points by (unfold gather; now rewrite !map_length). unfold gather. now rewrite !zip_maps. }
  assert (FPi : forall idx, Forall P (gather d idx values)). { intros idx. apply Forall_forall. intros x Hx. apply in_map_iff in Hx. destruct Hx as (i & <- & _). now apply IN. }
  assert (FSi : forall idx, Forall S (gather [] idx scores)). { intros idx. apply Forall_forall. intros x Hx. apply in_map_iff in Hx. destruct Hx as (i & <- & _). now apply IN. }
  assert (Len : forall {A B} (e : A) (e' : B) idx l l', length (gather e idx l) = length (gather e' idx l')) by (intros; unfold gather; now rewrite !map_length).
  assert (C := calibration_part _ _ _ _ _ _ _ _ R (Len _ _ _ _ _ _ _) (Len _ _ _ _ _ _ _) (FPi _) (FSi _)). rewrite after, before in C.
  assert (W := validation_part _ _ _ _ _ _ _ _ R (Len _ _ _ _ _ _ _) (Len _ _ _ _ _ _ _) (FPi _) (FSi _)). rewrite after, before in W.
  assert (whole : forall g : nat -> Q, qsum (map g (head rnd a scores)) + qsum (map g (tail rnd a scores)) == qsum (map g (seq 0 size))).
  { intros g. rewrite <- qsum_append, <- map_app. unfold head, tail. rewrite firstn_skipn. apply qsum_perm. now apply Permutation_map. }
  rewrite <- (gather_all d values size Lv N), <- (gather_all [] scores size eq_refl N), <- (gather_all [] groups size Lg N). rewrite after, before, <- !whole. fold ps in C, W. lra.
Qed.
End Loss.
