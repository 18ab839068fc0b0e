From Coq Require Import List Arith ZArith QArith Qabs Bool Lia Lqa.
From Verif Require Import Lib LoaderProofs QuantModel QuantSpec QuantProofs ConfRegModel ConfRegProofs ConfClassModel ConfClassProofs ConfClassProofs2 ConfClassSpec ConfClassProofs3 MultiModel MultiSpec MultiProofs MultiProofs2 MultiProofs3 MultiProofs4 MultiProofs5 OneShotModel OneShotSpec OneShotProofs OneShotProofs2 OneShotProofs3 OneShotProofs4.
Import ListNotations.
Open Scope Q_scope.

(** ---- values on the grid ---- *)
Lemma centre_diff n i j : (2 <= n)%nat -> (centre n i - centre n j) * inject_Z (Z.of_nat (n - 1)) == inject_Z (Z.of_nat i - Z.of_nat j).
Proof.
  intros N. unfold centre. assert (0 < inject_Z (Z.of_nat (n - 1))) by (rewrite <- (Zlt_Qlt 0); lia). unfold Z.sub. rewrite inject_Z_plus, inject_Z_opp. field. lra.
Qed.
Lemma within_grid n i j : (i < n)%nat -> (j < n)%nat -> within n (centre n i) (centre n j) -> i = j.
Proof.
  intros I J W. destruct (Nat.eq_dec n 1) as [->|N1]; [lia|]. unfold within in W.
  set (m := inject_Z (Z.of_nat (n - 1))). assert (M : 0 < m) by (unfold m; rewrite <- (Zlt_Qlt 0); lia).
  assert (Mn : m <= inject_Z (Z.of_nat n)) by (unfold m; rewrite <- Zle_Qle; lia).
  assert (D := centre_diff n i j ltac:(lia)). fold m in D.
  destruct (Nat.eq_dec i j) as [|NE]; [assumption|exfalso].
  assert (B : 1 <= Qabs (centre n i - centre n j) * m).
  { rewrite <- (Qabs_pos m) by lra. rewrite <- Qabs_Qmult, D. change 1 with (inject_Z 1).
    assert (Z : Qabs (inject_Z (Z.of_nat i - Z.of_nat j)) == inject_Z (Z.abs (Z.of_nat i - Z.of_nat j))) by reflexivity. rewrite Z, <- Zle_Qle. lia. }
  pose proof (Qabs_nonneg (centre n i - centre n j)). set (x := Qabs (centre n i - centre n j)) in *. nra.
Qed.
Lemma within_proper n x y v w : x == y -> v == w -> within n x v -> within n y w.
Proof. unfold within. intros -> -> H. exact H. Qed.
Lemma centre_inj n i j : (i < n)%nat -> (j < n)%nat -> centre n i == centre n j -> i = j.
Proof.
  intros I J E. apply (within_grid n); try assumption. unfold within. rewrite E. assert (Z : centre n j - centre n j == 0) by ring. rewrite Z. change (Qabs 0) with 0. lra.
Qed.
Lemma sent_grid n all x j : Forall (on_grid n) all -> In x all -> sent_to n all x j -> x == centre n j.
Proof.
  intros G Hx (v & Hv & Wv & _ & J & Nr & _). rewrite Forall_forall in G. destruct (G x Hx) as (i & I & Ei). destruct (G v Hv) as (i' & I' & Ei').
  assert (i = i') by (apply (within_grid n); try assumption; eapply within_proper; [exact Ei|exact Ei'|exact Wv]). subst i'.
  specialize (Nr i I). assert (Z : centre n i - v == 0) by (rewrite Ei'; ring). rewrite Z in Nr. change (Qabs 0) with 0 in Nr.
  rewrite Ei, <- Ei'. pose proof (Qabs_nonneg (centre n j - v)). assert (A : Qabs (centre n j - v) == 0) by lra.
  assert (B : centre n j - v == 0). { apply Qle_antisym; [eapply Qle_trans; [apply Qle_Qabs|lra]|]. assert (Y := Qle_Qabs (-(centre n j - v))). rewrite Qabs_opp in Y. lra. }
  lra.
Qed.
Lemma index_grid n x : (0 < n)%nat -> on_grid n x -> (one_shot_index n x < n)%nat /\ x == centre n (one_shot_index n x).
Proof.
  intros N (i & I & Ei). destruct (index_spec n x N) as (J & Nr & _). split; [exact J|]. specialize (Nr i I). assert (Z : centre n i - x == 0) by (rewrite Ei; ring). rewrite Z in Nr. change (Qabs 0) with 0 in Nr.
  set (j := one_shot_index n x) in *. pose proof (Qabs_nonneg (centre n j - x)). assert (A : Qabs (centre n j - x) == 0) by lra.
  assert (B : centre n j - x == 0). { apply Qle_antisym; [eapply Qle_trans; [apply Qle_Qabs|lra]|]. assert (Y := Qle_Qabs (-(centre n j - x))). rewrite Qabs_opp in Y. lra. }
  lra.
Qed.
Lemma sent_index n all x j : (0 < n)%nat -> Forall (on_grid n) all -> In x all -> sent_to n all x j -> j = one_shot_index n x.
Proof.
  intros N G Hx S. assert (E := sent_grid n all x j G Hx S). rewrite Forall_forall in G. destruct (index_grid n x N (G x Hx)) as [J E'].
  destruct S as (v & _ & _ & _ & J' & _). apply (centre_inj n); [exact J'|exact J|]. now rewrite <- E, <- E'.
Qed.
Lemma nth_error_ext' {A} (l m : list A) : length l = length m -> (forall i x, nth_error l i = Some x -> nth_error m i = Some x) -> l = m.
Proof.
  revert m. induction l as [|x l IH]; intros [|y m] L H; try discriminate; [reflexivity|]. f_equal; [specialize (H O x eq_refl); cbn in H; congruence|]. apply IH; [cbn in L; lia|]. intros i z Hz. exact (H (S i) z Hz).
Qed.
Lemma grid_vec n ps l : (0 < n)%nat -> Forall (on_grid n) l -> patch_vec n ps l = map (fun x => lookup ps (one_shot_index n x) 0) l.
Proof.
  intros N G. symmetry. apply nth_error_ext'; [now rewrite map_length, patch_vec_length|]. intros i y H. rewrite nth_error_map in H. destruct (nth_error l i) as [x|] eqn:X; [|discriminate]. injection H as <-.
  destruct (vec_entry n ps l i x N X) as (j & S & E). rewrite E. now rewrite (sent_index n l x j N G (nth_error_In _ _ X) S).
Qed.
Definition top_entry (row : list Q) : Q := nth (argmax row) row 0.
Lemma grid_mat n ps rows : (0 < n)%nat -> full_rows (Mat rows) -> Forall (Forall (on_grid n)) rows ->
  patch_mat n ps rows = map (fun row => set_nth (argmax row) (lookup ps (one_shot_index n (top_entry row)) (argmax row)) row) rows.
Proof.
  intros N R G. symmetry. apply nth_error_ext'; [rewrite map_length; unfold patch_mat; now rewrite fold_rows_length|]. intros i y H. rewrite nth_error_map in H. destruct (nth_error rows i) as [row|] eqn:X; [|discriminate]. injection H as <-.
  cbn in R. rewrite Forall_forall in R. assert (NE := R row (nth_error_In _ _ X)). destruct (mat_row n ps rows i row N NE X) as (j & S & E). rewrite E.
  assert (Hx : In (top_entry row) (concat rows)). { apply in_concat. exists row. split; [eapply nth_error_In; exact X|]. apply nth_In. now destruct (argmax_spec row NE). }
  now rewrite (sent_index n (concat rows) (top_entry row) j N (proj2 (forall_concat _ _) G) Hx S).
Qed.

(** ---- replacing by group means lowers the squared error ---- *)
Definition keq (g h : nat * nat) : bool := ((fst g =? fst h) && (snd g =? snd h))%nat.
Lemma keq_true g h : keq g h = true <-> g = h.
Proof. destruct g as [a b], h as [c d]. unfold keq. cbn [fst snd]. rewrite andb_true_iff, !Nat.eqb_eq. split; [intros [-> ->]; reflexivity|intros [= -> ->]; auto]. Qed.
Section Grouped.
Context {T : Type} (key : T -> nat * nat) (x s : T -> Q) (f : nat * nat -> Q).
Definition of_key (g : nat * nat) (l : list T) : list T := filter (fun t => keq (key t) g) l.
Definition off_key (g : nat * nat) (l : list T) : list T := filter (fun t => negb (keq (key t) g)) l.
Definition good_group (l : list T) (g : nat * nat) : Prop :=
  (qsum (map s (of_key g l)) == f g * inject_Z (Z.of_nat (length (of_key g l))) /\ exists v, forall t, In t l -> key t = g -> x t == v) \/
  (forall t, In t l -> key t = g -> x t == f g).
Lemma split_sum (h : T -> Q) g l : qsum (map h l) == qsum (map h (of_key g l)) + qsum (map h (off_key g l)).
Proof.
  unfold of_key, off_key. induction l as [|t l IH]; [reflexivity|]. cbn [map filter]. rewrite qsum_cons, IH. destruct (keq (key t) g); cbn [negb map]; rewrite qsum_cons; ring.
Qed.
Lemma square_nonneg' (q : Q) : 0 <= q * q. Proof. nra. Qed.
Lemma group_better g l : good_group l g ->
  qsum (map (fun t => (f (key t) - s t) * (f (key t) - s t)) (of_key g l)) <= qsum (map (fun t => (x t - s t) * (x t - s t)) (of_key g l)).
Proof.
  intros [[M (v & V)]|V].
  - assert (E : forall m, (forall t, In t m -> In t l /\ key t = g) ->
      qsum (map (fun t => (x t - s t) * (x t - s t)) m) == qsum (map (fun t => (f (key t) - s t) * (f (key t) - s t)) m) + (v - f g) * ((v + f g) * inject_Z (Z.of_nat (length m)) - 2 * qsum (map s m))).
    { induction m as [|t m IH]; intros H; [cbn; ring|]. cbn [map length]. rewrite !qsum_cons, IH by (intros u Hu; apply H; now right). destruct (H t (or_introl eq_refl)) as [H1 H2]. rewrite (V t H1 H2), H2.
      rewrite Nat2Z.inj_succ. unfold Z.succ. rewrite inject_Z_plus. change (inject_Z 1) with 1. ring. }
    rewrite (E (of_key g l)). 2: { intros t Ht. apply filter_In in Ht. destruct Ht as [H1 H2]. now apply keq_true in H2. }
    rewrite M. set (c := inject_Z (Z.of_nat (length (of_key g l)))). assert (C : 0 <= c) by (unfold c; change 0 with (inject_Z 0); rewrite <- Zle_Qle; lia).
    assert (X : (v - f g) * ((v + f g) * c - 2 * (f g * c)) == c * ((v - f g) * (v - f g))) by ring. rewrite X. pose proof (square_nonneg' (v - f g)). assert (0 <= c * ((v - f g) * (v - f g))) by (apply Qmult_le_0_compat; lra). lra.
  - apply Qle_lteq. right. assert (E : forall m, (forall t, In t m -> In t l /\ key t = g) -> qsum (map (fun t => (f (key t) - s t) * (f (key t) - s t)) m) == qsum (map (fun t => (x t - s t) * (x t - s t)) m)).
    { induction m as [|t m IH]; intros H; [reflexivity|]. cbn [map]. rewrite !qsum_cons, IH by (intros u Hu; apply H; now right). destruct (H t (or_introl eq_refl)) as [H1 H2]. rewrite (V t H1 H2), H2. reflexivity. }
    apply E. intros t Ht. apply filter_In in Ht. destruct Ht as [H1 H2]. now apply keq_true in H2.
Qed.
Lemma off_group l g h : good_group l h -> good_group (off_key g l) h.
Proof.
  intros H. assert (I : forall t, In t (off_key g l) -> In t l /\ key t <> g).
  { intros t Ht. apply filter_In in Ht. destruct Ht as [H1 H2]. split; [exact H1|]. intros E. apply (proj2 (keq_true (key t) g)) in E. rewrite E in H2. discriminate. }
  destruct (keq h g) eqn:E.
  - apply keq_true in E. subst h. left. replace (of_key g (off_key g l)) with (@nil T).
    + cbn. split; [ring|]. exists 0. intros t Ht Hk. now destruct (I t Ht).
    + symmetry. unfold of_key, off_key. clear. induction l as [|t l IH]; [reflexivity|]. cbn [filter]. destruct (keq (key t) g) eqn:E; cbn [negb]; [exact IH|]. cbn [filter]. now rewrite E.
  - destruct H as [[M (v & V)]|V]; [left|right; intros t Ht; apply V; now destruct (I t Ht)].
    replace (of_key h (off_key g l)) with (of_key h l).
    + split; [exact M|]. exists v. intros t Ht. apply V. now destruct (I t Ht).
    + unfold of_key, off_key. clear -E. induction l as [|t l IH]; [reflexivity|]. cbn [filter]. destruct (keq (key t) g) eqn:Eg; cbn [negb].
      * destruct (keq (key t) h) eqn:Eh; [|exact IH]. exfalso. apply keq_true in Eg, Eh. apply Bool.not_true_iff_false in E. apply E, keq_true. congruence.
      * cbn [filter]. destruct (keq (key t) h); [now rewrite IH|exact IH].
Qed.
Theorem grouped : forall l, (forall g, good_group l g) ->
  qsum (map (fun t => (f (key t) - s t) * (f (key t) - s t)) l) <= qsum (map (fun t => (x t - s t) * (x t - s t)) l).
Proof.
  assert (H : forall n l, (length l <= n)%nat -> (forall g, good_group l g) ->
    qsum (map (fun t => (f (key t) - s t) * (f (key t) - s t)) l) <= qsum (map (fun t => (x t - s t) * (x t - s t)) l)); [|intros l; now apply (H (length l))].
  induction n as [|n IH]; intros l L G; [destruct l; [cbn; lra|cbn in L; lia]|]. destruct l as [|t l]; [cbn; lra|].
  rewrite (split_sum (fun t => (f (key t) - s t) * (f (key t) - s t)) (key t)), (split_sum (fun t => (x t - s t) * (x t - s t)) (key t)).
  pose proof (group_better (key t) (t :: l) (G (key t))) as B.
  assert (O : (length (off_key (key t) (t :: l)) <= n)%nat).
  { unfold off_key. cbn [filter]. rewrite (proj2 (keq_true _ _) eq_refl). cbn [negb]. clear -L. cbn in L. assert (forall m, (length (filter (fun t0 => negb (keq (key t0) (key t))) m) <= length m)%nat); [|specialize (H l); lia].
    induction m as [|u m IH]; [cbn; lia|]. cbn [filter length]. destruct (negb _); cbn; lia. }
  specialize (IH _ O (fun g => off_group (t :: l) (key t) g (G g))). lra.
Qed.
End Grouped.
