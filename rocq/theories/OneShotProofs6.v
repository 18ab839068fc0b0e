From Coq Require Import List Arith ZArith QArith Qabs Bool Lia Lqa.
From Verif Require Import Lib LoaderProofs QuantModel QuantSpec QuantProofs ConfRegModel ConfRegProofs ConfClassModel ConfClassProofs ConfClassProofs2 ConfClassSpec ConfClassProofs3 MultiModel MultiSpec MultiProofs MultiProofs2 MultiProofs3 MultiProofs4 MultiProofs5 OneShotModel OneShotSpec OneShotProofs OneShotProofs2 OneShotProofs3 OneShotProofs4 OneShotProofs5.
Import ListNotations.
Open Scope Q_scope.

Lemma sum_where_const q : forall bs ys, Forall2 (fun y b => b = true -> y == q) ys bs -> sum_where bs ys == q * n_where bs.
Proof.
  intros bs ys F. induction F as [|y b ys bs E F IH]; [cbn; change (n_where []) with 0; ring|]. cbn [sum_where]. rewrite n_where_cons, IH. destruct b; cbn [of_bool]; [rewrite (E eq_refl)|]; ring.
Qed.
Lemma sum_where_filter {X S} (P : X -> bool) (h : S -> Q) : forall (xs : list X) (ss : list S), length xs = length ss ->
  sum_where (map P xs) (map h ss) == qsum (map (fun t => h (snd t)) (filter (fun t => P (fst t)) (combine xs ss))).
Proof.
  induction xs as [|x xs IH]; intros [|s ss] L; try discriminate; [reflexivity|]. cbn [map combine filter sum_where fst]. rewrite IH by (cbn in L; lia). destruct (P x); cbn [map snd]; rewrite ?qsum_cons; ring.
Qed.
Lemma n_where_filter {X S} (P : X -> bool) : forall (xs : list X) (ss : list S), length xs = length ss ->
  n_where (map P xs) == inject_Z (Z.of_nat (length (filter (fun t => P (fst t)) (combine xs ss)))).
Proof.
  induction xs as [|x xs IH]; intros [|s ss] L; try discriminate; [reflexivity|]. cbn [map combine filter fst]. rewrite n_where_cons, (IH ss) by (cbn in L; lia). destruct (P x); cbn [of_bool length]; [|ring].
  rewrite Nat2Z.inj_succ. unfold Z.succ. rewrite inject_Z_plus. change (inject_Z 1) with 1. ring.
Qed.
Lemma qsum_map_ext' {T} (g h : T -> Q) l : (forall t, In t l -> g t == h t) -> qsum (map g l) == qsum (map h l).
Proof. induction l as [|t l IH]; intros H; [reflexivity|]. cbn [map]. rewrite !qsum_cons, IH by (intros u Hu; apply H; now right). now rewrite (H t (or_introl eq_refl)). Qed.
Section Points.
Context {X : Type} (kx : X -> nat * nat) (vx : X -> Q) (n w : nat) (bound : Q) (f : nat * nat -> Q) (pts : list X) (ss : list (list Q)).
Hypothesis Len : length pts = length ss.
Hypothesis Keys : forall p, In p pts -> (fst (kx p) < n)%nat /\ (snd (kx p) < w)%nat /\ vx p == centre n (fst (kx p)).
Hypothesis Means : forall j c, (j < n)%nat -> (c < w)%nat -> let bs := map (fun p => keq (kx p) (j, c)) pts in
  (bound < n_where bs -> mean_is bs (map (fun s => nth c s 0) ss) (f (j, c))) /\ (n_where bs <= bound -> f (j, c) == centre n j).
Lemma points_better :
  qsum (map (fun t => (f (kx (fst t)) - nth (snd (kx (fst t))) (snd t) 0) * (f (kx (fst t)) - nth (snd (kx (fst t))) (snd t) 0)) (combine pts ss)) <=
  qsum (map (fun t => (vx (fst t) - nth (snd (kx (fst t))) (snd t) 0) * (vx (fst t) - nth (snd (kx (fst t))) (snd t) 0)) (combine pts ss)).
Proof.
  apply (grouped (fun t => kx (fst t)) (fun t => vx (fst t)) (fun t => nth (snd (kx (fst t))) (snd t) 0) f). intros [j c].
  assert (In1 : forall t, In t (combine pts ss) -> In (fst t) pts) by (intros [u v] H; eapply in_combine_l; exact H).
  destruct (lt_dec j n) as [J|J]; [|right; intros t Ht E; destruct (Keys _ (In1 t Ht)) as [A _]; rewrite E in A; cbn in A; lia].
  destruct (lt_dec c w) as [C|C]; [|right; intros t Ht E; destruct (Keys _ (In1 t Ht)) as (_ & A & _); rewrite E in A; cbn in A; lia].
  destruct (Means j c J C) as [M R]. cbv zeta in M, R. set (bs := map (fun p => keq (kx p) (j, c)) pts) in *.
  destruct (Qlt_le_dec bound (n_where bs)) as [B|B].
  - left. split.
    + specialize (M B). unfold mean_is in M. unfold bs in M. rewrite (sum_where_filter (fun p => keq (kx p) (j, c)) (fun s => nth c s 0) pts ss Len), (n_where_filter _ pts ss Len) in M. rewrite M.
      unfold of_key. apply qsum_map_ext'. intros t Ht. apply filter_In in Ht. destruct Ht as [_ E]. apply keq_true in E. rewrite E. reflexivity.
    + exists (centre n j). intros t Ht E. destruct (Keys _ (In1 t Ht)) as (_ & _ & A). rewrite A, E. reflexivity.
  - right. intros t Ht E. destruct (Keys _ (In1 t Ht)) as (_ & _ & A). rewrite A, E. cbn [fst]. symmetry. exact (R B).
Qed.
End Points.

(** the calibrated values of grid data *)
Lemma sq_pairs (F : Q -> Q) : forall xs (ss : list (list Q)), length xs = length ss ->
  sq_error (map F xs) (map (fun s => nth 0 s 0) ss) == qsum (map (fun t => (F (fst t) - nth 0 (snd t) 0) * (F (fst t) - nth 0 (snd t) 0)) (combine xs ss)).
Proof. induction xs as [|x xs IH]; intros [|s ss] L; try discriminate; [reflexivity|]. cbn [map sq_error combine]. rewrite qsum_cons. cbn [fst snd]. rewrite IH by (cbn in L; lia). reflexivity. Qed.
Lemma rows_pairs (y : list Q -> Q) w : forall rows ss, length rows = length ss -> rectangular w rows -> rectangular w ss -> (0 < w)%nat ->
  rows_sq_error (map (fun row => set_nth (argmax row) (y row) row) rows) ss == rows_sq_error rows ss
   - qsum (map (fun t => (top_entry (fst t) - nth (argmax (fst t)) (snd t) 0) * (top_entry (fst t) - nth (argmax (fst t)) (snd t) 0)) (combine rows ss))
   + qsum (map (fun t => (y (fst t) - nth (argmax (fst t)) (snd t) 0) * (y (fst t) - nth (argmax (fst t)) (snd t) 0)) (combine rows ss)).
Proof.
  induction rows as [|row rows IH]; intros [|s ss] L R1 R2 W; try discriminate; [cbn; ring|]. inversion_clear R1. inversion_clear R2. cbn [map rows_sq_error combine]. rewrite !qsum_cons. cbn [fst snd].
  rewrite (IH ss) by (try assumption; cbn in L; lia).
  assert (NE : row <> []) by (intros ->; cbn in H; lia). destruct (argmax_spec row NE) as (A & _ & _). rewrite (sq_set_nth (argmax row) (y row) row s) by lia. unfold top_entry. ring.
Qed.
Lemma scores_column_is k l ss c : scores_are k l ss -> (c < width k)%nat -> Forall2 (score_is k c) l (map (fun s => nth c s 0) ss).
Proof. intros F C. induction F as [|t s l ss [_ H] F IH]; cbn [map]; constructor; auto. Qed.
Lemma grid_within n x j : (j < n)%nat -> on_grid n x -> (within n x (centre n j) <-> x == centre n j).
Proof.
  intros J (i & I & E). split.
  - intros W. apply (within_proper n x (centre n i) _ (centre n j) E) in W; [|reflexivity]. apply within_grid in W; try assumption. subst i. exact E.
  - intros X. unfold within. rewrite X. assert (Z : centre n j - centre n j == 0) by ring. rewrite Z. change (Qabs 0) with 0. lra.
Qed.
Lemma exactly_mask n c j a bs : (j < n)%nat -> all_entries (on_grid n) a -> exactly c (centre n j) a bs -> mask_is n c (centre n j) a bs.
Proof.
  intros J G. destruct a as [l|rows]; cbn [exactly mask_is all_entries] in *; intros F; revert G; induction F as [|x b l bs E F IH]; intros G; constructor; inversion_clear G as [|? ? Gx Gr]; auto.
  - now rewrite grid_within.
  - rewrite E. split; intros [T H]; (split; [exact T|]); destruct T as (Tc & _); rewrite Forall_forall in Gx; specialize (Gx (nth c x 0) (nth_In _ _ Tc)); now apply (grid_within n _ j J Gx).
Qed.
Lemma index_is n x j : (j < n)%nat -> on_grid n x -> (one_shot_index n x = j <-> x == centre n j).
Proof.
  intros J G. destruct (index_grid n x ltac:(lia) G) as [I E]. split; [intros <-; exact E|]. intros X. apply (centre_inj n); [exact I|exact J|]. now rewrite <- E, <- X.
Qed.
Theorem grid : forall k o t l values a test n p ss, (0 < n)%nat -> acceptable k t values test p -> values = Some a -> t_array t = Vec l -> length l = points a -> (0 < length l)%nat ->
  full_rows a -> of_width k a -> all_entries (on_grid n) a -> scores_are k l ss ->
  exists out, apply_patches k (snd (calibrate k o t values test n p)) a = Ok out /\
  (forall j c bs, (j < n)%nat -> (c < width k)%nat -> exactly c (centre n j) a bs ->
     (threshold k n p * inject_Z (Z.of_nat (length l)) < n_where bs -> sum_where bs (dimension c out) == sum_where bs (map (fun s => nth c s 0) ss)) /\
     (n_where bs <= threshold k n p * inject_Z (Z.of_nat (length l)) -> forall i, nth i bs false = true -> nth i (dimension c out) 0 == centre n j)) /\
  squared_error out ss <= squared_error a ss.
Proof.
  intros k o t l values a test n p ss N Acc -> El Lp L0 R Wd G Sc.
  assert (K : compatible t a) by (left; rewrite El; exact Lp).
  assert (Acc' := Acc). destruct Acc as (GT & (a' & Ea' & Ax & _) & _). injection Ea' as <-. assert (W := good_width k t GT).
  destruct (patches_meaning k o t l (Some a) a test n p N Acc' eq_refl El K L0 ltac:(lia) R) as (ps & Ep & Ln & H).
  destruct (proj2 (proj2 (checks k o t (Some a) test n p N)) a Acc' eq_refl K) as (_ & _ & En & _).
  assert (F : Forall (fun r => length r = width k) ps). { rewrite Forall_forall. intros r Hr. apply (In_nth _ _ []) in Hr. destruct Hr as (j & Hj & <-). rewrite Ln in Hj. apply (H j Hj). }
  assert (Lss : length ss = length l) by (clear -Sc; induction Sc; cbn; congruence).
  set (o' := snd (calibrate k o t (Some a) test n p)) in *. set (bound := threshold k n p * inject_Z (Z.of_nat (length l))).
  assert (M : forall j c bs, (j < n)%nat -> (c < width k)%nat -> exactly c (centre n j) a bs ->
    (bound < n_where bs -> mean_is bs (map (fun s => nth c s 0) ss) (lookup ps j c)) /\ (n_where bs <= bound -> lookup ps j c == centre n j)).
  { intros j c bs J C X. apply (exactly_mask n c j a bs J G) in X. rewrite (lookup_in k ps n j c Ln F J). replace (Nat.min c (width k - 1)) with c by lia.
    assert (Lb : length bs = length l) by (rewrite (mask_unique n c _ a bs N R X), get_b_length; auto).
    apply (proj2 (H j J) c bs (map (fun s => nth c s 0) ss) bs (map (fun s => nth c s 0) ss) (length l) C X (scores_column_is k l ss c Sc C)); [now left|split; [exact Lb|now left]|split; [now rewrite map_length|now left]]. }
  clear H. unfold apply_patches. rewrite Ep, En. destruct a as [xs|rows]; cbn [axes points all_entries] in *.
  - exists (Vec (patch_vec n ps xs)). split; [destruct k; [reflexivity|reflexivity|discriminate]|]. rewrite grid_vec by assumption. rewrite Forall_forall in G.
    assert (Wk : width k = 1%nat) by (destruct k; [reflexivity|reflexivity|discriminate]).
    split.
    + intros j c bs J C X. assert (c = O) by lia. subst c. destruct (M j O bs J C X) as [M1 M2]. fold bound. cbn [exactly dimension] in X |- *.
      assert (Y : Forall2 (fun y b => b = true -> y == lookup ps j 0) (map (fun x => lookup ps (one_shot_index n x) 0) xs) bs).
      { clear -X G J. induction X as [|x b xs bs E X IH]; cbn [map]; constructor; [|apply IH; intros; apply G; now right]. intros B. apply E in B. rewrite (proj2 (index_is n x j J (G x (or_introl eq_refl))) B). reflexivity. }
      split; intros B.
      * rewrite (sum_where_const _ _ _ Y). exact (M1 B).
      * intros i Hi. rewrite <- (M2 B). clear -Y Hi. revert i Hi. induction Y as [|y b ys bs E Y IH]; intros [|i] Hi; cbn in Hi |- *; try discriminate; auto.
    + cbn [squared_error]. rewrite (sq_pairs (fun x => lookup ps (one_shot_index n x) 0)) by lia. rewrite <- (map_id xs) at 2. rewrite (sq_pairs (fun x => x)) by lia.
      apply (points_better (fun x => (one_shot_index n x, 0%nat)) (fun x => x) n 1 bound (fun g => lookup ps (fst g) (snd g))); [lia| |].
      * intros x Hx. cbn [fst snd]. destruct (index_grid n x N (G x Hx)). repeat split; [assumption|lia|assumption].
      * intros j c J C bs. assert (c = O) by lia. subst c. apply (M j 0%nat); [exact J|exact W|]. cbn [exactly]. unfold bs. clear -G J. induction xs as [|x xs IH]; cbn [map]; constructor; [|apply IH; intros; apply G; now right].
        rewrite keq_true. rewrite <- (index_is n x j J (G x (or_introl eq_refl))). split; [now intros [= ->]|now intros ->].
  - exists (Mat (patch_mat n ps rows)). split; [destruct k; [discriminate|discriminate|reflexivity]|]. rewrite grid_mat by assumption. cbn in R, Wd.
    assert (Gt : forall row, In row rows -> on_grid n (top_entry row) /\ (argmax row < width k)%nat /\ row <> []).
    { intros row Hr. rewrite Forall_forall in R. assert (NE := R row Hr). destruct (argmax_spec row NE) as (A & _ & _). rewrite Forall_forall in G. specialize (G row Hr). rewrite Forall_forall in G.
      unfold rectangular in Wd. rewrite Forall_forall in Wd. rewrite <- (Wd row Hr). split; [apply G; now apply nth_In|]. now split. }
    assert (Ex : forall j c, (j < n)%nat -> exactly c (centre n j) (Mat rows) (map (fun row => keq (one_shot_index n (top_entry row), argmax row) (j, c)) rows)).
    { intros j c J. cbn [exactly]. clear -Gt J. induction rows as [|row rows IH]; cbn [map]; constructor; [|apply IH; intros; apply Gt; now right].
      destruct (Gt row (or_introl eq_refl)) as (A & B & NE). rewrite keq_true. assert (T := argmax_top row c ltac:(destruct row; [congruence|cbn; lia])). rewrite <- T.
      assert (I := index_is n (top_entry row) j J A). unfold top_entry in *. split.
      - intros [= E1 E2]. split; [exact E2|]. rewrite <- E2. now apply I.
      - intros [E1 E2]. rewrite E1 in *. f_equal. now apply I. }
    split.
    + intros j c bs J C X. destruct (M j c bs J C X) as [M1 M2]. fold bound. cbn [dimension]. rewrite map_map.
      assert (Y : Forall2 (fun y b => b = true -> y == lookup ps j c) (map (fun row => nth c (set_nth (argmax row) (lookup ps (one_shot_index n (top_entry row)) (argmax row)) row) 0) rows) bs).
      { cbn [exactly] in X. clear -X Gt J. induction X as [|row b rows bs E X IH]; cbn [map]; constructor; [|apply IH; intros; apply Gt; now right]. intros B. apply E in B. destruct B as [T B].
        destruct (Gt row (or_introl eq_refl)) as (A & _ & NE). assert (T' := proj2 (argmax_top row c ltac:(destruct row; [congruence|cbn; lia])) T).
        rewrite (proj2 (index_is n (top_entry row) j J A)) by (unfold top_entry; rewrite T'; exact B). rewrite T'. destruct T as [Tc _]. rewrite set_nth_same by exact Tc. reflexivity. }
      split; intros B.
      * rewrite (sum_where_const _ _ _ Y). exact (M1 B).
      * intros i Hi. rewrite <- (M2 B). clear -Y Hi. revert i Hi. induction Y as [|y b ys bs E Y IH]; intros [|i] Hi; cbn in Hi |- *; try discriminate; auto.
    + cbn [squared_error].
      assert (Rs : rectangular (width k) ss). { unfold rectangular. clear -Sc. induction Sc as [|t0 s l ss [E _] F IH]; constructor; assumption. }
      rewrite (rows_pairs (fun row => lookup ps (one_shot_index n (top_entry row)) (argmax row)) (width k) rows ss) by (try assumption; lia).
      assert (B := points_better (fun row => (one_shot_index n (top_entry row), argmax row)) top_entry n (width k) bound (fun g => lookup ps (fst g) (snd g)) rows ss ltac:(lia)).
      cbn [fst snd] in B. match type of B with ?P -> ?Q -> ?A <= ?C => assert (B' : A <= C) end; [|lra].
      apply B.
      * intros row Hr. destruct (Gt row Hr) as (A & C & _). destruct (index_grid n _ N A). now repeat split.
      * intros j c J C. apply (M j c); [exact J|exact C|]. now apply Ex.
Qed.
