From Coq Require Import List Arith ZArith QArith Qabs Bool Lia Lqa Sorted.
From Verif Require Import Lib QuantModel QuantProofs ConfRegModel ConfRegProofs ConfClassModel ConfClassSpec ConfClassProofs MultiModel MultiSpec MultiSpec2 MultiSpec3 MultiProofs MultiProofs2 MultiProofs3 OneShotModel OneShotSpec OneShotProofs OneShotProofs2 IterModel IterSpec IterProofs IterProofs2 IterProofs3 IterProofs5 IterProofs6 IterProofs7 IterProofs8 MvpSetModel MvpSetSpec.
Import ListNotations.
Open Scope Q_scope.

(** ---- the sets ---- *)
Lemma reshape_flat {A B} (g : A -> list B) s idx : (forall i, In i idx -> length (g i) = s) -> reshape (length idx) s (flat_map g idx) = map g idx.
Proof.
  induction idx as [|i idx IH]; intros H; [reflexivity|]. assert (L := H i (or_introl eq_refl)). specialize (IH (fun j h => H j (or_intror h))). unfold reshape in *. cbn [length seq map flat_map]. f_equal.
  - cbn [Nat.mul skipn]. rewrite firstn_app, L, Nat.sub_diag, <- L, firstn_all. cbn. apply app_nil_r.
  - rewrite <- IH, <- seq_shift, map_map. apply map_ext. intros k. f_equal. rewrite skipn_app, L. replace (S k * s - s)%nat with (k * s)%nat by (cbn; lia). rewrite skipn_all2 by (cbn; lia). reflexivity.
Qed.
Lemma sets_rows bs : sets_of bs = map (fun r => Some (true_columns r)) bs.
Proof.
  unfold sets_of. set (sizes := map (fun row => length (filter (fun b => b) row)) bs). set (g := fun i => true_columns (nth i bs [])).
  assert (Hs : forall i, (i < length bs)%nat -> nth i sizes O = length (g i)).
  { intros i Hi. unfold g, sizes. rewrite true_columns_length. change O with ((fun row => length (filter (fun b : bool => b) row)) []). now rewrite map_nth. }
  assert (F : forall L acc, length acc = length bs ->
    let r := fold_left (fun sets s => let idx := filter (fun i => (nth i sizes O =? s)%nat) (seq 0 (length bs)) in assign idx (map Some (reshape (length idx) s (flat_map g idx))) sets) L acc in
    length r = length bs /\ forall i, (i < length bs)%nat -> nth i r None = if existsb (Nat.eqb (length (g i))) L then Some (g i) else nth i acc None).
  { induction L as [|s L IH]; intros acc La; [split; [exact La|reflexivity]|]. cbn [fold_left]. set (idx := filter (fun i => (nth i sizes O =? s)%nat) (seq 0 (length bs))).
    assert (R : reshape (length idx) s (flat_map g idx) = map g idx). { apply reshape_flat. intros i Hi. apply filter_In in Hi. destruct Hi as [Hi E]. apply in_seq in Hi. rewrite <- Hs by lia. now apply Nat.eqb_eq. }
    cbv zeta. rewrite R, map_map. set (acc' := assign idx (map (fun x => Some (g x)) idx) acc). assert (La' : length acc' = length bs) by (unfold acc'; now rewrite assign_length).
    destruct (IH acc' La') as [I1 I2]. split; [exact I1|]. intros i Hi. etransitivity; [exact (I2 i Hi)|]. cbn [existsb]. unfold acc'. rewrite (assign_map (fun x => Some (g x))) by (now rewrite La).
    assert (X : existsb (Nat.eqb i) idx = (length (g i) =? s)%nat).
    { apply eq_true_iff_eq. rewrite existsb_exists. split.
      - intros (k & Hk & E). apply Nat.eqb_eq in E. subst k. apply filter_In in Hk. rewrite <- Hs by exact Hi. apply Hk.
      - intros E. exists i. split; [|apply Nat.eqb_refl]. apply filter_In. split; [apply in_seq; lia|]. now rewrite Hs. }
    rewrite X. destruct (length (g i) =? s)%nat; cbn [orb]; [|reflexivity]. now destruct (existsb _ L). }
  destruct (F (unique_nat sizes) (repeat None (length bs)) (repeat_length _ _)) as [L1 L2]. apply (nth_ext _ _ None None); [rewrite map_length; exact L1|]. intros i Hi0. assert (Hi : (i < length bs)%nat) by (rewrite <- L1; exact Hi0). clear Hi0. etransitivity; [exact (L2 i Hi)|].
  assert (E : existsb (Nat.eqb (length (g i))) (unique_nat sizes) = true).
  { apply existsb_exists. exists (length (g i)). split; [|apply Nat.eqb_refl]. apply unique_nat_in. rewrite <- Hs by exact Hi. apply nth_In. unfold sizes. now rewrite map_length. }
  rewrite E. rewrite (nth_indep (map _ bs) None (Some (true_columns []))) by (now rewrite map_length). rewrite (map_nth (fun r => Some (true_columns r))). reflexivity.
Qed.
Lemma bools_length rows ths : length rows = length ths -> length (bools rows ths) = length rows.
Proof. intros L. unfold bools. rewrite map_length, combine_length. lia. Qed.
Lemma bools_nth rows : forall ths i row th, nth_error rows i = Some row -> nth_error ths i = Some th -> nth_error (bools rows ths) i = Some (map (fun s => Qle_bool s th) row).
Proof.
  induction rows as [|r rows IH]; intros [|t ths] [|i] row th Hr Ht; try discriminate.
  - injection Hr as <-. injection Ht as <-. reflexivity.
  - exact (IH ths i row th Hr Ht).
Qed.
Theorem sets_meaning cs ths :
  (axes cs <> 2%nat \/ axes ths <> 1%nat \/ points cs <> points ths -> conformal_set cs ths = Err ValueError) /\
  forall rows l, cs = Mat rows -> ths = Vec l -> length rows = length l -> exists sets, conformal_set cs ths = Ok sets /\ length sets = length l /\
    forall i row th, nth_error rows i = Some row -> nth_error l i = Some th -> exists s, nth_error sets i = Some (Some s) /\ ascending_labels s /\ forall c, In c s <-> exists x, nth_error row c = Some x /\ x <= th.
Proof.
  split.
  - intros H. destruct cs as [l|rows], ths as [l'|rows']; cbn in *; try reflexivity. destruct (Nat.eqb_spec (length rows) (length l')) as [E|E]; [|reflexivity]. destruct H as [H|[H|H]]; now contradiction H.
  - intros rows l -> -> L. cbn [conformal_set]. rewrite (proj2 (Nat.eqb_eq _ _) L). eexists. split; [reflexivity|]. rewrite sets_rows. split; [rewrite map_length, bools_length by exact L; exact L|].
    intros i row th Hr Ht. exists (true_columns (map (fun s => Qle_bool s th) row)). split; [rewrite nth_error_map, (bools_nth rows l i row th Hr Ht); reflexivity|]. split; [apply true_columns_sorted|].
    intros c. rewrite true_columns_in, nth_error_map. destruct (nth_error row c) as [x|]; cbn [option_map].
    + split; [intros [= E]; exists x; split; [reflexivity|now apply Qleb_true]|]. intros (y & [= <-] & E). f_equal. now apply Qleb_true.
    + split; [discriminate|]. intros (y & X & _). discriminate X.
Qed.
Lemma look_up s y : set_is_in y s = true <-> In y s.
Proof. unfold set_is_in. rewrite existsb_exists. split; [intros (z & H & E); apply Nat.eqb_eq in E; now subst|]. intros H. exists y. split; [exact H|apply Nat.eqb_refl]. Qed.
Lemma mapM_all {A B} (h : A -> result B) (k : A -> B) l : (forall x, In x l -> h x = Ok (k x)) -> mapM h l = Ok (map k l).
Proof. induction l as [|x l IH]; intros H; [reflexivity|]. cbn [mapM map]. rewrite (H x (or_introl eq_refl)). cbn [bind]. rewrite IH by (intros; apply H; now right). reflexivity. Qed.
(** a label is in the set of its point exactly when its score is at most the threshold *)
Theorem in_sets rows l ys sets ss : conformal_set (Mat rows) (Vec l) = Ok sets -> length ys = length l -> Forall2 (fun ry s => nth_error (fst ry) (snd ry) = Some s) (combine rows ys) ss ->
  is_in ys sets = Ok (zip_with (fun s th => Qle_bool s th) ss l).
Proof.
  cbn [conformal_set]. destruct (Nat.eqb_spec (length rows) (length l)) as [L|L]; [|discriminate]. intros [= <-] Ly F. unfold is_in. rewrite sets_rows.
  assert (G : forall rows l ys ss, length rows = length l -> length ys = length l -> Forall2 (fun ry s => nth_error (fst ry) (snd ry) = Some s) (combine rows ys) ss ->
     mapM (fun p => match snd p with Some s => Ok (set_is_in (fst p) s) | None => Err TypeError end) (combine ys (map (fun r => Some (true_columns r)) (bools rows l))) = Ok (zip_with (fun s th => Qle_bool s th) ss l)).
  { clear. induction rows as [|r rows IH]; intros [|th l] [|y ys] ss L Ly F; try discriminate; inversion F as [|q s qs ss' E F']; subst; [reflexivity|]. unfold bools in *. cbn [combine map mapM fst snd] in *.
    rewrite (IH l ys ss' (eq_add_S _ _ L) (eq_add_S _ _ Ly) F'). cbn [bind]. unfold zip_with. cbn [combine map fst snd]. f_equal. f_equal.
    apply eq_true_iff_eq. rewrite look_up, true_columns_in, nth_error_map, E. cbn. split; [now intros [= H]|intros H; now f_equal]. }
  now apply G.
Qed.

(** ---- from buckets to the group ---- *)
Lemma cauchy (l : list nat) (N B : nat -> Q) : (forall j, In j l -> 0 <= N j /\ (N j == 0 -> B j == 0)) ->
  let tot F := total_of (map F l) in 0 <= tot N /\ 0 <= tot (fun j => B j * B j / N j) /\ tot B * tot B <= tot N * tot (fun j => B j * B j / N j).
Proof.
  induction l as [|j l IH]; intros H tot; [subst tot; cbn; lra|]. destruct (IH (fun k h => H k (or_intror h))) as (I1 & I2 & I3). destruct (H j (or_introl eq_refl)) as [H1 H2]. subst tot. cbn [map total_of fold_right] in *.
  fold (total_of (map N l)) (total_of (map B l)) (total_of (map (fun j => B j * B j / N j) l)). set (n := N j) in *. set (b := B j) in *. set (M := total_of (map N l)) in *. set (C := total_of (map B l)) in *. set (S := total_of (map (fun j => B j * B j / N j) l)) in *.
  destruct (Qlt_le_dec 0 n) as [P|P].
  - set (q := b / n). assert (Eb : b == q * n) by (unfold q; field; lra). assert (Es : b * b / n == q * q * n) by (unfold q; field; lra).
    assert (Qq : 0 <= q * q) by (destruct (Qlt_le_dec q 0); [setoid_replace (q * q) with ((- q) * (- q)) by ring|]; apply Qmult_le_0_compat; lra).
    split; [lra|]. split; [rewrite Es; assert (0 <= q * q * n) by (apply Qmult_le_0_compat; lra); lra|].
    rewrite Es, Eb. assert (K : 2 * q * C <= S + M * (q * q)).
    { destruct (Qlt_le_dec 0 M) as [PM|PM].
      - assert (K2 : 0 <= M * (S + M * (q * q) - 2 * q * C)).
        { assert (0 <= (C - M * q) * (C - M * q)) by (destruct (Qlt_le_dec (C - M * q) 0); [setoid_replace ((C - M * q) * (C - M * q)) with ((- (C - M * q)) * (- (C - M * q))) by ring|]; apply Qmult_le_0_compat; lra).
          setoid_replace (M * (S + M * (q * q) - 2 * q * C)) with (M * S - C * C + (C - M * q) * (C - M * q)) by ring. lra. }
        destruct (Qlt_le_dec (S + M * (q * q) - 2 * q * C) 0) as [D|D]; [|lra]. exfalso. assert (M * (S + M * (q * q) - 2 * q * C) < M * 0) by (apply Qmult_lt_l; assumption). lra.
      - assert (ZM : M == 0) by lra. assert (C * C <= 0) by (rewrite ZM in I3; lra). assert (ZC : C == 0).
        { destruct (Qlt_le_dec 0 C) as [D|D]; [assert (0 < C * C) by (apply Qmult_lt_0_compat; assumption); lra|]. destruct (Qlt_le_dec C 0) as [D'|D']; [|lra]. assert (0 < (- C) * (- C)) by (apply Qmult_lt_0_compat; lra). lra. }
        rewrite ZC, ZM. lra. }
    assert (K2 : n * (2 * q * C) <= n * (S + M * (q * q))) by (apply Qmult_le_l; assumption). 
    setoid_replace ((q * n + C) * (q * n + C)) with (q * q * n * n + n * (2 * q * C) + C * C) by ring. setoid_replace ((n + M) * (q * q * n + S)) with (q * q * n * n + n * (S + M * (q * q)) + M * S) by ring. lra.
  - assert (Zn : n == 0) by lra. assert (Zb : b == 0) by (now apply H2). assert (Es : b * b / n == 0) by (rewrite Zb; unfold Qdiv; ring). rewrite Es, Zn, Zb. split; [lra|]. split; [lra|]. setoid_replace ((0 + C) * (0 + C)) with (C * C) by ring. setoid_replace ((0 + M) * (0 + S)) with (M * S) by ring. exact I3.
Qed.
Lemma total_plus (F G : nat -> Q) l : total_of (map (fun j => F j + G j) l) == total_of (map F l) + total_of (map G l).
Proof. induction l as [|j l IH]; [reflexivity|]. cbn [map total_of fold_right]. unfold total_of in IH. rewrite IH. ring. Qed.
Lemma total_same (F G : nat -> Q) l : (forall j, In j l -> F j == G j) -> total_of (map F l) == total_of (map G l).
Proof. induction l as [|j l IH]; intros H; [reflexivity|]. cbn [map total_of fold_right]. unfold total_of in IH. rewrite IH by (intros; apply H; now right). rewrite (H j (or_introl eq_refl)). reflexivity. Qed.
Lemma total_zero l : total_of (map (fun _ : nat => 0) l) == 0.
Proof. induction l as [|j l IH]; [reflexivity|]. cbn [map total_of fold_right]. unfold total_of in IH. rewrite IH. reflexivity. Qed.
Lemma total_one (P : nat -> bool) w l j : NoDup l -> In j l -> P j = true -> (forall k, In k l -> P k = true -> k = j) -> total_of (map (fun k => if P k then w else 0) l) == w.
Proof.
  induction l as [|k l IH]; intros ND I Hj U; [destruct I|]. inversion ND as [|? ? NI ND']; subst. cbn [map total_of fold_right]. unfold total_of in IH. destruct I as [->|I].
  - rewrite Hj. assert (Z : fold_right Qplus 0 (map (fun k => if P k then w else 0) l) == 0).
    { assert (X := total_same (fun k => if P k then w else 0) (fun _ => 0) l). unfold total_of in X. rewrite X; [apply total_zero|]. intros k Hk. destruct (P k) eqn:E; [|reflexivity]. exfalso. apply NI. rewrite <- (U k (or_intror Hk) E). exact Hk. }
    rewrite Z. ring.
  - rewrite (IH ND' I Hj (fun k h => U k (or_intror h))). destruct (P k) eqn:E; [|ring]. exfalso. apply NI. rewrite (U k (or_introl eq_refl) E). exact I.
Qed.
Lemma within_one n x j k : (j < n)%nat -> (k < n)%nat -> within n x (centre n j) -> within n x (centre n k) -> j = k.
Proof.
  intros Hj Hk A B. destruct (Nat.eq_dec j k) as [E|NE]; [exact E|]. exfalso. assert (N2 : (2 <= n)%nat) by lia. unfold within in A, B.
  assert (P : 0 < inject_Z (Z.of_nat n)) by (unfold Qlt; cbn; lia). assert (P1 : 0 < inject_Z (Z.of_nat (n - 1))) by (unfold Qlt; cbn; lia). set (d := inject_Z (Z.of_nat n)) in *.
  assert (T : Qabs (centre n j - centre n k) * (2 * d) < 2).
  { assert (T1 : Qabs (centre n j - centre n k) <= Qabs (x - centre n j) + Qabs (x - centre n k)). { rewrite (Qabs_Qminus x (centre n j)). setoid_replace (centre n j - centre n k) with ((centre n j - x) + (x - centre n k)) by ring. apply Qabs_triangle. }
    assert (Qabs (centre n j - centre n k) * (2 * d) <= (Qabs (x - centre n j) + Qabs (x - centre n k)) * (2 * d)) by (apply Qmult_le_compat_r; lra). lra. }
  assert (E : centre n j - centre n k == inject_Z (Z.of_nat j - Z.of_nat k) / inject_Z (Z.of_nat (n - 1))). { unfold centre. unfold Zminus. rewrite inject_Z_plus, inject_Z_opp. field. lra. }
  assert (D : 1 / inject_Z (Z.of_nat (n - 1)) <= Qabs (centre n j - centre n k)).
  { rewrite E. unfold Qdiv. rewrite Qabs_Qmult. rewrite (Qabs_pos (/ _)) by (apply Qinv_le_0_compat; lra). apply Qmult_le_compat_r; [|apply Qinv_le_0_compat; lra]. unfold Qabs, inject_Z, Qle. cbn. lia. }
  assert (D2 : 1 / inject_Z (Z.of_nat (n - 1)) * (2 * d) <= Qabs (centre n j - centre n k) * (2 * d)) by (apply Qmult_le_compat_r; lra).
  assert (D3 : 2 < 1 / inject_Z (Z.of_nat (n - 1)) * (2 * d)). { setoid_replace (1 / inject_Z (Z.of_nat (n - 1)) * (2 * d)) with ((2 * d) / inject_Z (Z.of_nat (n - 1))) by (field; lra). apply Qlt_shift_div_l; [exact P1|]. assert (inject_Z (Z.of_nat (n - 1)) < d) by (unfold d; rewrite <- Zlt_Qlt; lia). lra. }
  lra.
Qed.
Definition in_bucket (n : nat) (x : Q) (j : nat) : bool := Qlt_bool (Qabs (x - centre n j) * (2 * inject_Z (Z.of_nat n))) 1.
Definition part_of (n : nat) (who : list bool) (xs : list Q) (j : nat) : list bool := map (fun p => fst p && in_bucket n (snd p) j)%bool (combine who xs).
Lemma split_sum n who : forall xs ws, length who = length xs -> length who = length ws -> bucketed n who xs -> total_of (map (fun j => sum_where (part_of n who xs j) ws) (seq 0 n)) == sum_where who ws.
Proof.
  induction who as [|b who IH]; intros [|x xs] [|w ws] Lx Lw HB; try discriminate; [apply total_zero|]. unfold part_of in *. cbn [combine map sum_where fst snd].
  rewrite total_plus, (IH xs ws (eq_add_S _ _ Lx) (eq_add_S _ _ Lw) (fun i x' Hi Hx => HB (S i) x' Hi Hx)). apply Qplus_comp; [|reflexivity].
  destruct b; cbn [andb]; [|apply total_zero]. destruct (HB O x eq_refl eq_refl) as (j & Hj & W). apply (total_one (in_bucket n x) w (seq 0 n) j); [apply seq_NoDup|apply in_seq; lia|now apply Qltb_true|].
  intros k Hk E. apply in_seq in Hk. apply (within_one n x k j); [lia|exact Hj|now apply Qltb_true|exact W].
Qed.
Lemma n_where_sum who : forall k, (length who <= k)%nat -> n_where who == sum_where who (repeat 1 k).
Proof.
  induction who as [|b who IH]; intros k L; [reflexivity|]. destruct k as [|k]; [cbn in L; lia|]. cbn [repeat sum_where]. rewrite <- (IH k) by (cbn in L; lia). unfold n_where. cbn [filter]. destruct b; cbn [length]; [|ring].
  rewrite Nat2Z.inj_succ. unfold Z.succ. rewrite inject_Z_plus. ring.
Qed.
Definition weights (f : family) (c : Q) (ss xs : list Q) : list Q :=
  map (fun p => match f with Mvp => c - (if Qlt_le_dec (snd p) (fst p) then 0 else 1) | _ => fst p - snd p end) (combine ss xs).
Lemma bias_sum f c who : forall ss xs, length who = length ss -> length who = length xs -> group_bias f c who ss xs == sum_where who (weights f c ss xs).
Proof.
  induction who as [|b who IH]; intros [|s ss] [|x xs] Ls Lx; try discriminate; [destruct f; unfold group_bias, n_where; cbn; ring|]. specialize (IH ss xs (eq_add_S _ _ Ls) (eq_add_S _ _ Lx)).
  unfold weights in *. cbn [combine map fst snd sum_where]. rewrite <- IH. unfold group_bias. destruct f as [k|].
  - cbn [sum_where]. destruct b; ring.
  - cbn [n_covered]. assert (E : n_where (b :: who) == (if b then 1 else 0) + n_where who). { unfold n_where. cbn [filter]. destruct b; cbn [length]; [|ring]. rewrite Nat2Z.inj_succ. unfold Z.succ. rewrite inject_Z_plus. ring. }
    rewrite E. destruct b; [|ring]. destruct (Qlt_le_dec x s); ring.
Qed.
Lemma sum_where_none who ws : n_where who == 0 -> sum_where who ws == 0.
Proof.
  revert ws. unfold n_where. induction who as [|b m IH]; intros ws W; [reflexivity|]. destruct ws as [|x l]; [reflexivity|]. destruct b; cbn [filter length sum_where] in *; [exfalso; unfold Qeq in W; cbn in W; lia|]. rewrite (IH l W). ring.
Qed.
Lemma part_length n who xs j : length who = length xs -> length (part_of n who xs j) = length xs.
Proof. intros L. unfold part_of. rewrite map_length, combine_length. lia. Qed.
Lemma part_marks n g w xs j : (0 < n)%nat -> length (g_rows w) = length xs -> marks n g 0 (g_rows w) (centre n j) (Vec xs) (part_of n (members_of g w) xs j).
Proof.
  intros N L. assert (LM : length (members_of g w) = length xs) by (unfold members_of; now rewrite map_length). split; [cbn; now apply part_length|]. intros i row Hr. unfold part_of, members_of. rewrite nth_error_map.
  assert (Li : (i < length xs)%nat) by (rewrite <- L; apply nth_error_Some; congruence). destruct (nth_error xs i) as [x|] eqn:Ex; [|apply nth_error_None in Ex; lia].
  assert (C : nth_error (combine (map (fun row => nth g row false) (g_rows w)) xs) i = Some (nth g row false, x)).
  { clear - Hr Ex. revert xs i Hr Ex. induction (g_rows w) as [|r rs IH]; intros [|y ys] [|i] Hr Ex; try discriminate; [injection Hr as <-; injection Ex as <-; reflexivity|]. exact (IH ys i Hr Ex). }
  rewrite C. cbn [option_map fst snd]. split.
  - intros [= E]. apply andb_true_iff in E. destruct E as [E1 E2]. split; [exact E1|]. exists x. split; [reflexivity|]. now apply Qltb_true.
  - intros (E1 & y & [= <-] & E2). f_equal. apply andb_true_iff. split; [exact E1|]. now apply Qltb_true.
Qed.
Section Group.
Variable rnd : random.
Hypothesis T : tame rnd.
Theorem group_error f o t l w xs n coverage table g e : one_value f -> good_targets (kind_of f) t -> t_array t = Vec l -> (0 < length l)%nat -> (0 < n)%nat -> (forall g, w = Some g -> proper g /\ length (g_rows g) = length l) ->
  values_fine f (Vec xs) -> length xs = length l -> (f = Mvp -> i_coverage o = Some coverage) -> ierror rnd f o t w (Some (Vec xs)) n = Ok table -> (g < g_width (groups_for w (length l)))%nat -> nth 0 (nth g table []) None = Some e ->
  let who := members_of g (groups_for w (length l)) in bucketed n who xs ->
  group_bias f coverage who l xs * group_bias f coverage who l xs <= e * (n_where who * n_where who).
Proof.
  intros O G E N NB PW VF LX CV R HG HE who HB.
  assert (LW : length (g_rows (groups_for w (length l))) = length l). { unfold groups_for. destruct w as [w|]; [now apply PW|]. cbn. apply repeat_length. }
  assert (LM : length who = length l) by (unfold who, members_of; now rewrite map_length).
  destruct (error_meaning rnd T f o t l w (Some (Vec xs)) n G E N NB PW) as [_ X]. { intros x [= <-]. split; [exact VF|]. split; [exact LX|exact I]. }
  destruct (X coverage) as (table' & R' & _ & _ & M). { intros ->. split; [discriminate|now apply CV]. } rewrite R in R'. injection R' as <-.
  assert (W1 : (0 < width (kind_of f))%nat) by (destruct f as [[| |m]|]; cbn in *; [lia|lia|destruct O|lia]).
  assert (SS : Forall2 (score_is (kind_of f) 0) l l). { clear - O. assert (K : forall x, score_is (kind_of f) 0 x x) by (intros x; destruct f as [[| |m]|]; cbn in *; try reflexivity; destruct O). induction l; constructor; auto. }
  destruct (M g 0%nat l (part_of n who xs) HG W1 SS) as [M1 M2]. { intros j Hj. cbn [init_values]. apply part_marks; [exact NB|]. now rewrite LW. }
  change (n_where (map (fun row => nth g row false) (g_rows (groups_for w (length l))))) with (n_where who) in M1, M2. rewrite HE in M1, M2.
  assert (NZ : ~ n_where who == 0) by (intros Z; specialize (M1 Z); discriminate). destruct (M2 NZ) as (e' & [= <-] & E0 & ES). cbn [init_values dimension] in ES.
  assert (LPw : forall j, length (part_of n who xs j) = length l) by (intros j; rewrite part_length; congruence).
  set (Bj := fun j => group_bias f coverage (part_of n who xs j) l xs). set (Nj := fun j => n_where (part_of n who xs j)).
  destruct (cauchy (seq 0 n) Nj Bj) as (_ & _ & C).
  { intros j _. split; [apply n_where_nonneg|]. intros Z. unfold Bj. rewrite bias_sum by (rewrite LPw; congruence). now apply sum_where_none. }
  assert (TB : total_of (map Bj (seq 0 n)) == group_bias f coverage who l xs).
  { rewrite bias_sum by congruence. rewrite <- (split_sum n who xs (weights f coverage l xs)); [|congruence|unfold weights; rewrite map_length, combine_length; lia|exact HB]. apply total_same. intros j _. apply bias_sum; rewrite LPw; congruence. }
  assert (TN : total_of (map Nj (seq 0 n)) == n_where who).
  { rewrite (n_where_sum who (length l)) by lia. rewrite <- (split_sum n who xs (repeat 1 (length l))); [|congruence|now rewrite repeat_length|exact HB]. apply total_same. intros j _. apply n_where_sum. now rewrite LPw. }
  assert (TE : total_of (map (fun j => Bj j * Bj j / Nj j) (seq 0 n)) == e * n_where who). { rewrite ES. apply total_same. intros j _. unfold Bj, Nj, part_error, group_bias. destruct f; reflexivity. }
  rewrite TB, TN, TE in C. setoid_replace (e * (n_where who * n_where who)) with (n_where who * (e * n_where who)) by ring. exact C.
Qed.
End Group.
