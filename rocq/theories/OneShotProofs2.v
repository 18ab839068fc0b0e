From Coq Require Import List Arith ZArith QArith Qabs Bool Lia Lqa.
From Verif Require Import Lib LoaderProofs QuantModel QuantSpec QuantProofs ConfRegModel ConfRegProofs ConfClassModel ConfClassProofs ConfClassProofs2 ConfClassSpec ConfClassProofs3 MultiModel MultiSpec MultiProofs MultiProofs2 MultiProofs3 MultiProofs4 MultiProofs5 OneShotModel OneShotSpec OneShotProofs.
Import ListNotations.
Open Scope Q_scope.

Lemma bucket_centre n j : (j < n)%nat -> nth j (get_buckets n) 0 == centre n j.
Proof.
  intros H. unfold get_buckets. rewrite linspace_nth by exact H. unfold centre. unfold Qdiv. ring.
Qed.
Lemma near_within n x v : (0 < n)%nat -> (near n v x = true <-> within n x v).
Proof. intros N. unfold within. now rewrite near_iff. Qed.
Lemma forall2_unique {A} (P : A -> Prop) (f : A -> bool) l bs : (forall x, In x l -> (f x = true <-> P x)) -> Forall2 (fun x b => b = true <-> P x) l bs -> bs = map f l.
Proof.
  intros H F. induction F as [|x b l bs E F IH]; [reflexivity|]. cbn [map]. f_equal; [|apply IH; intros y Hy; apply H; now right].
  specialize (H x (or_introl eq_refl)). destruct (f x), b; try reflexivity; [apply E, H; reflexivity|symmetry; apply H, E; reflexivity].
Qed.
Lemma mask_unique n c v a bs : (0 < n)%nat -> full_rows a -> mask_is n c v a bs -> bs = get_b n a v c.
Proof.
  intros N R. destruct a as [l|rows]; cbn [mask_is get_b]; apply forall2_unique.
  - intros x _. now apply near_within.
  - intros row Hr. cbn in R. rewrite Forall_forall in R. specialize (R row Hr). rewrite andb_true_iff, (near_within n _ v N), Nat.eqb_eq.
    rewrite argmax_top by (destruct row; [congruence|cbn; lia]). tauto.
Qed.
Lemma sum_where_ext bs : forall xs ys, Forall2 Qeq xs ys -> sum_where bs xs == sum_where bs ys.
Proof. induction bs as [|b bs IH]; intros xs ys F; [reflexivity|]. destruct F as [|x y xs ys E F]; [reflexivity|]. cbn [sum_where]. rewrite (IH xs ys F). destruct b; rewrite ?E; reflexivity. Qed.
Lemma column_scores k l c ss : (c < width k)%nat -> Forall2 (score_is k c) l ss -> Forall2 Qeq (column_of c (scores_of k l)) ss.
Proof.
  intros W F. unfold column_of. unfold scores_of. destruct k.
  - induction F as [|t s l ss E F IH]; cbn [map]; constructor; [|exact IH]. assert (c = O) by (cbn in W; lia). subst. cbn. symmetry. exact E.
  - induction F as [|t s l ss E F IH]; cbn [map]; constructor; [|exact IH]. assert (c = O) by (cbn in W; lia). subst. cbn. symmetry. exact E.
  - induction F as [|t s l ss [E1 E2] F IH]; cbn [map]; constructor; [|exact IH]. cbn in W.
    rewrite (nth_indep _ 0 (of_bool (Qeq_bool t (inject_Z (Z.of_nat 0))))) by (now rewrite map_length, seq_length).
    rewrite (map_nth (fun i => of_bool (Qeq_bool t (inject_Z (Z.of_nat i))))), seq_nth by exact W. cbn [plus].
    destruct (Qeq_bool t (inject_Z (Z.of_nat c))) eqn:E; cbn [of_bool]; symmetry; [apply E1; now apply Qeq_bool_iff|apply E2; now apply Qeq_bool_neq].
Qed.
Lemma stretch_is {A} n (l l' : list A) : stretched n l l' -> (l = [] -> n = O) -> stretch n l = l'.
Proof.
  intros [L [E|(x & -> & ->)]] H; [|reflexivity]. subst l'. unfold stretch. destruct l as [|x [|y l]]; try reflexivity. cbn in L. now subst n.
Qed.
Lemma n_where_repeat b n : n_where (repeat b n) == inject_Z (Z.of_nat n) * of_bool b.
Proof. induction n as [|n IH]; [reflexivity|]. cbn [repeat]. rewrite n_where_cons, IH, Nat2Z.inj_succ. unfold Z.succ. rewrite inject_Z_plus. change (inject_Z 1) with 1. ring. Qed.
Lemma stretched_prob n bs bs' : bs <> [] -> stretched n bs bs' -> n <> O -> prob_of bs == prob_of bs'.
Proof.
  intros NE [L [->|(b & -> & ->)]] Hn; [reflexivity|].
  assert (NE' : repeat b n <> []) by (destruct n; [lia|discriminate]).
  pose proof (prob_of_spec _ NE') as P. rewrite repeat_length, n_where_repeat in P. pose proof (prob_of_spec [b] NE) as P1. rewrite n_where_cons in P1. cbn in P1.
  assert (0 < inject_Z (Z.of_nat n)) by (rewrite <- (Zlt_Qlt 0); lia). change (inject_Z 1) with 1 in P1. change (n_where []) with 0 in P1.
  assert (X : prob_of [b] == of_bool b) by lra. rewrite X. apply (Qmult_inj_r _ _ (inject_Z (Z.of_nat n))); lra.
Qed.
Lemma forall2_eq_stretched n xs ys xs' ys' : Forall2 Qeq xs ys -> stretched n xs xs' -> stretched n ys ys' -> Forall2 Qeq xs' ys'.
Proof.
  intros F [L1 H1] [L2 H2].
  assert (R : forall x y k, x == y -> Forall2 Qeq (repeat x k) (repeat y k)) by (intros x y k E; induction k; cbn; constructor; auto).
  destruct H1 as [->|(x & -> & ->)], H2 as [->|(y & -> & ->)].
  - exact F.
  - destruct xs as [|x [|x2 xs]]; [inversion F|cbn in L1; subst n; exact F|inversion F as [|? ? ? ? _ F']; inversion F'].
  - destruct ys as [|y [|y2 ys]]; [inversion F|cbn in L2; subst n; exact F|inversion F as [|? ? ? ? _ F']; inversion F'].
  - inversion F; subst. now apply R.
Qed.
Lemma stretched_exists {A} n (l : list A) : (length l = n \/ length l = 1%nat) -> exists l', stretched n l l'.
Proof.
  intros [H|H]; [exists l; split; [exact H|now left]|]. destruct l as [|x [|? ?]]; try (cbn in H; lia). exists (repeat x n). split; [apply repeat_length|]. right. now exists x.
Qed.
(** what one patch is *)
Lemma the_patch_meaning n p scores a v c bs ss bs' ss' N : 0 <= p -> (0 < points a)%nat -> scores <> [] ->
  bs = get_b n a v c -> Forall2 Qeq scores ss -> (length bs = N \/ length ss = N) -> stretched N bs bs' -> stretched N ss ss' ->
  let q := the_patch n p scores a v c in
  (p * inject_Z (Z.of_nat N) < n_where bs' -> mean_is bs' ss' q) /\ (n_where bs' <= p * inject_Z (Z.of_nat N) -> q = v).
Proof.
  intros P PA NS Hb F LN S1 S2 q.
  assert (NEb : bs <> []) by (intros E; rewrite Hb in E; apply (f_equal (@length bool)) in E; rewrite get_b_length in E; cbn in E; lia).
  assert (Lss : length scores = length ss). { clear -F. induction F; cbn; congruence. }
  assert (NSs : ss <> []) by (intros ->; destruct scores; [congruence|discriminate]).
  assert (HL1 : length bs = N \/ length bs = 1%nat) by (destruct S1 as [L [->|(x & -> & _)]]; [left; exact L|right; reflexivity]).
  assert (HL2 : length ss = N \/ length ss = 1%nat) by (destruct S2 as [L [->|(x & -> & _)]]; [left; exact L|right; reflexivity]).
  assert (N0 : (0 < N)%nat) by (destruct bs; [congruence|]; destruct ss; [congruence|]; cbn in LN; lia).
  destruct (stretched_exists N scores) as (sc' & S3); [lia|].
  assert (CL : common_length (length scores) (length bs) = Ok N).
  { unfold common_length. rewrite Lss. destruct (Nat.eqb_spec (length ss) (length bs)); [f_equal; lia|]. destruct (Nat.eqb_spec (length ss) 1); [f_equal; lia|]. destruct (Nat.eqb_spec (length bs) 1); [f_equal; lia|lia]. }
  assert (Q : q = if Qlt_bool p (prob_of bs) then qmean (zip_with (fun s b => s * of_bool b) sc' bs') / prob_of bs else v).
  { unfold q, the_patch, get_patch. rewrite <- Hb, CL. cbn [bind]. now rewrite (stretch_is N scores sc' S3), (stretch_is N bs bs' S1) by (intros ->; contradiction). }
  assert (Lb' : length bs' = N) by apply S1. assert (Lsc : length sc' = N) by apply S3. assert (Lss' : length ss' = N) by apply S2.
  assert (NEb' : bs' <> []) by (intros E; rewrite E in Lb'; cbn in Lb'; lia).
  assert (PP := stretched_prob N bs bs' NEb S1 ltac:(lia)).
  pose proof (prob_of_spec bs' NEb') as PS. rewrite Lb' in PS.
  assert (NQ : 0 < inject_Z (Z.of_nat N)) by (rewrite <- (Zlt_Qlt 0); lia).
  split; intros H.
  - assert (X : p < prob_of bs) by (rewrite PP; apply (mul_lt p (prob_of bs') (inject_Z (Z.of_nat N)) NQ); lra).
    rewrite (proj2 (Qltb_true _ _) X) in Q. unfold mean_is. rewrite Q, PP. fold (mean_on sc' bs').
    rewrite (mean_on_spec bs' sc') by (try lia; rewrite <- PP; lra). apply sum_where_ext. eapply forall2_eq_stretched; eassumption.
  - assert (X : prob_of bs <= p) by (rewrite PP; apply (mul_le (prob_of bs') p (inject_Z (Z.of_nat N)) NQ); lra).
    now rewrite (proj2 (Qltb_false _ _) X) in Q.
Qed.
Lemma threshold_init k n p : (0 < n)%nat -> (0 < width k)%nat -> (forall q, p = Some q -> in_unit q) -> init_min_prob p n (width k) == threshold k n p /\ 0 <= init_min_prob p n (width k).
Proof.
  intros N W H. unfold init_min_prob, threshold. destruct p as [q|]; [split; [reflexivity|apply (H q eq_refl)]|]. rewrite Nat2Z.inj_mul, inject_Z_mult. split; [reflexivity|].
  apply Qle_shift_div_l; [|lra]. rewrite <- inject_Z_mult, <- (Zlt_Qlt 0). lia.
Qed.
Lemma the_patches_shape k n p l a : length (the_patches k n p l a) = n /\ Forall (fun r => length r = width k) (the_patches k n p l a).
Proof.
  unfold the_patches. split; [unfold get_buckets; now rewrite map_length, linspace_length|]. rewrite Forall_forall. intros r H. apply in_map_iff in H. destruct H as (v & <- & _). now rewrite map_length, seq_length.
Qed.
Lemma the_patches_nth k n p l a j c : (j < n)%nat -> (c < width k)%nat ->
  nth c (nth j (the_patches k n p l a) []) 0 = the_patch n p (column_of c (scores_of k l)) a (nth j (get_buckets n) 0) c.
Proof.
  intros J C. unfold the_patches. set (f := fun v => map (fun c0 => the_patch n p (column_of c0 (scores_of k l)) a v c0) (seq 0 (width k))).
  rewrite (nth_indep _ [] (f 0)) by (unfold get_buckets; rewrite map_length, linspace_length; exact J). rewrite (map_nth f). unfold f.
  set (g := fun c0 => the_patch n p (column_of c0 (scores_of k l)) a (nth j (get_buckets n) 0) c0).
  rewrite (nth_indep _ 0 (g O)) by (now rewrite map_length, seq_length). now rewrite (map_nth g), seq_nth by exact C.
Qed.
Theorem patches_meaning : forall k o t l values a test n p, (0 < n)%nat -> acceptable k t values test p -> values = Some a -> t_array t = Vec l -> compatible t a ->
  (0 < length l)%nat -> (0 < points a)%nat -> full_rows a ->
  exists ps, o_patches (snd (calibrate k o t values test n p)) = Some ps /\ length ps = n /\
  forall j, (j < n)%nat -> length (nth j ps []) = width k /\
  forall c bs ss bs' ss' N, (c < width k)%nat -> mask_is n c (centre n j) a bs -> Forall2 (score_is k c) l ss ->
    (length bs = N \/ length ss = N) -> stretched N bs bs' -> stretched N ss ss' ->
    let q := nth c (nth j ps []) 0 in
    (threshold k n p * inject_Z (Z.of_nat N) < n_where bs' -> mean_is bs' ss' q) /\ (n_where bs' <= threshold k n p * inject_Z (Z.of_nat N) -> q == centre n j).
Proof.
  intros k o t l values a test n p N (G & (a' & E & V1) & V2 & P) Ev El K L0 PA R. rewrite Ev in E. injection E as <-. subst values.
  assert (W := good_width k t G).
  destruct (calibrate_good k o t a test n p G (conj V1 V2) P N) as (l' & El' & B & _). rewrite El in El'. injection El' as <-. rewrite (B K). cbn [snd o_patches].
  destruct (the_patches_shape k n (init_min_prob p n (width k)) l a) as [Ln Fw].
  eexists. split; [reflexivity|]. split; [exact Ln|]. intros j Hj. split.
  { rewrite Forall_forall in Fw. apply Fw, nth_In. now rewrite Ln. }
  intros c bs ss bs' ss' M Hc Hm Hs LN S1 S2. destruct (threshold_init k n p N W P) as [TE T0].
  rewrite the_patches_nth by assumption.
  assert (Hm' : mask_is n c (nth j (get_buckets n) 0) a bs).
  { clear -Hm Hj. pose proof (bucket_centre n j Hj) as E. assert (X : forall x, within n x (nth j (get_buckets n) 0) <-> within n x (centre n j)) by (intros x; unfold within; now rewrite E).
    destruct a; cbn [mask_is] in *; (induction Hm; constructor; [rewrite X; assumption|assumption]). }
  apply (mask_unique n c _ a bs N R) in Hm'.
  assert (NS : column_of c (scores_of k l) <> []) by (intros X; apply (f_equal (@length Q)) in X; rewrite (scores_column k l c Hc) in X; cbn in X; lia).
  destruct (the_patch_meaning n (init_min_prob p n (width k)) (column_of c (scores_of k l)) a (nth j (get_buckets n) 0) c bs ss bs' ss' M T0 PA NS Hm' (column_scores k l c ss Hc Hs) LN S1 S2) as [A1 A2].
  split; intros H; [apply A1; rewrite TE; exact H|]. rewrite A2 by (rewrite TE; exact H). now apply bucket_centre.
Qed.
