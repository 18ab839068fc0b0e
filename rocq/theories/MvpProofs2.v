(** BatchMVP: loss of a patch and reasons to stop. *)
From Coq Require Import List Arith ZArith QArith Qabs Qminmax Bool Lia Lqa.
From Verif Require Import Lib QuantModel QuantSpec QuantProofs ConfRegModel ConfRegProofs ConfClassModel MultiModel MultiSpec MultiProofs MultiProofs2 MultiProofs3 MultiProofs4 MultiProofs5 MultiSpec3 MultiProofs8 MvpSpec MvpProofs.
Import ListNotations.
Open Scope Q_scope.

(** the algebra of the grid argument: [A] number of points too many, [f] the loss, [g] the grid step *)
Lemma grid_step (f A : Q -> Q) (d g : Q) :
  (forall t u, f u + A u * (t - u) <= f t) -> (forall t u, t <= u -> A t <= A u) ->
  0 < g -> Qabs (A d) < Qabs (A 0) ->
  (0 < d -> g <= d /\ Qabs (A d) < Qabs (A (d - g))) -> (d < 0 -> d <= - g /\ Qabs (A d) < Qabs (A (d + g))) ->
  f d <= f 0 + Qabs (A d) * Qmax 0 (2 * g - Qabs d).
Proof.
  intros SUB MON G LT UP DOWN.
  pose proof (Q.le_max_l 0 (2 * g - Qabs d)) as X0. pose proof (Q.le_max_r 0 (2 * g - Qabs d)) as X1. set (X := Qmax 0 (2 * g - Qabs d)) in *.
  pose proof (Qabs_nonneg (A d)) as M0.
  assert (PX : 0 <= Qabs (A d) * X) by nra.
  destruct (Qlt_le_dec (A 0) 0) as [N|P].
  - rewrite (Qabs_neg (A 0)) in LT by lra.
    assert (D : 0 < d). { destruct (Qlt_le_dec 0 d) as [H|H]; [exact H|]. pose proof (MON d 0 H) as H2. rewrite (Qabs_neg (A d)) in LT by lra. lra. }
    destruct (Qlt_le_dec 0 (A d)) as [Q0|Q0].
    + destruct (UP D) as [GD W]. rewrite (Qabs_pos (A d)) in * by lra. rewrite (Qabs_pos d) in X1 by lra.
      pose proof (MON (d - g) d ltac:(lra)) as M1.
      assert (W2 : A d < - A (d - g)). { destruct (Qlt_le_dec (A (d - g)) 0) as [H|H]; [rewrite Qabs_neg in W by lra; lra|rewrite Qabs_pos in W by lra; lra]. }
      pose proof (SUB 0 (d - g)) as S1. pose proof (SUB (d - g) d) as S2.
      assert (S2' : f d - A d * g <= f (d - g)) by (eapply Qle_trans; [|exact S2]; apply Qle_lteq; right; ring).
      assert (K1 : A (d - g) * (d - g) <= - A d * (d - g)) by nra.
      assert (S1' : f (d - g) <= f 0 + A (d - g) * (d - g)).
      { assert (Z : A (d - g) * (0 - (d - g)) == - (A (d - g) * (d - g))) by ring. rewrite Z in S1. lra. }
      assert (K2 : A d * (2 * g - d) <= A d * X) by (rewrite !(Qmult_comm (A d)); apply Qmult_le_compat_r; lra).
      assert (K3 : A d * (2 * g - d) == A d * g - A d * (d - g)) by ring.
      assert (K4 : - A d * (d - g) == - (A d * (d - g))) by ring. rewrite K4 in K1. lra.
    + pose proof (SUB 0 d) as S1. assert (Z : A d * (0 - d) == - (A d * d)) by ring. rewrite Z in S1. assert (A d * d <= 0) by nra. lra.
  - rewrite (Qabs_pos (A 0)) in LT by lra.
    assert (D : d < 0). { destruct (Qlt_le_dec d 0) as [H|H]; [exact H|]. pose proof (MON 0 d H) as H2. rewrite (Qabs_pos (A d)) in LT by lra. lra. }
    destruct (Qlt_le_dec (A d) 0) as [Q0|Q0].
    + destruct (DOWN D) as [GD W]. rewrite (Qabs_neg (A d)) in * by lra. rewrite (Qabs_neg d) in X1 by lra.
      pose proof (MON d (d + g) ltac:(lra)) as M1.
      assert (W2 : - A d < A (d + g)). { destruct (Qlt_le_dec (A (d + g)) 0) as [H|H]; [rewrite Qabs_neg in W by lra; lra|rewrite Qabs_pos in W by lra; lra]. }
      pose proof (SUB 0 (d + g)) as S1. pose proof (SUB (d + g) d) as S2.
      assert (S2' : f d + A d * g <= f (d + g)) by (eapply Qle_trans; [|exact S2]; apply Qle_lteq; right; ring).
      assert (K1 : A (d + g) * (d + g) <= - A d * (d + g)) by nra.
      assert (S1' : f (d + g) <= f 0 + A (d + g) * (d + g)).
      { assert (Z : A (d + g) * (0 - (d + g)) == - (A (d + g) * (d + g))) by ring. rewrite Z in S1. lra. }
      assert (K2 : - A d * (2 * g - - d) <= - A d * X) by (rewrite !(Qmult_comm (- A d)); apply Qmult_le_compat_r; lra).
      assert (K3 : - A d * (2 * g - - d) == - A d * (d + g) - A d * g) by ring. lra.
    + pose proof (SUB 0 d) as S1. assert (Z : A d * (0 - d) == - (A d * d)) by ring. rewrite Z in S1. assert (A d * d <= 0) by nra. lra.
Qed.

Lemma in_shifts n d : (2 <= n)%nat -> In d (mvp_shifts n) -> exists i, (i < 2 * n - 1)%nat /\ nth i (mvp_shifts n) 0 = d.
Proof. intros N H. apply (In_nth _ _ 0) in H. destruct H as (i & Hi & E). rewrite shifts_length in Hi by lia. exists i. split; [exact Hi|exact E]. Qed.
Lemma shift_value n i : (2 <= n)%nat -> (i < 2 * n - 1)%nat -> nth i (mvp_shifts n) 0 == inject_Z (Z.of_nat i - Z.of_nat (n - 1)) / inject_Z (Z.of_nat (n - 1)).
Proof.
  intros N I. destruct (shift_grid n i N I) as [_ A]. assert (P : 0 < inject_Z (Z.of_nat (n - 1))) by (rewrite <- (Zlt_Qlt 0); lia).
  rewrite <- A. field. lra.
Qed.
Lemma covered_proper t u bs xs ss : t == u -> covered_at t bs xs ss == covered_at u bs xs ss.
Proof. intros H. apply Qle_antisym; apply covered_mono; rewrite H; apply Qle_refl. Qed.
Lemma miss_proper c t u bs xs ss : t == u -> miss_at c t bs xs ss == miss_at c u bs xs ss.
Proof. intros H. unfold miss_at. now rewrite (covered_proper t u bs xs ss H). Qed.

Lemma patch_loss n c e d bs xs ss : (2 <= n)%nat -> 0 <= c <= 1 -> 0 <= e <= 1 -> length bs = length xs -> length xs = length ss -> Forall in_unit ss -> 0 < n_where bs ->
  mvp_patch n c Additive ss xs bs = Ok (Some d) -> miss_at c d bs xs ss < miss_at c 0 bs xs ss ->
  pinball_error c (zip_with (shift_where e d) bs xs) ss <= pinball_error c xs ss + e * (miss_at c d bs xs ss * Qmax 0 (2 / inject_Z (Z.of_nat (n - 1)) - Qabs d)).
Proof.
  intros N C E L1 L2 U W P LT.
  assert (NP : 0 < inject_Z (Z.of_nat (n - 1))) by (rewrite <- (Zlt_Qlt 0); lia). set (m := inject_Z (Z.of_nat (n - 1))) in *.
  destruct (mvp_patch_best n c ss xs bs N) as (d' & P' & IN & BEST & T1 & T2). rewrite P in P'. injection P' as <-.
  assert (BM : forall t, In t (mvp_shifts n) -> miss_at c d bs xs ss <= miss_at c t bs xs ss) by (intros t Ht; apply err_le; auto).
  assert (TIE : forall t, miss_at c t bs xs ss <= miss_at c d bs xs ss -> In t (mvp_shifts n) -> mvp_prob_error c ss (map (fun x => x + t) xs) bs == mvp_prob_error c ss (map (fun x => x + d) xs) bs).
  { intros t Ht It. apply Qle_antisym; [apply err_le; auto|apply BEST, It]. }
  destruct (in_shifts n d N IN) as (i & Hi & Ei). pose proof (shift_value n i N Hi) as Vi. rewrite Ei in Vi. fold m in Vi.
  set (g := 1 / m). assert (G : 0 < g) by (unfold g; apply Qlt_shift_div_l; lra).
  assert (DG : d == inject_Z (Z.of_nat i - Z.of_nat (n - 1)) * g) by (rewrite Vi; unfold g; field; lra).
  set (A := fun t => covered_at t bs xs ss - c * n_where bs).
  assert (KEY : F c d bs xs ss <= F c 0 bs xs ss + Qabs (A d) * Qmax 0 (2 * g - Qabs d)).
  { apply (grid_step (fun t => F c t bs xs ss) A d g).
    - intros t u. apply (F_sub c C bs xs ss t u L1 L2).
    - intros t u H. unfold A. pose proof (covered_mono t u H bs xs ss). lra.
    - exact G.
    - exact LT.
    - intros D. assert (I2 : (n <= i)%nat) by (apply (shift_pos n i N Hi); rewrite Ei; exact D).
      assert (GD : g <= d). { rewrite DG. assert (1 <= inject_Z (Z.of_nat i - Z.of_nat (n - 1))) by (change 1 with (inject_Z 1); rewrite <- Zle_Qle; lia). nra. }
      split; [exact GD|].
      assert (In2 : In (nth (i - 1) (mvp_shifts n) 0) (mvp_shifts n)) by (apply nth_In; rewrite shifts_length by lia; lia).
      assert (V2 : nth (i - 1) (mvp_shifts n) 0 == d - g).
      { rewrite (shift_value n (i - 1) N ltac:(lia)). fold m. rewrite Vi. unfold g. replace (Z.of_nat (i - 1) - Z.of_nat (n - 1))%Z with (Z.of_nat i - Z.of_nat (n - 1) + -1)%Z by lia. rewrite inject_Z_plus. change (inject_Z (-1)) with (-1 # 1). field. lra. }
      assert (MS : miss_at c (nth (i - 1) (mvp_shifts n) 0) bs xs ss == Qabs (A (d - g))) by (rewrite (miss_proper c _ _ bs xs ss V2); reflexivity).
      rewrite <- MS. destruct (Qlt_le_dec (miss_at c d bs xs ss) (miss_at c (nth (i - 1) (mvp_shifts n) 0) bs xs ss)) as [H|H]; [exact H|]. exfalso.
      assert (Z := T1 (ex_intro _ d (conj IN (conj D (Qeq_refl _)))) _ In2 (TIE _ H In2)). lra.
    - intros D. assert (I2 : (i < n - 1)%nat).
      { destruct (le_lt_dec (n - 1) i) as [H|H]; [|exact H]. exfalso. assert (0 <= inject_Z (Z.of_nat i - Z.of_nat (n - 1))) by (change 0 with (inject_Z 0); rewrite <- Zle_Qle; lia). rewrite DG in D. nra. }
      assert (GD : d <= - g). { rewrite DG. assert (inject_Z (Z.of_nat i - Z.of_nat (n - 1)) <= -1) by (change (-1) with (inject_Z (-1)); rewrite <- Zle_Qle; lia). nra. }
      split; [exact GD|].
      assert (In2 : In (nth (i + 1) (mvp_shifts n) 0) (mvp_shifts n)) by (apply nth_In; rewrite shifts_length by lia; lia).
      assert (V2 : nth (i + 1) (mvp_shifts n) 0 == d + g).
      { rewrite (shift_value n (i + 1) N ltac:(lia)). fold m. rewrite Vi. unfold g. replace (Z.of_nat (i + 1) - Z.of_nat (n - 1))%Z with (Z.of_nat i - Z.of_nat (n - 1) + 1)%Z by lia. rewrite inject_Z_plus. change (inject_Z 1) with (1 # 1). field. lra. }
      assert (MS : miss_at c (nth (i + 1) (mvp_shifts n) 0) bs xs ss == Qabs (A (d + g))) by (rewrite (miss_proper c _ _ bs xs ss V2); reflexivity).
      rewrite <- MS. destruct (Qlt_le_dec (miss_at c d bs xs ss) (miss_at c (nth (i + 1) (mvp_shifts n) 0) bs xs ss)) as [H|H]; [exact H|]. exfalso.
      assert (NB : forall d', In d' (mvp_shifts n) -> mvp_prob_error c ss (map (fun x => x + d') xs) bs == mvp_prob_error c ss (map (fun x => x + d) xs) bs -> d' <= 0).
      { intros t It Et. destruct (Qlt_le_dec 0 t) as [Ht|Ht]; [|exact Ht]. exfalso.
        assert (Mt : miss_at c t bs xs ss <= miss_at c d bs xs ss) by (apply err_le; auto; rewrite Et; apply Qle_refl).
        assert (M1 := covered_mono 0 t ltac:(lra) bs xs ss). assert (M2 := covered_mono d 0 ltac:(lra) bs xs ss).
        unfold miss_at in *. fold (A 0) (A d) in LT. destruct (Qlt_le_dec (A 0) 0) as [S|S].
        - rewrite (Qabs_neg (A 0)) in LT by lra. rewrite (Qabs_neg (A d)) in LT by (unfold A in *; lra). unfold A in *. lra.
        - rewrite (Qabs_pos (A 0)) in LT by lra. rewrite (Qabs_pos (covered_at t bs xs ss - c * n_where bs)) in Mt by (unfold A in *; lra). fold (A d) in Mt. unfold A in *. lra. }
      assert (Z := T2 NB _ In2 (TIE _ H In2)). lra. }
  assert (X : Qmax 0 (2 * g - Qabs d) == Qmax 0 (2 / m - Qabs d)) by (apply Q.max_compat; [reflexivity|unfold g; field; lra]).
  rewrite X in KEY. change (Qabs (A d)) with (miss_at c d bs xs ss) in KEY.
  eapply Qle_trans; [apply (F_step c e d C E bs xs ss L1 L2 U)|]. rewrite (F_zero c bs xs ss L1 L2) in KEY.
  set (f0 := pinball_error c xs ss) in *. set (fd := F c d bs xs ss) in *. set (r := miss_at c d bs xs ss * Qmax 0 (2 / m - Qabs d)) in *.
  assert (e * fd <= e * (f0 + r)) by (rewrite !(Qmult_comm e); apply Qmult_le_compat_r; lra).
  assert (Z : f0 + e * r == (1 - e) * f0 + e * (f0 + r)) by ring. rewrite Z. lra.
Qed.
