From Coq Require Import List Arith ZArith QArith Qabs Bool Lia Lqa.
From Verif Require Import Lib LoaderProofs QuantModel QuantSpec QuantProofs ConfRegModel ConfRegProofs ConfClassModel ConfClassProofs ConfClassProofs2 ConfClassSpec ConfClassProofs3 MultiModel MultiSpec MultiProofs MultiProofs2 MultiProofs3 MultiProofs4 MultiProofs5 OneShotModel OneShotSpec OneShotProofs OneShotProofs2 OneShotProofs3.
Import ListNotations.
Open Scope Q_scope.

(** ---- values stay in [0,1] ---- *)
Lemma score_exists k c t : exists s, score_is k c t s.
Proof.
  destruct k; cbn; [exists t; reflexivity|exists t; reflexivity|]. destruct (Qeq_bool t (inject_Z (Z.of_nat c))) eqn:E.
  - exists 1. apply Qeq_bool_iff in E. split; [reflexivity|contradiction].
  - exists 0. apply Qeq_bool_neq in E. split; [contradiction|reflexivity].
Qed.
Lemma scores_exist k c l : exists ss, Forall2 (score_is k c) l ss.
Proof. induction l as [|t l (ss & F)]; [exists []; constructor|]. destruct (score_exists k c t) as (s & H). exists (s :: ss). now constructor. Qed.
Lemma score_unit k c t l s : good_targets k {| t_array := Vec l; t_int := true |} -> In t l -> score_is k c t s -> in_unit s.
Proof.
  intros (l' & El & G) Hin S. cbn [t_array] in El. injection El as <-. destruct k; cbn in S.
  - rewrite Forall_forall in G. unfold in_unit. rewrite S. now apply (G t).
  - destruct G as (_ & G & _). unfold in_unit. rewrite S. destruct (G t Hin); lra.
  - destruct S as [S1 S2]. unfold in_unit. destruct (Qeq_dec t (inject_Z (Z.of_nat c))) as [E|E]; [rewrite (S1 E)|rewrite (S2 E)]; lra.
Qed.
Lemma centre_unit n j : (j < n)%nat -> in_unit (centre n j).
Proof.
  intros H. unfold in_unit. rewrite <- (bucket_centre n j H). apply (linspace_between 0 1 n); [lra|]. apply nth_In. unfold get_buckets. now rewrite linspace_length.
Qed.
Lemma mean_unit bs ss q : Forall in_unit ss -> 0 < n_where bs -> mean_is bs ss q -> in_unit q.
Proof.
  intros F W M. unfold mean_is in M. pose proof (sum_where_unit bs ss F) as [S1 S2]. rewrite <- M in S1, S2. split; [apply (mul_le 0 q (n_where bs) W)|apply (mul_le q 1 (n_where bs) W)]; lra.
Qed.
Lemma stretched_forall {A} (P : A -> Prop) n l l' : Forall P l -> stretched n l l' -> Forall P l'.
Proof. intros F [_ [->|(x & -> & ->)]]; [exact F|]. inversion_clear F. apply Forall_forall. intros y Hy. apply repeat_spec in Hy. now subst. Qed.
Lemma compatible_length n m : (n = m \/ n = 1 \/ m = 1)%nat -> exists len, (m = len \/ n = len) /\ (n = len \/ n = 1)%nat /\ (m = len \/ m = 1)%nat.
Proof. intros H. destruct (Nat.eq_dec n 1) as [->|]; [exists m; lia|exists n; lia]. Qed.
Lemma mask_exists n c v a : (0 < n)%nat -> full_rows a -> mask_is n c v a (get_b n a v c).
Proof.
  intros N R. destruct a as [l|rows]; cbn [mask_is get_b].
  - clear R. induction l as [|x l IH]; cbn [map]; constructor; [now apply near_within|exact IH].
  - cbn in R. induction R as [|row rows NE R IH]; cbn [map]; constructor; [|exact IH]. rewrite andb_true_iff, (near_within n _ v N), Nat.eqb_eq.
    rewrite argmax_top by (destruct row; [congruence|cbn; lia]). tauto.
Qed.
Lemma patches_unit k o t l a test n p ps : (0 < n)%nat -> acceptable k t (Some a) test p -> t_array t = Vec l -> compatible t a ->
  (0 < length l)%nat -> (0 < points a)%nat -> full_rows a -> o_patches (snd (calibrate k o t (Some a) test n p)) = Some ps ->
  forall j c, (j < n)%nat -> (c < width k)%nat -> in_unit (nth c (nth j ps []) 0).
Proof.
  intros N Acc El K L0 PA R Ep j c Hj Hc. destruct (patches_meaning k o t l (Some a) a test n p N Acc eq_refl El K L0 PA R) as (ps' & Ep' & _ & H).
  rewrite Ep in Ep'. injection Ep' as <-. destruct (H j Hj) as [_ Hm]. clear H.
  destruct (scores_exist k c l) as (ss & Fs). assert (Lss : length ss = length l) by (clear -Fs; induction Fs; cbn; congruence).
  set (bs := get_b n a (centre n j) c). assert (Lb : length bs = points a) by apply get_b_length.
  unfold compatible in K. rewrite El in K. cbn [points] in K. destruct (compatible_length _ _ K) as (M & M1 & M2 & M3).
  destruct (stretched_exists M bs) as (bs' & S1); [lia|]. destruct (stretched_exists M ss) as (ss' & S2); [lia|].
  destruct (Hm c bs ss bs' ss' M Hc (mask_exists n c _ a N R) Fs ltac:(lia) S1 S2) as [A B].
  destruct Acc as (G & (a' & [= <-] & V1) & V2 & P).
  destruct (threshold_init k n p N (good_width k t G) P) as [TE T0].
  destruct (Qlt_le_dec (threshold k n p * inject_Z (Z.of_nat M)) (n_where bs')) as [C|C].
  - apply (mean_unit bs' ss'); [| |now apply A].
    + eapply stretched_forall; [|exact S2]. assert (G' : good_targets k {| t_array := Vec l; t_int := true |}).
      { destruct G as (l0 & E0 & G). rewrite El in E0. injection E0 as <-. exists l. split; [reflexivity|]. destruct k; [exact G|split; [reflexivity|tauto]|split; [reflexivity|tauto]]. }
      assert (X : forall l1 ss1, (forall t, In t l1 -> In t l) -> Forall2 (score_is k c) l1 ss1 -> Forall in_unit ss1).
      { intros l1 ss1 Hin F. induction F as [|t1 s1 l1 ss1 S F IH]; constructor; [eapply score_unit; [exact G'|apply Hin; now left|exact S]|apply IH; intros; apply Hin; now right]. }
      apply (X l ss); [auto|exact Fs].
    + rewrite <- TE in C. assert (0 <= inject_Z (Z.of_nat M)) by (change 0 with (inject_Z 0); rewrite <- Zle_Qle; lia). nra.
  - specialize (B C). unfold in_unit. rewrite B. now apply centre_unit.
Qed.
Theorem stays_unit : forall k o t l values a test n p b out, (0 < n)%nat -> acceptable k t values test p -> values = Some a -> t_array t = Vec l -> compatible t a ->
  (0 < length l)%nat -> (0 < points a)%nat -> full_rows a -> full_rows b -> all_entries in_unit b ->
  apply_patches k (snd (calibrate k o t values test n p)) b = Ok out -> all_entries in_unit out.
Proof.
  intros k o t l values a test n p b out N Acc -> El K L0 PA R Rb U E.
  destruct (patches_meaning k o t l (Some a) a test n p N Acc eq_refl El K L0 PA R) as (ps & Ep & Ln & H).
  destruct (proj2 (proj2 (checks k o t (Some a) test n p N)) a Acc eq_refl K) as (_ & _ & En & _).
  assert (F : Forall (fun r => length r = width k) ps). { rewrite Forall_forall. intros r Hr. apply (In_nth _ _ []) in Hr. destruct Hr as (j & Hj & <-). rewrite Ln in Hj. apply (H j Hj). }
  assert (W : (0 < width k)%nat) by (eapply good_width; apply Acc).
  assert (PU := patches_unit k o t l a test n p ps N Acc El K L0 PA R Ep).
  destruct (applied k _ ps n b Ep En N Ln F W Rb) as [X Y].
  destruct (Nat.eq_dec (axes b) (needed k)) as [Ea|Ea]; [|rewrite (X Ea) in E; discriminate]. destruct (Y Ea) as (out' & E' & Ax & Pts & Hm). rewrite E in E'. injection E' as <-.
  destruct b as [xs|rows], out as [ys|rows']; cbn [axes] in Ax; try discriminate; cbn [all_entries points] in *.
  - rewrite Forall_forall. intros y Hy. apply In_nth_error in Hy. destruct Hy as (i & Hi). destruct (nth_error xs i) as [x|] eqn:Ex.
    + destruct (Hm i x Ex) as (j & (v & _ & _ & _ & J & _) & E2). rewrite Hi in E2. injection E2 as ->. apply PU; [exact J|exact W].
    + apply nth_error_None in Ex. assert (nth_error ys i <> None) by congruence. apply nth_error_Some in H0. lia.
  - rewrite Forall_forall. intros r Hr. apply In_nth_error in Hr. destruct Hr as (i & Hi). destruct (nth_error rows i) as [row|] eqn:Ex.
    + destruct (Hm i row Ex) as (c & j & row' & _ & (v & _ & _ & _ & J & _) & E2 & L2 & Ec & Ed). rewrite Hi in E2. injection E2 as ->.
      rewrite Forall_forall in U. specialize (U row (nth_error_In _ _ Ex)). rewrite Forall_forall in U.
      rewrite Forall_forall. intros y Hy. apply (In_nth _ _ 0) in Hy. destruct Hy as (d & Hd & <-). destruct (Nat.eq_dec d c) as [->|Nd]; [rewrite Ec; apply PU; [exact J|lia]|rewrite Ed by exact Nd; apply U, nth_In; lia].
    + apply nth_error_None in Ex. assert (nth_error rows' i <> None) by congruence. apply nth_error_Some in H0. lia.
Qed.
