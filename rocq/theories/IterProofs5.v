From Coq Require Import List Arith ZArith QArith Qabs Qminmax Qround Bool Lia Lqa Sorted Permutation.
From Verif Require Import Lib LoaderProofs QuantModel QuantSpec QuantProofs ConfRegModel ConfRegProofs ConfClassModel ConfClassProofs ConfClassProofs2 ConfClassSpec ConfClassProofs3 MultiModel MultiSpec MultiSpec3 MultiProofs MultiProofs2 MultiProofs3 MultiProofs4 MultiProofs5 MultiProofs8 OneShotModel OneShotSpec OneShotProofs OneShotProofs2 IterModel IterSpec IterProofs IterProofs2 IterProofs3 IterProofs4.
Import ListNotations.
Open Scope Q_scope.

(** ---- the documented losses as sums ---- *)
Lemma sq_sum : forall xs l, qsum (zip_with (fun x s => (x - nth 0 s 0) * (x - nth 0 s 0)) xs (map (fun y => [y]) l)) == sq_error xs l.
Proof.
  induction xs as [|x xs IH]; intros [|y l]; try reflexivity. cbn [map]. rewrite zip_cons. change (qsum (?a :: ?b)) with (a + qsum b). rewrite IH. cbn [nth sq_error]. lra.
Qed.
Lemma pinball_sum c : forall xs l, qsum (zip_with (fun x s => pinball1 c x (nth 0 s 0)) xs (map (fun y => [y]) l)) == pinball_error c xs l.
Proof.
  induction xs as [|x xs IH]; intros [|y l]; try reflexivity. cbn [map]. rewrite zip_cons. change (qsum (?a :: ?b)) with (a + qsum b). rewrite IH. cbn [nth pinball_error]. apply Qplus_comp; [|reflexivity].
  unfold pinball1. destruct (Qlt_le_dec x y) as [H|H].
  - rewrite (proj2 (Qltb_true _ _) H), (proj2 (Qleb_false _ _) H). cbn [of_bool]. ring.
  - rewrite (proj2 (Qltb_false _ _) H), (proj2 (Qleb_true _ _) H). cbn [of_bool]. ring.
Qed.
Lemma rows_sum : forall xs ss, qsum (zip_with sq_error xs ss) == rows_sq_error xs ss.
Proof. induction xs as [|x xs IH]; intros [|y l]; try reflexivity. rewrite zip_cons. change (qsum (?a :: ?b)) with (a + qsum b). rewrite IH. reflexivity. Qed.

Lemma loss_mc xs ss : length ss = length xs -> xs <> [] -> Forall (fun _ : Q => True) xs -> Forall (fun _ : list Q => True) ss ->
  0 < (fun _ : nat => 1) (length xs) /\ exists v, m_loss multicalibrator xs ss = Some v /\ v * (fun _ : nat => 1) (length xs) == qsum (zip_with (fun x s => (x - nth 0 s 0) * (x - nth 0 s 0)) xs ss).
Proof. intros _ _ _ _. split; [lra|]. eexists. split; [reflexivity|]. apply Qmult_1_r. Qed.
Lemma loss_mvp c xs ss : length ss = length xs -> xs <> [] -> Forall (fun _ : Q => True) xs -> Forall (fun _ : list Q => True) ss ->
  0 < inject_Z (Z.of_nat (length xs)) /\ exists v, m_loss (batch_mvp c) xs ss = Some v /\ v * inject_Z (Z.of_nat (length xs)) == qsum (zip_with (fun x s => pinball1 c x (nth 0 s 0)) xs ss).
Proof.
  intros L NE _ _. split; [destruct xs; [congruence|]; unfold Qlt; cbn; lia|]. cbn [m_loss batch_mvp]. unfold mvp_loss. set (z := zip_with _ xs ss).
  assert (LL : length z = length xs) by (unfold z; now rewrite zip_length). assert (O := omean_spec z). destruct (omean z) as [v|].
  - exists v. split; [reflexivity|]. rewrite <- LL. apply O.
  - rewrite O in LL. destruct xs; [congruence|discriminate].
Qed.
Lemma loss_top d xs ss : (0 < d)%nat -> length ss = length xs -> xs <> [] -> Forall (fun x : list Q => length x = d) xs -> Forall (fun x : list Q => length x = d) ss ->
  0 < inject_Z (Z.of_nat (length xs * d)) /\ exists v, m_loss top_label xs ss = Some v /\ v * inject_Z (Z.of_nat (length xs * d)) == qsum (zip_with sq_error xs ss).
Proof.
  intros D L NE F G. split; [destruct xs; [congruence|]; unfold Qlt; cbn; nia|]. destruct (documented_loss_top d xs ss F G L NE D) as (v & E & X). exists v. split; [exact E|]. rewrite X. symmetry. apply rows_sum.
Qed.
(** scores that are equal as numbers *)
Lemma sq_error_ext : forall xs l l', Forall2 Qeq l l' -> sq_error xs l == sq_error xs l'.
Proof. induction xs as [|x xs IH]; intros l l' F; [reflexivity|]. destruct F as [|y y' l l' E F]; [reflexivity|]. cbn [sq_error]. rewrite (IH l l' F), E. reflexivity. Qed.
Lemma rows_sq_ext : forall xs ss ss', Forall2 (Forall2 Qeq) ss ss' -> rows_sq_error xs ss == rows_sq_error xs ss'.
Proof. induction xs as [|x xs IH]; intros l l' F; [reflexivity|]. destruct F as [|y y' l l' E F]; [reflexivity|]. cbn [rows_sq_error]. rewrite (IH l l' F), (sq_error_ext x y y' E). reflexivity. Qed.
Lemma scores_same k l ss : scores_are k l ss -> Forall2 (Forall2 Qeq) ss (scores_of k l).
Proof.
  intros H. induction H as [|t s l ss [L H] _ IH]; [destruct k; constructor|].
  assert (X : forall (row : list Q), length row = width k -> (forall c, (c < width k)%nat -> nth c s 0 == nth c row 0) -> Forall2 Qeq s row).
  { intros row Lr E. clear IH. rewrite <- L in *. clear L H. revert row Lr E. induction s as [|x s IHs]; intros [|y row] Lr E; try discriminate Lr; constructor; [apply (E 0%nat); cbn; lia|].
    apply IHs; [now injection Lr|]. intros c Hc. apply (E (S c)). cbn. lia. }
  destruct k as [| |m]; cbn [scores_of map] in *; (constructor; [|exact IH]); apply X.
  - reflexivity. - intros [|c] Hc; cbn in Hc; [|lia]. apply (H 0%nat). cbn. lia.
  - reflexivity. - intros [|c] Hc; cbn in Hc; [|lia]. apply (H 0%nat). cbn. lia.
  - cbn. now rewrite map_length, seq_length.
  - intros c Hc. cbn in Hc. destruct (H c Hc) as [A B]. rewrite (nth_indep (map (fun i => of_bool (Qeq_bool t (inject_Z (Z.of_nat i)))) (seq 0 m)) 0 (of_bool (Qeq_bool t (inject_Z (Z.of_nat 0))))) by (now rewrite map_length, seq_length).
    rewrite (map_nth (fun i => of_bool (Qeq_bool t (inject_Z (Z.of_nat i))))). rewrite seq_nth by exact Hc. cbn [Nat.add]. destruct (Qeq_bool t (inject_Z (Z.of_nat c))) eqn:E.
    + apply Qeq_bool_iff in E. now rewrite (A E).
    + apply Qeq_bool_neq in E. now rewrite (B E).
Qed.
Lemma top_keeps cfg m k p row x : length x = m -> length (apply_patch1 top_label cfg k p row x) = m.
Proof. intros L. unfold apply_patch1. destruct (m_b top_label _ _ _ _); [|exact L]. cbn [m_set top_label]. unfold set_top. now rewrite set_nth_length. Qed.
Lemma clamp_keys w (ps : list (key * Q)) : (forall k p, In (k, p) ps -> (k_g k < w)%nat) -> map (clamp_key w) ps = ps.
Proof.
  induction ps as [|[k p] ps IH]; intros H; [reflexivity|]. cbn [map]. rewrite IH by (intros k' p' I; apply (H k' p'); now right). f_equal. unfold clamp_key. cbn [fst snd].
  specialize (H k p (or_introl eq_refl)). rewrite Nat.min_l by lia. now destruct k.
Qed.
Section Improves.
Variable rnd : random.
Hypothesis T : tame rnd.
Theorem improves f o a l ss st y : in_scope f a -> fine f a -> known_types a -> right_width f a -> aligned f a -> t_array (a_targets a) = Vec l -> scores_are (kind_of f) l ss ->
  Permutation (r_perm rnd (length l)) (seq 0 (length l)) -> fst (icalibrate rnd f o a) = Ok (st, y) ->
  let vs := init_values rnd f (a_values a) (length l) in
  exists out, iapply rnd f (snd (icalibrate rnd f o a)) (a_groups a) (Some vs) = Ok (Some out) /\ axes out = axes vs /\ points out = points vs /\
    total_loss f a l ss out <= total_loss f a l ss vs.
Proof.
  intros S F K R AL E SC Pm H vs. destruct (calibrate_fine rnd T f o a S F K R) as (l' & pt & taus & q & ps & E' & Ep & B & Ef & Er). rewrite E in E'. injection E' as <-.
  rewrite Er in *. cbn [fst snd] in *. destruct q as [st'|e]; [|discriminate]. clear H.
  assert (Z0 := start_shape rnd T f a l S F E). assert (GL : length (g_rows (start_groups a (length l))) = length l).
  { unfold start_groups. destruct AL as [A _]. rewrite E in A. destruct (a_groups a) as [g|]; [now apply A|]. cbn. now rewrite repeat_length. }
  assert (EV : start_values rnd f a (length l) = vs) by (unfold start_values, vs; now rewrite GL). rewrite EV in *.
  assert (PV : points vs = length l /\ of_width (kind_of f) vs).
  { unfold vs. destruct AL as [_ A]. rewrite E in A. destruct (a_values a) as [v|] eqn:Ev; [exact (A v eq_refl)|]. cbn [init_values].
    destruct f as [[| |m]|]; cbn; try (split; [now rewrite ?repeat_length, ?map_length, ?seq_length|exact I]). split; [now rewrite map_length, seq_length|].
    apply Forall_forall. intros x Hx. apply in_map_iff in Hx. destruct Hx as (i & <- & _). apply init_row_unit; [exact T|]. destruct F as (_ & _ & (l' & _ & X) & _). apply X. }
  destruct PV as [PV WV]. assert (N : (0 < length l)%nat). { destruct S as (S1 & _). now rewrite E in S1. }
  destruct (fit_object_sets rnd _ _ _ _ _ _ _ _ _ Ef) as (_ & _ & KS). assert (SS := scores_same _ _ _ SC).
  assert (CK : map (clamp_key (g_width (start_groups a (length l)))) ps = ps) by (apply clamp_keys; intros k p I; now apply (KS k p)).
  destruct (match ps with [] => true | _ => false end) eqn:NP.
  { destruct ps; [|discriminate]. exists vs. split; [now destruct (a_groups a)|]. split; [reflexivity|]. split; [reflexivity|apply Qle_refl]. }
  assert (IA : forall w, w = start_groups a (length l) -> iapply rnd f (finished f o a ps) (a_groups a) (Some vs) =
    match f, vs with
    | Mc (TopLabel _), Mat rows => Ok (Some (Mat (replay top_label (object_config (a_n a) pt (a_eta a)) ps (g_rows w) rows)))
    | Mc (TopLabel _), Vec _ => Err TypeError
    | Mc _, Vec xs => Ok (Some (Vec (replay multicalibrator (object_config (a_n a) pt (a_eta a)) ps (g_rows w) xs)))
    | Mvp, Vec xs => Ok (Some (Vec (replay (batch_mvp 0) (object_config (a_n a) pt (a_eta a)) ps (g_rows w) xs)))
    | _, _ => Err TypeError
    end).
  { intros w ->. unfold iapply. cbn [i_patches i_n i_ptype i_eta finished with_patches with_args with_n]. rewrite Ep.
    destruct (vals_cases f vs None) as [(E4 & _)|(E4 & X)]; [intros ->; apply Z0| |exfalso; apply X; split; [exact Z0|discriminate]].
    assert (E5 : init_groups (a_groups a) (match vs with Vec l0 => length l0 | Mat rows => length rows end) = start_groups a (length l)).
    { unfold start_groups. destruct (a_groups a); [reflexivity|]. f_equal. rewrite <- PV. now destruct vs. }
    destruct (groups_cases (start_groups a (length l)) None) as [(E6 & _)|(_ & X)].
    2: { exfalso. apply X. split; [|discriminate]. destruct F as (_ & _ & _ & G & _). unfold start_groups. destruct (a_groups a); [apply G; now left|apply default_proper]. }
    destruct ps as [|p0 ps0]; [discriminate|]. cbn [init_values].
    assert (ML : forall {A} (xs : list A), length xs = length l -> meet_rows (g_rows (start_groups a (length l))) xs = Ok (g_rows (start_groups a (length l)))).
    { intros A xs Lx. unfold meet_rows. now rewrite GL, Lx, Nat.eqb_refl. }
    destruct (a_groups a) as [g|] eqn:Eg; rewrite E4; cbn [bind]; rewrite E5, E6; cbn [bind]; rewrite CK;
      destruct f as [[| |m]|], vs as [xs|rows]; try reflexivity; cbn [points] in PV; rewrite ML by exact PV; reflexivity. }
  clear NP. assert (GEN : exists out, match f, vs with
    | Mc (TopLabel _), Mat rows => Mat (replay top_label (object_config (a_n a) pt (a_eta a)) ps (g_rows (start_groups a (length l))) rows) = out
    | Mc (TopLabel _), Vec _ => False
    | Mc _, Vec xs => Vec (replay multicalibrator (object_config (a_n a) pt (a_eta a)) ps (g_rows (start_groups a (length l))) xs) = out
    | Mvp, Vec xs => Vec (replay (batch_mvp 0) (object_config (a_n a) pt (a_eta a)) ps (g_rows (start_groups a (length l))) xs) = out
    | _, _ => False end /\ axes out = axes vs /\ points out = points vs /\ total_loss f a l ss out <= total_loss f a l ss vs).
  { destruct Z0 as [Z0 _]. revert Ef. unfold fit_object.
    assert (SQ : forall k, k = Plain \/ k = Binary -> scores_are k l ss -> forall xs, squared_error (Vec xs) ss == sq_error xs l).
    { intros k Hk Sk xs. cbn [squared_error]. apply sq_error_ext. apply scores_same in Sk. destruct Hk as [-> | ->]; cbn [scores_of] in Sk; clear - Sk;
        remember (map (fun y => [y]) l) as z eqn:Ez; revert l Ez; induction Sk as [|s t ss z Hst _ IH]; intros [|y l] Ez; try discriminate Ez; constructor; injection Ez as -> ->;
        [inversion Hst; subst; assumption|now apply IH|inversion Hst; subst; assumption|now apply IH]. }
    destruct f as [[| |m]|], vs as [xs|rows]; try discriminate; cbn [kind_of] in *; cbn [points] in PV; intros Ef.
    - apply some_inj in Ef. eexists. split; [reflexivity|]. split; [reflexivity|]. split; [cbn; rewrite replay_length; congruence|]. cbn [total_loss]. rewrite !(SQ Plain) by auto. rewrite <- !sq_sum.
      eapply (fit_improves rnd multicalibrator _ 0 (fun x s => (x - nth 0 s 0) * (x - nth 0 s 0)) (fun _ => True) (fun _ => True) (fun _ => 1)) in Ef;
        [exact Ef|apply loss_mc|auto| | | | | |]; cbn [scores_of]; rewrite ?map_length; try assumption; apply Forall_forall; auto.
    - apply some_inj in Ef. eexists. split; [reflexivity|]. split; [reflexivity|]. split; [cbn; rewrite replay_length; congruence|]. cbn [total_loss]. rewrite !(SQ Binary) by auto. rewrite <- !sq_sum.
      eapply (fit_improves rnd multicalibrator _ 0 (fun x s => (x - nth 0 s 0) * (x - nth 0 s 0)) (fun _ => True) (fun _ => True) (fun _ => 1)) in Ef;
        [exact Ef|apply loss_mc|auto| | | | | |]; cbn [scores_of]; rewrite ?map_length; try assumption; apply Forall_forall; auto.
    - destruct (length (hd [] rows) =? m)%nat; [|discriminate]. apply some_inj in Ef. eexists. split; [reflexivity|]. split; [reflexivity|]. split; [cbn; rewrite replay_length; congruence|]. cbn [total_loss squared_error].
      rewrite !(rows_sq_ext _ _ _ SS), <- !rows_sum. assert (M : (0 < m)%nat) by (destruct F as (_ & _ & (l' & _ & X) & _); apply X).
      eapply (fit_improves rnd top_label _ [] sq_error (fun x => length x = m) (fun x => length x = m) (fun n => inject_Z (Z.of_nat (n * m)))) in Ef;
        [exact Ef|intros; now apply loss_top|intros; now apply top_keeps| | | | | |]; rewrite ?scores_of_length; try assumption.
      apply Forall_forall. intros s Hs. cbn [scores_of] in Hs. apply in_map_iff in Hs. destruct Hs as (y0 & <- & _). now rewrite map_length, seq_length.
    - apply some_inj in Ef. eexists. split; [reflexivity|]. split; [reflexivity|]. split; [cbn; rewrite replay_length; congruence|]. cbn [total_loss]. rewrite <- !pinball_sum.
      eapply (fit_improves rnd (batch_mvp (a_coverage a)) _ 0 (fun x s => pinball1 (a_coverage a) x (nth 0 s 0)) (fun _ => True) (fun _ => True) (fun n => inject_Z (Z.of_nat n))) in Ef;
        [exact Ef|apply loss_mvp|auto| | | | | |]; cbn [scores_of]; rewrite ?map_length; try assumption; apply Forall_forall; auto. }
  destruct GEN as (out & G & X). exists out. split; [|exact X]. rewrite (IA _ eq_refl).
  destruct f as [[| |m]|], vs as [xs|rows]; try contradiction; now rewrite G.
Qed.
End Improves.
