From Coq Require Import List Arith Bool ZArith Reals Lra Lia Psatz.
From Verif Require Import Lib TempModel TempSpec PredSpec LapModel LapSpec LapProofs2 SngpModel SngpSpec SngpProofs SngpProofs2 ProbitModel ProbitSpec ProbitProofs.
Import ListNotations.
Open Scope R_scope.

Lemma inverse_ext n X X' Y : (forall i j, (i < n)%nat -> (j < n)%nat -> X i j = X' i j) -> inverse_of n X Y -> inverse_of n X' Y.
Proof. intros E H i j Hi Hj. rewrite <- (H i j Hi Hj). apply rover_ext. intros k Hk. now rewrite E. Qed.
Lemma inverse_ext_r n X Y Y' : (forall i j, (i < n)%nat -> (j < n)%nat -> Y i j = Y' i j) -> inverse_of n X Y -> inverse_of n X Y'.
Proof. intros E H i j Hi Hj. rewrite <- (H i j Hi Hj). apply rover_ext. intros k Hk. now rewrite E. Qed.
Lemma independent_prefix np m n rows c : (m <= n)%nat -> independent np n rows c -> independent np m rows c.
Proof.
  intros Hm [Pc H]. split; [exact Pc|]. intros v. set (u l := if (l <? m)%nat then v l else 0). specialize (H u).
  assert (A : forall l, (l < m)%nat -> u l = v l) by (intros l Hl; unfold u; apply Nat.ltb_lt in Hl; now rewrite Hl).
  assert (Z : forall l, (m <= l)%nat -> u l = 0) by (intros l Hl; unfold u; apply Nat.ltb_ge in Hl; now rewrite Hl).
  assert (E : forall p, combination n rows u p = combination m rows v p).
  { intros p. unfold combination. rewrite (rover_trunc n m); [apply rover_ext; intros l Hl; now rewrite A|exact Hm|]. intros i Hi. rewrite Z by lia. ring. }
  rewrite (inner_ext np _ _ (combination m rows v) (combination m rows v)) in H by (intros; apply E).
  replace (inner m v v) with (inner n u u); [exact H|]. unfold inner. rewrite (rover_trunc n m); [apply rover_ext; intros l Hl; now rewrite A|exact Hm|]. intros i Hi. rewrite Z by lia. ring.
Qed.
Lemma independent_ext np n rows rows' c : (forall l p, (l < n)%nat -> rows l p = rows' l p) -> independent np n rows c -> independent np n rows' c.
Proof.
  intros E [Pc H]. split; [exact Pc|]. intros v. specialize (H v).
  rewrite (inner_ext np _ _ (combination n rows' v) (combination n rows' v)) in H; [exact H| |]; intros p _; apply rover_ext; intros l Hl; now rewrite E.
Qed.
Lemma distance_ext np n rows rows' g s : (forall l p, (l < n)%nat -> rows l p = rows' l p) -> squared_distance np n rows g s -> squared_distance np n rows' g s.
Proof.
  intros E [[w Hw] H]. assert (Q : forall v, inner np (residual n rows g v) (residual n rows g v) = inner np (residual n rows' g v) (residual n rows' g v)).
  { intros v. apply inner_ext; intros p _; unfold residual, combination; f_equal; apply rover_ext; intros l Hl; now rewrite E. }
  split; [exists w; now rewrite <- Q|]. intros v. rewrite <- Q. apply H.
Qed.

Section Seq.
Variables np B mem init : nat.
Variable G : nat -> nat -> nat -> R.
Variable K : nat -> nat -> nat -> nat -> R.
Variable inv : (nat -> nat -> R) -> nat -> nat -> R.
Hypothesis HB : (1 <= B)%nat.
Hypothesis Hinv : inverts B inv.
Hypothesis HK : forall t s a b, (init <= t)%nat -> (init <= s)%nat -> (a < B)%nat -> (b < B)%nat -> K t s a b = inner np (G t a) (G s b).
Let rows := token_rows B init G.
Let Gr l l' := inner np (rows l) (rows l').
Variable c : R.
Hypothesis Hc : independent np (mem * B) rows c.

Lemma rows_new k a : (a < B)%nat -> rows (k * B + a) = G (init + k) a.
Proof.
  intros Ha. unfold rows, token_rows. rewrite Nat.div_add_l by lia. rewrite (Nat.div_small a B) by exact Ha.
  replace ((k * B + a) mod B)%nat with a by (rewrite (Nat.add_comm (k * B) a), Nat.mod_add by lia; now rewrite Nat.mod_small). now rewrite Nat.add_0_r.
Qed.
Lemma rows_appended k l : (l < k * B + B)%nat -> rows l = appended (k * B) rows (fun a => G (init + k) a) l.
Proof.
  intros Hl. unfold appended. destruct (Nat.ltb_spec l (k * B)) as [H|H]; [reflexivity|].
  rewrite <- (rows_new k (l - k * B)) by lia. f_equal. lia.
Qed.

Definition seq_inv (k : nat) (carry : (nat -> nat -> R) * list nat) : Prop :=
  exists p, (p + k = mem)%nat /\ snd carry = (repeat 0%nat p ++ seq init k)%list /\
  (forall l l', (l < p * B)%nat \/ (l' < p * B)%nat -> fst carry l l' = 0) /\
  inverse_of (k * B) Gr (fun l l' => fst carry (p * B + l)%nat (p * B + l')%nat) /\
  symmetric (k * B) (fun l l' => fst carry (p * B + l)%nat (p * B + l')%nat).

Section Step.
Variables (k p : nat) (Jinv : nat -> nat -> R).
Hypothesis Hp : (p + k = mem)%nat.
Hypothesis Hk : (k < mem)%nat.
Hypothesis Hz : forall l l', (l < p * B)%nat \/ (l' < p * B)%nat -> Jinv l l' = 0.
Let X l l' := Jinv (p * B + l)%nat (p * B + l')%nat.
Hypothesis HX : inverse_of (k * B) Gr X.
Hypothesis SX : symmetric (k * B) X.
Let tau := (init + k)%nat.
Let old := (repeat 0%nat p ++ seq init k)%list.
Let P := compute_P B K tau old.
Let g a := G tau a.
Lemma P_hi a l : (a < B)%nat -> (l < k * B)%nat -> P a (p * B + l)%nat = inner np (rows l) (g a).
Proof.
  intros Ha Hl. unfold P, compute_P. rewrite Nat.div_add_l by lia.
  assert (L : (l / B < k)%nat) by (apply Nat.div_lt_upper_bound; lia).
  unfold old. rewrite app_nth2 by (rewrite repeat_length; lia). rewrite repeat_length. replace (p + l / B - p)%nat with (l / B)%nat by lia.
  rewrite seq_nth by exact L. rewrite HK; [|unfold tau; lia|lia|exact Ha|apply Nat.mod_upper_bound; lia].
  rewrite inner_comm. replace ((p * B + l) mod B)%nat with (l mod B)%nat by (rewrite Nat.add_comm, Nat.mod_add by lia; reflexivity). reflexivity.
Qed.
Lemma mem_split : (mem * B = p * B + k * B)%nat. Proof. nia. Qed.
Lemma M_lo a j : (j < p * B)%nat -> seq_M B mem Jinv P a j = 0.
Proof. intros Hj. unfold seq_M. rewrite isum_rover. apply rover_const0. intros l _. rewrite Hz by (now right). ring. Qed.
Lemma M_hi a j : (a < B)%nat -> (j < k * B)%nat -> seq_M B mem Jinv P a (p * B + j)%nat = schur_M np (k * B) rows g X a j.
Proof.
  intros Ha Hj. unfold seq_M. rewrite isum_rover, mem_split, rover_app, rover_const0.
  - unfold schur_M. rewrite Rplus_0_l. apply rover_ext. intros l Hl. rewrite P_hi by assumption. reflexivity.
  - intros l Hl. rewrite Hz by (now left). ring.
Qed.
Lemma C_eq a b : (a < B)%nat -> (b < B)%nat -> seq_C B mem K tau Jinv P a b = schur_C np (k * B) rows g X a b.
Proof.
  intros Ha Hb. unfold seq_C, schur_C. rewrite HK by (unfold tau; lia). f_equal. rewrite isum_rover, mem_split, rover_app, rover_const0.
  - rewrite Rplus_0_l. apply rover_ext. intros j Hj. rewrite M_hi, P_hi by assumption. reflexivity.
  - intros l Hl. rewrite M_lo by exact Hl. ring.
Qed.
Lemma Hc' : independent np (k * B + B) (appended (k * B) rows g) c.
Proof.
  apply (independent_ext np _ rows).
  - intros l q Hl. unfold g, tau. now rewrite <- rows_appended.
  - apply (independent_prefix np _ (mem * B)); [nia|exact Hc].
Qed.
Lemma step_distance a : (a < B)%nat -> squared_distance np (k * B) rows (G tau a) (seq_C B mem K tau Jinv P a a).
Proof. intros Ha. rewrite C_eq by assumption. apply (schur_distance np (k * B) rows g X HX SX). Qed.
Let Cinv := inv (seq_C B mem K tau Jinv P).
Lemma HCinv : inverse_of B (schur_C np (k * B) rows g X) Cinv.
Proof.
  apply (inverse_ext B (seq_C B mem K tau Jinv P)); [exact C_eq|]. apply Hinv.
  destruct (C_invertible np (k * B) B rows g X HX SX c Hc') as [Y HY]. exists Y. apply (inverse_ext B _ _ _ (fun i j Hi Hj => eq_sym (C_eq i j Hi Hj)) HY).
Qed.
Lemma T_hi j a : (j < k * B)%nat -> isum B (fun b => seq_M B mem Jinv P b (p * B + j)%nat * Cinv b a) = schur_T np (k * B) B rows g X Cinv j a.
Proof. intros Hj. rewrite isum_rover. unfold schur_T. apply rover_ext. intros b Hb. now rewrite M_hi. Qed.
Lemma T_lo j a : (j < p * B)%nat -> isum B (fun b => seq_M B mem Jinv P b j * Cinv b a) = 0.
Proof. intros Hj. rewrite isum_rover. apply rover_const0. intros b Hb. rewrite M_lo by exact Hj. ring. Qed.
Let J' := seq_Jinv B mem K inv tau Jinv P.
Lemma p_pos : (1 <= p)%nat. Proof. lia. Qed.
Lemma J_lo l l' : (l < (p - 1) * B)%nat \/ (l' < (p - 1) * B)%nat -> J' l l' = 0.
Proof.
  intros H. pose proof p_pos as Pp. assert (Q : (mem * B - B = (p - 1) * B + k * B)%nat) by nia.
  assert (D : forall x, (x < (p - 1) * B)%nat -> (B + x < p * B)%nat) by (intros; nia).
  unfold J', seq_Jinv. fold Cinv. rewrite Q.
  destruct H as [H|H].
  - replace (l <? _)%nat with true by (symmetry; apply Nat.ltb_lt; lia). destruct (l' <? _)%nat.
    + rewrite Hz by (left; now apply D). rewrite isum_rover, rover_const0; [ring|]. intros a _. rewrite T_lo by now apply D. ring.
    + rewrite T_lo by now apply D. ring.
  - replace (l' <? _)%nat with true by (symmetry; apply Nat.ltb_lt; lia). destruct (l <? _)%nat.
    + rewrite Hz by (right; now apply D). rewrite isum_rover, rover_const0; [ring|]. intros a _. rewrite (M_lo a (B + l')) by now apply D. ring.
    + rewrite T_lo by now apply D. ring.
Qed.
Lemma J_hi l l' : (l < k * B + B)%nat -> (l' < k * B + B)%nat -> J' ((p - 1) * B + l)%nat ((p - 1) * B + l')%nat = schur_X np (k * B) B rows g X Cinv l l'.
Proof.
  intros Hl Hl'. pose proof p_pos as Pp. assert (Q : (mem * B - B = (p - 1) * B + k * B)%nat) by nia.
  assert (D : forall x, (B + ((p - 1) * B + x) = p * B + x)%nat) by (intros; nia).
  unfold J', seq_Jinv, schur_X. fold Cinv. rewrite Q, !D.
  replace ((p - 1) * B + l <? (p - 1) * B + k * B)%nat with (l <? k * B)%nat by (destruct (Nat.ltb_spec l (k * B)), (Nat.ltb_spec ((p - 1) * B + l) ((p - 1) * B + k * B)); try reflexivity; lia).
  replace ((p - 1) * B + l' <? (p - 1) * B + k * B)%nat with (l' <? k * B)%nat by (destruct (Nat.ltb_spec l' (k * B)), (Nat.ltb_spec ((p - 1) * B + l') ((p - 1) * B + k * B)); try reflexivity; lia).
  destruct (Nat.ltb_spec l (k * B)) as [L|L], (Nat.ltb_spec l' (k * B)) as [L'|L'].
  - unfold X. f_equal. rewrite isum_rover. apply rover_ext. intros a Ha. rewrite T_hi, M_hi by assumption. reflexivity.
  - rewrite T_hi by assumption. do 2 f_equal. lia.
  - rewrite T_hi by assumption. do 2 f_equal. lia.
  - f_equal; lia.
Qed.
End Step.

Lemma step_inv k Jinv old : (k < mem)%nat -> seq_inv k (Jinv, old) ->
  seq_inv (S k) (fst (seq_step B mem K inv (Jinv, old) (init + k))) /\
  forall a, (a < B)%nat -> squared_distance np (k * B) rows (G (init + k) a) (snd (seq_step B mem K inv (Jinv, old) (init + k)) a).
Proof.
  intros Hk (p & Hp & Ho & Hz & HX & SX). cbn [fst snd] in *. subst old.
  assert (Pp : (1 <= p)%nat) by lia.
  split.
  - exists (p - 1)%nat. split; [lia|]. unfold seq_step. cbn [fst snd]. split; [|split; [|split]].
    + destruct p as [|p]; [lia|]. cbn [repeat]. replace (S p - 1)%nat with p by lia. change ((0%nat :: repeat 0%nat p) ++ seq init k)%list with (0%nat :: (repeat 0%nat p ++ seq init k))%list.
      cbn [tl]. rewrite seq_S, app_assoc. reflexivity.
    + intros l l' H. apply (J_lo k p Jinv Hp Hk Hz). exact H.
    + replace (S k * B)%nat with (k * B + B)%nat by lia.
      eapply inverse_ext; [|eapply inverse_ext_r; [intros i j Hi Hj; symmetry; apply (J_hi k p Jinv Hp Hk Hz); assumption|]].
      2:{ apply (schur_inverse np (k * B) B rows (fun a => G (init + k) a) _ HX SX). apply (HCinv k p Jinv Hp Hk Hz HX SX). }
      intros i j Hi Hj. unfold Gr. now rewrite !rows_appended with (k := k) by assumption.
    + replace (S k * B)%nat with (k * B + B)%nat by lia. intros l l' Hl Hl'. rewrite !(J_hi k p Jinv Hp Hk Hz) by assumption.
      apply (X_sym np (k * B) B rows (fun a => G (init + k) a) _ HX SX _ (HCinv k p Jinv Hp Hk Hz HX SX)); assumption.
  - intros a Ha. unfold seq_step. cbn [fst snd]. apply (step_distance k p Jinv Hp Hk Hz HX SX a Ha).
Qed.
Lemma scan_spec m : forall k carry, seq_inv k carry -> (k + m <= mem)%nat -> forall i a, (i < m)%nat -> (a < B)%nat ->
  length (scan B mem K inv carry (seq (init + k) m)) = m /\
  squared_distance np ((k + i) * B) rows (G (init + k + i) a) (nth i (scan B mem K inv carry (seq (init + k) m)) (fun _ => 0) a).
Proof.
  induction m as [|m IH]; intros k [Jinv old] HI Hm i a Hi Ha; [lia|]. cbn [seq scan].
  destruct (step_inv k Jinv old ltac:(lia) HI) as [HI' HD]. destruct (seq_step B mem K inv (Jinv, old) (init + k)) as [carry' d]. cbn [fst snd] in *.
  split.
  - cbn [length]. f_equal. destruct m as [|m]; [reflexivity|]. replace (S (init + k)) with (init + S k)%nat by lia. apply (IH (S k) carry' HI' ltac:(lia) 0%nat a); lia.
  - destruct i as [|i]; [rewrite !Nat.add_0_r; exact (HD a Ha)|]. cbn [nth]. replace (S (init + k)) with (init + S k)%nat by lia.
    replace (k + S i)%nat with (S k + i)%nat by lia. replace (init + k + S i)%nat with (init + S k + i)%nat by lia. apply (IH (S k) carry' HI'); lia.
Qed.
Definition init_carry : (nat -> nat -> R) * list nat :=
  (fun l k => if ((((mem - 1) * B) <=? l) && (((mem - 1) * B) <=? k))%nat then inv (K init init) (l - (mem - 1) * B)%nat (k - (mem - 1) * B)%nat else 0,
   (repeat 0%nat (mem - 1) ++ [init])%list).
Lemma init_inv : (1 <= mem)%nat -> seq_inv 1 init_carry.
Proof.
  intros Hm. set (g a := G init a).
  assert (E0 : inverse_of 0 (fun l l' => inner np (rows l) (rows l')) (fun _ _ => 0)) by (intros i j Hi; lia).
  assert (S0 : symmetric 0 (fun _ _ => 0)) by (intros i j Hi; lia).
  assert (CE : forall a b, (a < B)%nat -> (b < B)%nat -> schur_C np 0 rows g (fun _ _ => 0) a b = K init init a b).
  { intros a b Ha Hb. unfold schur_C. rewrite rover_0, HK by lia. unfold g. ring. }
  assert (IC : inverse_of B (K init init) (inv (K init init))).
  { apply Hinv. destruct (C_invertible np 0 B rows g (fun _ _ => 0) E0 S0 c) as [Y HY].
    - apply (independent_ext np _ rows); [|apply (independent_prefix np _ (mem * B)); [nia|exact Hc]].
      intros l q Hl. unfold appended. cbn [Nat.ltb Nat.leb]. rewrite Nat.sub_0_r. pose proof (rows_new 0 l Hl) as Rl. cbn [Nat.mul Nat.add] in Rl. rewrite Nat.add_0_r in Rl. now rewrite Rl.
    - exists Y. exact (inverse_ext B _ _ _ CE HY). }
  exists (mem - 1)%nat. split; [lia|]. cbn [fst snd init_carry]. unfold init_carry. cbn [fst snd].
  assert (HH : forall l l', ((if (((mem - 1) * B <=? (mem - 1) * B + l) && ((mem - 1) * B <=? (mem - 1) * B + l'))%nat then
     inv (K init init) ((mem - 1) * B + l - (mem - 1) * B)%nat ((mem - 1) * B + l' - (mem - 1) * B)%nat else 0) = inv (K init init) l l')).
  { intros l l'. replace ((mem - 1) * B <=? (mem - 1) * B + l)%nat with true by (symmetry; apply Nat.leb_le; lia). replace ((mem - 1) * B <=? (mem - 1) * B + l')%nat with true by (symmetry; apply Nat.leb_le; lia). cbn [andb]. f_equal; lia. }
  split; [reflexivity|]. split; [|split].
  - intros l l' H. destruct (Nat.leb_spec ((mem - 1) * B) l), (Nat.leb_spec ((mem - 1) * B) l'); cbn [andb]; try reflexivity. lia.
  - rewrite Nat.mul_1_l. eapply inverse_ext_r; [intros i j _ _; symmetry; apply HH|]. eapply inverse_ext; [|exact IC].
    intros a b Ha Hb. unfold Gr. pose proof (rows_new 0 a Ha) as Ra. pose proof (rows_new 0 b Hb) as Rb. cbn [Nat.mul Nat.add] in Ra, Rb. rewrite Nat.add_0_r in Ra, Rb. rewrite Ra, Rb. apply HK; lia.
  - rewrite Nat.mul_1_l. intros l l' Hl Hl'. rewrite !HH. apply (inverse_symmetric B (K init init)); [|exact IC|exact Hl|exact Hl'].
    intros a b Ha Hb. rewrite !HK by lia. apply inner_comm.
Qed.
End Seq.

Theorem sequential_scales : forall np B seq_length n_final G K inv c, (1 <= B)%nat -> (1 <= n_final <= seq_length)%nat -> inverts B inv ->
  let init := (seq_length - n_final + 1)%nat in
  (forall t s a b, (init <= t)%nat -> (init <= s)%nat -> (a < B)%nat -> (b < B)%nat -> K t s a b = inner np (G t a) (G s b)) ->
  independent np (n_final * B) (token_rows B init G) c ->
  length (diag_Cs B n_final K inv seq_length n_final) = n_final /\
  forall i a, (i < n_final)%nat -> (a < B)%nat ->
  squared_distance np (i * B) (token_rows B init G) (G (init + i)%nat a) (nth i (diag_Cs B n_final K inv seq_length n_final) (fun _ => 0) a).
Proof.
  intros np B sl nf G K inv c HB Hn Hinv init HK Hc.
  pose proof (init_inv np B nf init G K inv HB Hinv HK c Hc ltac:(lia)) as HI. set (carry := init_carry B nf init K inv) in HI.
  assert (E : (sl - init = nf - 1)%nat) by (unfold init; lia).
  assert (F : diag_Cs B nf K inv sl nf = (fun a => K init init a a) :: scan B nf K inv carry (seq (init + 1) (nf - 1))).
  { unfold diag_Cs. fold init. rewrite E. destruct (Nat.ltb_spec 1 nf); [reflexivity|]. replace (nf - 1)%nat with 0%nat by lia. reflexivity. }
  rewrite F. split.
  - cbn [length]. destruct (Nat.eq_dec nf 1) as [->|N1]; [reflexivity|].
    destruct (scan_spec np B nf init G K inv HB Hinv HK c Hc (nf - 1) 1 carry HI ltac:(lia) 0%nat 0%nat ltac:(lia) ltac:(lia)) as [L _]. rewrite L. lia.
  - intros i a Hi Ha. destruct i as [|i].
    + cbn [nth]. rewrite Nat.add_0_r, Nat.mul_0_l. rewrite HK by lia. split; [exists (fun _ => 0)|intros v; apply Req_le]; apply inner_ext; intros p _; unfold residual, combination; rewrite rover_0; ring.
    + cbn [nth]. destruct (scan_spec np B nf init G K inv HB Hinv HK c Hc (nf - 1) 1 carry HI ltac:(lia) i a ltac:(lia) Ha) as [_ D].
      replace (init + S i)%nat with (init + 1 + i)%nat by lia. exact D.
Qed.
