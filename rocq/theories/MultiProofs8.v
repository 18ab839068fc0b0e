(** The losses that multicalibration reports. *)
From Coq Require Import List Arith ZArith QArith Bool Lia Lqa.
From Verif Require Import Lib QuantModel QuantSpec QuantProofs ConfRegModel ConfClassModel MultiModel MultiSpec MultiProofs MultiProofs2 MultiProofs3 MultiProofs5 MultiSpec3.
Import ListNotations.
Open Scope Q_scope.

Section Losses.
Context {V : Type} (m : method V) (cfg : config) (groups vgroups : list (list bool)) (scores vscores : list (list Q)) (values val_values : list V).
Definition loss_after (ps : list (key * Q)) : option Q := m_loss m (replay m cfg ps vgroups val_values) vscores.
Definition all_losses (s : lstate V) : Prop :=
  l_val_values s = replay m cfg (l_patches s) vgroups val_values /\
  rev (l_losses s) = map (fun i => loss_after (firstn i (l_patches s))) (seq 0 (S (length (l_patches s)))).
Definition final_losses (s : lstate V) : Prop :=
  let known := map (fun i => loss_after (firstn i (l_patches s))) (seq 0 (S (length (l_patches s)))) in
  rev (l_losses s) = known \/ rev (l_losses s) = known ++ [m_loss m (l_val_values s) vscores].
Lemma known_snoc : forall ps kp, map (fun i => loss_after (firstn i (ps ++ [kp]))) (seq 0 (S (length (ps ++ [kp]))))
  = map (fun i => loss_after (firstn i ps)) (seq 0 (S (length ps))) ++ [loss_after (ps ++ [kp])].
Proof.
  intros ps kp. rewrite app_length. cbn [length]. replace (S (length ps + 1))%nat with (S (length ps) + 1)%nat by lia. rewrite seq_app, map_app. f_equal.
  - apply map_ext_in. intros i Hi. apply in_seq in Hi. rewrite firstn_app. replace (i - length ps)%nat with 0%nat by lia. cbn [firstn]. rewrite app_nil_r. reflexivity.
  - cbn [seq map]. rewrite firstn_all2; [reflexivity|]. rewrite app_length. cbn. lia.
Qed.
Lemma round_losses : forall s, all_losses s ->
  match round m cfg groups vgroups scores vscores s with Continue s' => all_losses s' | Break s' => final_losses s' | _ => True end.
Proof.
  intros s [IV IL]. unfold round. destruct (choose m cfg groups scores (l_values s)) as [k|]; [|left; exact IL].
  destruct (patch_for m cfg groups scores (l_values s) k) as [[p|]|]; try exact I. cbv zeta.
  remember (m_loss m (apply_one m cfg vgroups (l_val_values s) (k, p)) vscores) as vl eqn:EV.
  assert (STOP : forall st, l_losses st = vl :: l_losses s -> l_patches st = l_patches s -> l_val_values st = apply_one m cfg vgroups (l_val_values s) (k, p) -> final_losses st).
  { intros st A B C. right. rewrite A, B, C. cbn [rev]. rewrite IL, EV. reflexivity. }
  assert (GO : forall st, l_losses st = vl :: l_losses s -> l_patches st = l_patches s ++ [(k, p)] -> l_val_values st = apply_one m cfg vgroups (l_val_values s) (k, p) -> all_losses st).
  { intros st A B C. assert (C2 : l_val_values st = replay m cfg (l_patches st) vgroups val_values) by (rewrite C, B, IV; unfold replay; rewrite fold_left_app; reflexivity).
    split; [exact C2|]. rewrite A, B, known_snoc. cbn [rev]. rewrite IL. f_equal. unfold loss_after. rewrite <- B, <- C2, C, EV. reflexivity. }
  clear EV.
  repeat match goal with
  | |- context [if ?c then _ else _] => destruct c
  | |- context [match hd None (l_losses s) with _ => _ end] => destruct (hd None (l_losses s))
  | |- context [match vl with _ => _ end] => destruct vl
  end; first [exact I|apply STOP; reflexivity|apply GO; reflexivity].
Qed.
Lemma rounds_losses : forall n s, all_losses s -> match rounds m cfg n groups vgroups scores vscores s with Break s' => final_losses s' | _ => True end.
Proof.
  induction n as [|n IH]; intros s H; cbn [rounds]; [left; exact (proj2 H)|].
  pose proof (round_losses s H) as R. destruct (round m cfg groups vgroups scores vscores s); try exact I; [apply IH, R|exact R].
Qed.
End Losses.

Theorem losses_of_patches : forall V (m : method V) cfg n groups vgroups scores vscores values val_values s,
  run m cfg n groups vgroups scores vscores values val_values = Break s ->
  let losses := st_losses (status_of s) in
  (forall i, (i <= length (l_patches s))%nat -> nth_error losses i = Some (m_loss m (apply_patches m cfg (firstn i (l_patches s)) vgroups val_values) vscores)) /\
  (forall v, nth_error losses (S (length (l_patches s))) = Some v -> v = m_loss m (l_val_values s) vscores).
Proof.
  intros V m cfg n groups vgroups scores vscores values val_values s R losses.
  pose proof (rounds_losses m cfg groups vgroups scores vscores val_values n (start m groups vgroups scores vscores values val_values) (conj eq_refl eq_refl)) as Z.
  unfold run in R. rewrite R in Z. unfold losses, status_of. cbn [st_losses].
  assert (A : forall i, (i <= length (l_patches s))%nat -> nth_error (map (fun i => loss_after m cfg vgroups vscores val_values (firstn i (l_patches s))) (seq 0 (S (length (l_patches s))))) i
     = Some (m_loss m (apply_patches m cfg (firstn i (l_patches s)) vgroups val_values) vscores)).
  { intros i Hi. erewrite map_nth_error; [reflexivity|]. rewrite (nth_error_nth' _ 0%nat) by (rewrite seq_length; lia). rewrite seq_nth by lia. reflexivity. }
  destruct Z as [Z|Z]; rewrite Z; split.
  - exact A.
  - intros v Hv. (assert (X : nth_error (map (fun i => loss_after m cfg vgroups vscores val_values (firstn i (l_patches s))) (seq 0 (S (length (l_patches s))))) (S (length (l_patches s))) = None) by (apply nth_error_None; rewrite map_length, seq_length; lia); rewrite X in Hv; discriminate Hv).
  - intros i Hi. rewrite nth_error_app1 by (rewrite map_length, seq_length; lia). apply A, Hi.
  - intros v Hv. rewrite nth_error_app2 in Hv by (rewrite map_length, seq_length; lia). rewrite map_length, seq_length, Nat.sub_diag in Hv. injection Hv as <-. reflexivity.
Qed.

Lemma omean_spec : forall l, match omean l with None => l = [] | Some v => l <> [] /\ v * inject_Z (Z.of_nat (length l)) == qsum l end.
Proof.
  intros [|x l]; [reflexivity|]. unfold omean. split; [discriminate|]. unfold qmean, qlen. field.
  intros E. pose proof (nQ_pos (x :: l) ltac:(discriminate)) as H. rewrite E in H. exact (Qlt_irrefl _ H).
Qed.
Theorem documented_losses : forall coverage xs ss,
  (exists v, m_loss multicalibrator xs ss = Some v /\ v == sq_error xs (column_of 0 ss)) /\
  (length ss = length xs -> xs <> [] -> exists v, m_loss (batch_mvp coverage) xs ss = Some v /\ v * inject_Z (Z.of_nat (length xs)) == pinball_error coverage xs (column_of 0 ss)) /\
  (m_loss (batch_mvp coverage) [] [] = None).
Proof.
  intros coverage xs ss. split; [exact (mc_loss1_sq xs ss)|]. split; [|reflexivity].
  intros L NE. cbn [m_loss batch_mvp]. unfold mvp_loss. set (l := zip_with _ xs ss).
  assert (LL : length l = length xs).
  { unfold l. clear - L. revert ss L. induction xs as [|x xs IH]; intros [|s ss] L; try discriminate L; [reflexivity|]. cbn. f_equal. apply IH. now injection L. }
  pose proof (omean_spec l) as O. destruct (omean l) as [v|].
  - destruct O as [_ O]. exists v. split; [reflexivity|]. rewrite <- LL, O. unfold l. clear. revert ss. induction xs as [|x xs IH]; intros [|s ss]; try reflexivity.
    change (column_of 0 (s :: ss)) with (nth 0 s 0 :: column_of 0 ss). cbn [pinball_error zip_with]. change (qsum (?a :: ?b)) with (a + qsum b). apply Qplus_comp; [|exact (IH ss)].
    unfold pinball1. cbn [fst snd]. destruct (Qlt_le_dec x (nth 0 s 0)) as [H|H].
    + rewrite (proj2 (Qltb_true _ _) H), (proj2 (Qleb_false _ _) H). cbn [of_bool]. ring.
    + rewrite (proj2 (Qltb_false _ _) H), (proj2 (Qleb_true _ _) H). cbn [of_bool]. ring.
  - rewrite O in LL. destruct xs; [contradiction NE; reflexivity|discriminate LL].
Qed.
Definition dsq (x s : Q) : Q := (x - s) * (x - s).
Lemma zip_sq_app : forall (a b u w : list Q), length a = length b -> length (zip_with dsq (a ++ u) (b ++ w)) = (length a + length (zip_with dsq u w))%nat /\
  qsum (zip_with dsq (a ++ u) (b ++ w)) == sq_error a b + qsum (zip_with dsq u w).
Proof.
  intros a. induction a as [|p a IH]; intros [|q b] u w E; try discriminate E.
  - cbn [app length sq_error Nat.add]. split; [reflexivity|ring].
  - destruct (IH b u w ltac:(now injection E)) as [A B]. split.
    + change (length (zip_with dsq ((p :: a) ++ u) ((q :: b) ++ w))) with (S (length (zip_with dsq (a ++ u) (b ++ w)))). rewrite A. reflexivity.
    + change (qsum (zip_with dsq ((p :: a) ++ u) ((q :: b) ++ w))) with (dsq p q + qsum (zip_with dsq (a ++ u) (b ++ w))). rewrite B. cbn [sq_error]. unfold dsq. ring.
Qed.
Theorem documented_loss_top : forall d xs ss, rectangular d xs -> rectangular d ss -> length ss = length xs -> xs <> [] -> (0 < d)%nat ->
  exists v, m_loss top_label xs ss = Some v /\ v * inject_Z (Z.of_nat (length xs * d)) == rows_sq_error xs ss.
Proof.
  intros d xs ss RX RS L NE D. cbn [m_loss top_label]. unfold mc_loss_top. change (fun x s : Q => (x - s) * (x - s)) with dsq.
  assert (K : length (zip_with dsq (List.concat xs) (List.concat ss)) = (length xs * d)%nat /\
              qsum (zip_with dsq (List.concat xs) (List.concat ss)) == rows_sq_error xs ss).
  { clear NE. revert ss RX RS L. induction xs as [|x xs IH]; intros [|s ss] RX RS L; try discriminate L; [split; reflexivity|].
    inversion RX as [|? ? Hx RX']; subst. inversion RS as [|? ? Hs RS']; subst. destruct (IH ss RX' RS' ltac:(now injection L)) as [A B].
    cbn [List.concat length rows_sq_error].
    destruct (zip_sq_app x s (List.concat xs) (List.concat ss) ltac:(congruence)) as [J1 J2]. rewrite J1, A. split; [lia|]. rewrite J2, B. reflexivity. }
  destruct K as [K1 K2]. pose proof (omean_spec (zip_with dsq (List.concat xs) (List.concat ss))) as O.
  destruct (omean _) as [v|].
  - exists v. split; [reflexivity|]. rewrite <- K1, (proj2 O). exact K2.
  - rewrite O in K1. cbn in K1. destruct xs; [contradiction NE; reflexivity|]. cbn in K1. lia.
Qed.
