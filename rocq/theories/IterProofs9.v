(** Proofs about calibrators (9): lengths in calibration errors. *)
From Coq Require Import List Arith Lia QArith ZArith Bool.
From Verif Require Import Lib OneShotModel OneShotSpec IterModel IterSpec IterProofs7.
Import ListNotations.
Open Scope Q_scope.

Lemma get_scores_points k t ss : get_scores k t = Ok ss -> length ss = points (t_array t).
Proof.
  unfold get_scores. destruct k as [| |m]; try (destruct (t_array t) as [l|rows]; intros H; injection H as <-; cbn; now rewrite ?map_length).
  destruct (t_array t) as [l|rows]; cbn [is_vec negb]; [|discriminate]. destruct (negb (t_int t)); [discriminate|]. destruct (m =? 0)%nat; [discriminate|]. intros H. injection H as <-. rewrite map_length. reflexivity.
Qed.
Theorem error_lengths rnd f o t w v n table : ierror rnd f o t w v n = Ok table -> points (t_array t) <> 1%nat -> (forall g, w = Some g -> length (g_rows g) <> 1%nat) -> (forall x, v = Some x -> points x <> 1%nat) ->
  (forall g, w = Some g -> length (g_rows g) = points (t_array t)) /\ (forall x, v = Some x -> points x = points (t_array t)).
Proof.
  intros H _ _ _. unfold ierror in H. destruct (get_scores (kind_of f) t) as [ss|] eqn:ES; [|discriminate]. cbn [bind] in H. apply get_scores_points in ES.
  destruct (check_scores _ _); [|discriminate]. cbn [bind] in H. destruct (match w with None => Ok tt | Some g => check_groups g None end); [|discriminate]. cbn [bind] in H.
  match type of H with bind ?c _ = _ => destruct c; [|discriminate] end. cbn [bind] in H. cbv zeta in H.
  assert (X : forall k, ((length (g_rows (init_groups w (length ss))) =? length ss)%nat && (k =? length ss)%nat)%bool = true -> (forall g, w = Some g -> length (g_rows g) = points (t_array t)) /\ k = points (t_array t)).
  { intros k E. apply andb_true_iff in E. destruct E as [A B]. apply Nat.eqb_eq in A. apply Nat.eqb_eq in B. split; [|congruence]. intros g ->. cbn in A. congruence. }
  assert (Y : forall k, k = points (init_values rnd f v (length ss)) -> forall x, v = Some x -> points x = k) by (intros k -> x ->; reflexivity).
  destruct f as [[| |m]|]; destruct (init_values rnd _ v (length ss)) as [l|l]; try discriminate;
    try (destruct (i_coverage o); [|discriminate]);
    match type of H with (if ?b then _ else _) = _ => destruct b eqn:E; [|discriminate] end; destruct (X _ E) as [A B]; (split; [exact A|]); intros x Hx; rewrite <- B; refine (Y _ eq_refl x Hx).
Qed.
