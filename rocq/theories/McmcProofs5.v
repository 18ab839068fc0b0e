(** Proofs about whole runs of the integrators from their initial states. *)
From Coq Require Import List Arith ZArith Bool Lia Reals Lra.
From Verif Require Import Lib McmcModel McmcProofs4.
Import ListNotations.
Open Scope R_scope.

Section Run.
Variables (P : preconditioner) (K : Type).
Variable update : R -> sghmc_state P K -> R * sghmc_state P K.
Lemma integrate_nth gs : forall st n g, nth_error gs n = Some g ->
  nth_error (fst (integrate P K update gs st)) n = Some (fst (update g (snd (integrate P K update (firstn n gs) st)))).
Proof.
  induction gs as [|a gs IH]; intros st [|n] g H; try discriminate.
  - cbn in H. injection H as ->. cbn. destruct (update g st) as [u st']. destruct (integrate P K update gs st'). reflexivity.
  - cbn in H. cbn [integrate firstn]. destruct (update a st) as [u st'] eqn:E. specialize (IH st' n g H).
    destruct (integrate P K update gs st') as [us s2]. destruct (integrate P K update (firstn n gs) st') as [us' s3]. exact IH.
Qed.
Lemma integrate_snoc gs g st : snd (integrate P K update (gs ++ [g]) st) = snd (update g (snd (integrate P K update gs st))).
Proof.
  revert st. induction gs as [|a gs IH]; intros st; cbn.
  - destruct (update g st). reflexivity.
  - destruct (update a st) as [u st']. specialize (IH st'). destruct (integrate P K update (gs ++ [g]) st'). destruct (integrate P K update gs st'). exact IH.
Qed.
End Run.

Section Sums.
Lemma sum_snoc (f : R) (a : nat -> R) n : sum_f_R0 (fun i => f ^ (S n - i) * a i) (S n) = f * sum_f_R0 (fun i => f ^ (n - i) * a i) n + a (S n).
Proof.
  rewrite tech5. replace (S n - S n)%nat with 0%nat by lia. cbn [pow]. rewrite Rmult_1_l. f_equal. rewrite scal_sum. apply sum_eq. intros i H.
  replace (S n - i)%nat with (S (n - i)) by lia. cbn [pow]. ring.
Qed.
End Sums.

Lemma firstn_S_nth {A} (d : A) n l : (n < length l)%nat -> firstn (S n) l = firstn n l ++ [nth n l d].
Proof. revert l. induction n as [|n IH]; intros [|x l] H; cbn in H; try lia; [reflexivity|]. cbn [firstn nth app]. f_equal. now apply IH, Nat.succ_lt_mono. Qed.
Lemma nth_error_nth_eq {A} (d : A) n l g : nth_error l n = Some g -> nth n l d = g /\ (n < length l)%nat.
Proof. intros H. split. now apply nth_error_nth. apply nth_error_Some. congruence. Qed.

Section State.
Variables (P : preconditioner) (K : Type) (split : K -> K * K) (normal : K -> R).
(** counts and keys after n updates *)
Lemma run_count decay resample schedule gs key :
  let st := snd (integrate P K (sghmc_update P K split normal decay resample schedule) gs (sghmc_init P K key)) in
  sg_count P K st = length gs /\ sg_key P K st = Nat.iter (length gs) (fun k => snd (split k)) key.
Proof.
  induction gs as [|g gs IH] using rev_ind; cbn zeta in *; [split; reflexivity|].
  rewrite integrate_snoc. cbn [sghmc_update snd sg_count sg_key]. destruct IH as [-> ->]. rewrite app_length. cbn [length]. rewrite Nat.add_1_r. split; reflexivity.
Qed.
End State.

Lemma run_moment K split normal factor eps decay resample schedule gs key n : (n < length gs)%nat ->
  sg_pc (rmsprop factor eps) K (snd (integrate (rmsprop factor eps) K (sghmc_update (rmsprop factor eps) K split normal decay resample schedule) (firstn (S n) gs) (sghmc_init _ K key))) =
  (1 - factor) * sum_f_R0 (fun i => factor ^ (n - i) * (nth i gs 0 * nth i gs 0)) n.
Proof.
  induction n as [|n IH]; intros H.
  - rewrite (firstn_S_nth 0) by lia. cbn. ring.
  - rewrite (firstn_S_nth 0) by lia. rewrite integrate_snoc, sum_snoc. cbn [sghmc_update snd sg_pc pc_update rmsprop]. rewrite IH by lia. match goal with |- @eq _ ?a ?b => change (@eq R a b) end. ring.
Qed.

Theorem sgld_rmsprop_run : forall K split normal factor eps schedule gs key n g, 0 < eps -> 0 <= schedule n -> nth_error gs n = Some g ->
  let M := eps + sqrt ((1 - factor) * sum_f_R0 (fun i => factor ^ (n - i) * (nth i gs 0 * nth i gs 0)) n) in
  nth_error (fst (integrate (rmsprop factor eps) K (sghmc_update (rmsprop factor eps) K split normal 0 None schedule) gs (sghmc_init (rmsprop factor eps) K key))) n =
  Some (schedule n * (g / M) + sqrt (2 * schedule n) * (normal (fst (split (Nat.iter n (fun k => snd (split k)) key))) / sqrt M)).
Proof.
  intros K split normal factor eps schedule gs key n g E S0 H. destruct (nth_error_nth_eq 0 n gs g H) as [G L]. cbn zeta.
  rewrite (integrate_nth _ _ _ _ _ _ _ H). destruct (run_count (rmsprop factor eps) K split normal 0 None schedule (firstn n gs) key) as [C Ky].
  rewrite firstn_length_le in C, Ky by lia.
  pose proof (run_moment K split normal factor eps 0 None schedule gs key n L) as M. rewrite (firstn_S_nth 0) in M by lia. rewrite integrate_snoc, G in M.
  cbn [sghmc_update snd sg_pc pc_update rmsprop] in M. rewrite sgld_rmsprop; [|exact E|now rewrite C]. rewrite C, Ky, M. reflexivity.
Qed.

(** equal gradients: the average is short of the square by the power of the factor *)
Theorem rmsprop_constant : forall factor eps g n,
  fold_left (fun e g => pc_update (rmsprop factor eps) g e) (repeat g n) (pc_init (rmsprop factor eps)) = g * g * (1 - factor ^ n).
Proof.
  intros factor eps g n. induction n as [|n IH]; [cbn; ring|].
  replace (repeat g (S n)) with (repeat g n ++ [g]) by (rewrite <- repeat_cons; reflexivity). rewrite fold_left_app, IH. cbn. ring.
Qed.

Lemma run_momentum K split normal decay schedule gs key n : (n < length gs)%nat ->
  sg_momentum identity_pc K (snd (integrate identity_pc K (sghmc_update identity_pc K split normal decay None schedule) (firstn (S n) gs) (sghmc_init _ K key))) =
  sum_f_R0 (fun i => decay ^ (n - i) * (sqrt (schedule i) * nth i gs 0 + sqrt (2 * (1 - decay)) * normal (fst (split (Nat.iter i (fun k => snd (split k)) key))))) n.
Proof.
  induction n as [|n IH]; intros H.
  - rewrite (firstn_S_nth 0) by lia. cbn. ring.
  - rewrite (firstn_S_nth 0) by lia. rewrite integrate_snoc, sum_snoc.
    destruct (run_count identity_pc K split normal decay None schedule (firstn (S n) gs) key) as [C Ky].
    rewrite firstn_length_le in C, Ky by lia. cbn [sghmc_update snd sg_momentum pc_update pc_sqrt identity_pc]. rewrite IH by lia. rewrite C, Ky. ring.
Qed.
Theorem sghmc_run : forall K split normal decay schedule gs key n, (n < length gs)%nat ->
  nth_error (fst (integrate identity_pc K (sghmc_update identity_pc K split normal decay None schedule) gs (sghmc_init identity_pc K key))) n =
  Some (sqrt (schedule n) * sum_f_R0 (fun i => decay ^ (n - i) * (sqrt (schedule i) * nth i gs 0 + sqrt (2 * (1 - decay)) * normal (fst (split (Nat.iter i (fun k => snd (split k)) key))))) n).
Proof.
  intros K split normal decay schedule gs key n H. rewrite (integrate_nth _ _ _ _ _ _ (nth n gs 0)) by (now apply nth_error_nth').
  pose proof (run_momentum K split normal decay schedule gs key n H) as M. rewrite (firstn_S_nth 0) in M by lia. rewrite integrate_snoc in M.
  rewrite <- M. destruct (run_count identity_pc K split normal decay None schedule (firstn n gs) key) as [C _]. rewrite firstn_length_le in C by lia.
  cbn [sghmc_update fst snd sg_momentum pc_inv identity_pc]. rewrite C. f_equal. ring.
Qed.

Lemma sqrt_is a b : 0 <= b -> b * b = a -> sqrt a = b.
Proof. intros H <-. now apply sqrt_square. Qed.
Lemma sgld_run_case :
  nth_error (fst (integrate (rmsprop (3 / 4) 3) nat (sghmc_update (rmsprop (3 / 4) 3) nat (fun k => (k, S k)) INR 0 None (fun _ => 1 / 2)) [0; 2] (sghmc_init _ nat 5%nat))) 1 = Some (13 / 4).
Proof.
  rewrite (sgld_rmsprop_run nat (fun k => (k, S k)) INR (3 / 4) 3 (fun _ => 1 / 2) [0; 2] 5%nat 1%nat 2 ltac:(lra) ltac:(lra) eq_refl).
  cbn [sum_f_R0 nth Nat.sub pow Nat.iter snd fst]. f_equal. rewrite (sqrt_is _ 1) by lra. rewrite (sqrt_is (3 + 1) 2) by lra. rewrite (sqrt_is _ 1) by lra.
  replace (INR (Nat.iter 1 (fun k => S k) 5%nat)) with 6 by (cbn; ring). lra.
Qed.
Lemma sghmc_run_case :
  nth_error (fst (integrate identity_pc nat (sghmc_update identity_pc nat (fun k => (k, S k)) INR (1 / 2) None (fun _ => 4)) [1; 3] (sghmc_init _ nat 5%nat))) 1 = Some 31.
Proof.
  rewrite sghmc_run by (cbn; lia). cbn [sum_f_R0 nth Nat.sub pow Nat.iter snd fst]. f_equal. rewrite (sqrt_is 4 2) by lra. rewrite (sqrt_is (2 * (1 - 1 / 2)) 1) by lra.
  replace (INR (Nat.iter 1 (fun k => S k) 5%nat)) with 6 by (cbn; ring). cbn [nat_rect Nat.iter]. replace (INR 5) with 5 by (cbn; ring). lra.
Qed.
