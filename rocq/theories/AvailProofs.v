(** Proofs about the numbers of samples that stochastic gradient samplers can keep. *)
From Coq Require Import List Arith ZArith QArith Qround Bool Lia Lqa.
From Verif Require Import Lib MetricSpec McmcModel McmcSpec McmcProofs AvailSpec.
Import ListNotations.
Local Open Scope nat_scope.

Definition cnt (f : nat -> bool) (a n : nat) : nat := length (filter f (seq a n)).
Definition b2n (b : bool) : nat := if b then 1%nat else 0%nat.
Lemma cnt_cons f a n : cnt f a (S n) = (b2n (f a) + cnt f (S a) n)%nat.
Proof. unfold cnt. cbn [seq filter]. now destruct (f a). Qed.
Lemma cnt_app f a n m : cnt f a (n + m) = (cnt f a n + cnt f (a + n) m)%nat.
Proof. unfold cnt. now rewrite seq_app, filter_app, app_length. Qed.
Lemma cnt_snoc f a n : cnt f a (S n) = (cnt f a n + b2n (f (a + n)%nat))%nat.
Proof. rewrite <- (Nat.add_1_r n), cnt_app. rewrite (cnt_cons f (a + n) 0). replace (cnt f (S (a + n)) 0) with 0%nat by reflexivity. lia. Qed.
Lemma cnt_ext f g a n : (forall s, (a <= s < a + n)%nat -> f s = g s) -> cnt f a n = cnt g a n.
Proof. revert a. induction n as [|n IH]; intros a H; [reflexivity|]. rewrite !cnt_cons, H by lia. f_equal. apply IH. intros s B. apply H. lia. Qed.
Section Periodic.
Variables (f : nat -> bool) (L : nat).
Hypothesis per : forall s, f (s + L)%nat = f s.
Lemma cnt_shift a n : cnt f (a + L) n = cnt f a n.
Proof. revert a. induction n as [|n IH]; intros a; [reflexivity|]. rewrite !cnt_cons, per. f_equal. apply (IH (S a)). Qed.
Lemma cnt_rotate a : cnt f (S a) L = cnt f a L.
Proof. pose proof (cnt_cons f a L) as A. pose proof (cnt_snoc f a L) as B. rewrite per in B. lia. Qed.
Lemma cnt_cycles c r : cnt f 1 (c * L + r) = (c * cnt f 0 L + cnt f 1 r)%nat.
Proof.
  induction c as [|c IH]; [reflexivity|]. replace (S c * L + r)%nat with (L + (c * L + r))%nat by lia. rewrite cnt_app, cnt_shift, IH, cnt_rotate. lia.
Qed.
End Periodic.

Lemma below_S a t : (0 < t)%nat -> multiples_below (S a) t = (multiples_below a t + b2n (a mod t =? 0)%nat)%nat.
Proof.
  intros H. unfold multiples_below. replace (S a + t - 1)%nat with (a + 1 * t)%nat by lia. rewrite Nat.div_add by lia.
  pose proof (Nat.div_mod a t ltac:(lia)) as D. pose proof (Nat.mod_upper_bound a t ltac:(lia)) as U. destruct (Nat.eqb_spec (a mod t) 0) as [E|E]; cbn [b2n].
  - rewrite Nat.add_1_r. rewrite Nat.add_1_r. f_equal. apply (Nat.div_unique _ _ _ (t - 1)); nia.
  - rewrite Nat.add_0_r. apply (Nat.div_unique _ _ _ (a mod t - 1)); nia.
Qed.
Lemma below_0 t : (0 < t)%nat -> multiples_below 0 t = 0%nat.
Proof. intros H. unfold multiples_below. apply Nat.div_small. lia. Qed.
Lemma below_mono a b t : (0 < t)%nat -> (a <= b)%nat -> (multiples_below a t <= multiples_below b t)%nat.
Proof. intros H L. unfold multiples_below. apply Nat.div_le_mono; lia. Qed.
Lemma below_multiple k t : (0 < t)%nat -> multiples_below (k * t) t = k.
Proof. intros H. unfold multiples_below. symmetry. apply (Nat.div_unique _ _ _ (t - 1)); lia. Qed.
Lemma cnt_multiples k t a n : (0 < t)%nat ->
  cnt (fun s => (k <=? s)%nat && (s mod t =? 0)%nat) a n = (multiples_below (a + n) t - multiples_below (Nat.max a k) t)%nat.
Proof.
  intros H. induction n as [|n IH].
  - unfold cnt. cbn. pose proof (below_mono (a + 0) (Nat.max a k) t H ltac:(lia)). lia.
  - rewrite cnt_snoc, IH, Nat.add_succ_r, below_S by assumption. destruct (Nat.leb_spec k (a + n)) as [Q|Q]; cbn [andb].
    + pose proof (below_mono (Nat.max a k) (a + n) t H ltac:(lia)). lia.
    + cbn [b2n]. pose proof (below_mono (S (a + n)) (Nat.max a k) t H ltac:(lia)) as M. rewrite below_S in M by assumption. lia.
Qed.

Lemma start_le L ratio s : (sampling_start L ratio <= s)%nat <-> (ratio * nQ L <= nQ s)%Q.
Proof.
  unfold sampling_start. change (nQ s) with (inject_Z (Z.of_nat s)). split; intros H.
  - apply Qle_trans with (inject_Z (Qceiling (ratio * nQ L))). apply Qle_ceiling. rewrite <- Zle_Qle. lia.
  - apply Qceiling_resp_le in H. rewrite Qceiling_Z in H. lia.
Qed.
Lemma cyc_b_pos thin L ratio s : (s < L)%nat -> cyc_b thin L ratio s = ((sampling_start L ratio <=? s)%nat && (s mod thin =? 0)%nat)%bool.
Proof.
  intros H. unfold cyc_b. rewrite (Nat.mod_small s L) by assumption. f_equal. apply eq_true_iff_eq. rewrite phase_ge, (Nat.mod_small s L), Nat.leb_le, start_le by lia. reflexivity.
Qed.
Lemma cyc_b_period thin L ratio s : (0 < L)%nat -> cyc_b thin L ratio (s + L) = cyc_b thin L ratio s.
Proof. intros H. unfold cyc_b, phase. replace ((s + L) mod L)%nat with (s mod L)%nat; [reflexivity|]. replace (s + L) with (s + 1 * L) by lia. now rewrite Nat.mod_add by lia. Qed.
Lemma due_count thin L ratio N : (0 < thin)%nat -> (0 < L)%nat -> length (filter (cyc_b thin L ratio) (seq 1 N)) = available_cyclical L thin ratio N.
Proof.
  intros T H. change (cnt (cyc_b thin L ratio) 1 N = available_cyclical L thin ratio N). unfold available_cyclical, per_cycle.
  rewrite (Nat.div_mod N L) at 1 by lia. rewrite Nat.mul_comm. rewrite (cnt_cycles _ L) by (intros s; now apply cyc_b_period).
  pose proof (Nat.mod_upper_bound N L ltac:(lia)) as U.
  rewrite (cnt_ext _ (fun s => (sampling_start L ratio <=? s)%nat && (s mod thin =? 0)%nat) 0 L) by (intros; apply cyc_b_pos; lia).
  rewrite (cnt_ext _ (fun s => (sampling_start L ratio <=? s)%nat && (s mod thin =? 0)%nat) 1 (N mod L)) by (intros; apply cyc_b_pos; lia).
  rewrite !cnt_multiples by assumption. cbn [Nat.add Nat.max]. replace (S (N mod L)) with (N mod L + 1)%nat by lia. reflexivity.
Qed.

Theorem cyclical_available : forall n thin L ratio n_epochs n_steps, (0 < thin)%nat -> (0 < L)%nat ->
  make_callback (do_sample_cyclical n thin L ratio) n n_epochs n_steps =
    if (n <=? available_cyclical L thin ratio (n_epochs * n_steps))%nat then Ok (do_sample_cyclical n thin L ratio) else Err ValueError.
Proof.
  intros n thin L ratio E T H HL. rewrite (make_spec n (cyc_b thin L ratio) _ (cyc_do n thin L ratio H HL)), due_count by assumption.
  destruct (Nat.ltb_spec (available_cyclical L thin ratio (E * T)) n), (Nat.leb_spec n (available_cyclical L thin ratio (E * T))); try reflexivity; lia.
Qed.
(** whole cycles *)
Lemma whole_cycles thin L ratio c : (0 < thin)%nat -> (0 < L)%nat -> available_cyclical L thin ratio (c * L) = (c * per_cycle L thin ratio)%nat.
Proof.
  intros T H. unfold available_cyclical. rewrite Nat.div_mul, Nat.mod_mul by lia. cbn [Nat.add].
  pose proof (below_mono 1 (Nat.max 1 (sampling_start L ratio)) thin T ltac:(lia)). lia.
Qed.
Lemma floor_nQ n : Qfloor (nQ n) = Z.of_nat n.
Proof. apply Qfloor_Z. Qed.
Lemma start_exact L ratio k : (ratio * nQ L == nQ k)%Q -> sampling_start L ratio = k.
Proof. intros H. unfold sampling_start. rewrite H. unfold nQ. rewrite Qceiling_Z. lia. Qed.
Lemma nQ_mul a b : (nQ (a * b) == nQ a * nQ b)%Q.
Proof. unfold nQ. rewrite Nat2Z.inj_mul, inject_Z_mult. reflexivity. Qed.
Lemma nQ_sub a b : (b <= a)%nat -> (nQ (a - b) == nQ a - nQ b)%Q.
Proof. intros H. unfold nQ. rewrite Nat2Z.inj_sub by assumption. unfold Zminus. rewrite inject_Z_plus, inject_Z_opp. reflexivity. Qed.
Lemma intended_exact thin L ratio c k : (0 < thin)%nat -> (0 < L)%nat -> (k <= L)%nat -> (ratio * nQ L == nQ k)%Q ->
  intended_cyclical (c * L) L thin ratio = Z.of_nat (c * (L - k) / thin).
Proof.
  intros T H K E. unfold intended_cyclical. rewrite Nat.div_mul by lia. rewrite Nat2Z.inj_div. f_equal.
  rewrite <- floor_nQ. apply Qfloor_comp. rewrite !nQ_mul, nQ_sub by assumption. rewrite <- E. ring.
Qed.
(** the intended formula, when the thinning divides the cycle and its exploration part *)
Theorem cyclical_intended : forall thin L ratio c a b, (0 < thin)%nat -> (0 < L)%nat -> L = (a * thin)%nat -> (ratio * nQ L == nQ (b * thin))%Q -> (b <= a)%nat ->
  Z.of_nat (available_cyclical L thin ratio (c * L)) = intended_cyclical (c * L) L thin ratio.
Proof.
  intros thin L ratio c a b T H A B Q. rewrite whole_cycles by assumption. unfold per_cycle. rewrite (start_exact _ _ _ B).
  rewrite (intended_exact thin L ratio c (b * thin)) by (auto; subst L; now apply Nat.mul_le_mono_r). f_equal. rewrite A, !below_multiple by assumption.
  replace (c * (a * thin - b * thin))%nat with (c * (a - b) * thin)%nat by (rewrite <- Nat.mul_sub_distr_r; lia). now rewrite Nat.div_mul by lia.
Qed.
(** otherwise it is off by less than one sample per cycle *)
Lemma below_diff k L t : (0 < t)%nat -> (k <= L)%nat ->
  ((L - k) / t <= multiples_below L t - multiples_below k t)%nat /\ (t * (multiples_below L t - multiples_below k t) <= (L - k) + (t - 1))%nat.
Proof.
  intros H K. unfold multiples_below. pose proof (Nat.div_mod (L + t - 1) t ltac:(lia)) as A. pose proof (Nat.mod_upper_bound (L + t - 1) t ltac:(lia)) as A'.
  pose proof (Nat.div_mod (k + t - 1) t ltac:(lia)) as B. pose proof (Nat.mod_upper_bound (k + t - 1) t ltac:(lia)) as B'.
  pose proof (Nat.div_mod (L - k) t ltac:(lia)) as C. pose proof (Nat.mod_upper_bound (L - k) t ltac:(lia)) as C'.
  set (x := ((L + t - 1) / t)%nat) in *. set (y := ((k + t - 1) / t)%nat) in *. set (z := ((L - k) / t)%nat) in *. split; nia.
Qed.
Theorem cyclical_bounds : forall thin L ratio c k, (0 < thin)%nat -> (0 < L)%nat -> (k <= L)%nat -> (ratio * nQ L == nQ k)%Q ->
  let available := available_cyclical L thin ratio (c * L) in
  (c * ((L - k) / thin) <= available /\ thin * available <= c * (L - k + (thin - 1)))%nat /\
  (Z.abs (Z.of_nat available - intended_cyclical (c * L) L thin ratio) <= Z.of_nat c)%Z.
Proof.
  intros thin L ratio c k T H K E. cbn zeta. rewrite whole_cycles by assumption. unfold per_cycle. rewrite (start_exact _ _ _ E), (intended_exact _ _ _ _ k) by assumption.
  destruct (below_diff k L thin T K) as [A B]. set (p := (multiples_below L thin - multiples_below k thin)%nat) in *. set (m := (L - k)%nat) in *.
  pose proof (Nat.div_mod m thin ltac:(lia)) as D. pose proof (Nat.mod_upper_bound m thin ltac:(lia)) as D'.
  pose proof (Nat.div_mod (c * m) thin ltac:(lia)) as F. pose proof (Nat.mod_upper_bound (c * m) thin ltac:(lia)) as F'.
  set (q := (m / thin)%nat) in *. set (w := (c * m / thin)%nat) in *. assert (P : (p <= q + 1)%nat) by nia. split; [split; nia|].
  assert (W1 : (c * q <= w)%nat) by nia. assert (W2 : (w <= c * (q + 1))%nat) by nia. apply Z.abs_le. nia.
Qed.
(** thinning of at least a cycle *)
Theorem long_thinning : forall n thin L ratio n_epochs n_steps, (0 < n)%nat -> (0 < L)%nat -> (L <= thin)%nat -> (0 < ratio)%Q ->
  make_callback (do_sample_cyclical n thin L ratio) n n_epochs n_steps = Err ValueError.
Proof.
  intros n thin L ratio E T N H G R. rewrite cyclical_available by lia.
  assert (K : (1 <= sampling_start L ratio)%nat). { destruct (sampling_start L ratio) eqn:X; [|lia]. assert (Y : (sampling_start L ratio <= 0)%nat) by lia. apply start_le in Y. assert (P : (0 < ratio * nQ L)%Q). { apply Qmult_lt_0_compat; [assumption|]. unfold nQ. change 0%Q with (inject_Z 0). rewrite <- Zlt_Qlt. lia. } change (nQ 0) with 0%Q in Y. lra. }
  assert (O : forall a, (1 <= a <= thin)%nat -> multiples_below a thin = 1%nat). { intros a A. unfold multiples_below. symmetry. apply (Nat.div_unique _ _ _ (a - 1)); lia. }
  pose proof (Nat.mod_upper_bound (E * T) L ltac:(lia)) as U. unfold available_cyclical, per_cycle.
  pose proof (below_mono 1 (sampling_start L ratio) thin ltac:(lia) K) as M. rewrite (O 1%nat) in M by lia.
  pose proof (below_mono 1 (Nat.max 1 (sampling_start L ratio)) thin ltac:(lia) ltac:(lia)) as M'. rewrite (O 1%nat) in M' by lia.
  rewrite (O L) by lia. rewrite (O (E * T mod L + 1)%nat) by lia. replace (1 - _)%nat with 0%nat by lia. replace (1 - _)%nat with 0%nat by lia. rewrite Nat.mul_0_r. cbn [Nat.add].
  destruct (Nat.leb_spec n 0); [lia|reflexivity].
Qed.
(** refutations *)
Theorem sghmc_literal_refuted : exists n thin burnin E T, (0 < thin)%nat /\ (burnin <= E * T)%nat /\ (documented_sghmc (E * T) burnin thin < n)%nat /\
  make_callback (do_sample_sghmc n thin burnin) n E T = Ok (do_sample_sghmc n thin burnin).
Proof. exists 10%nat, 1%nat, 4%nat, 2%nat, 7%nat. repeat split; cbn; lia. Qed.
Theorem cyclical_literal_refuted : (forall c L thin ratio, (0 < L)%nat -> documented_cyclical (c * L) L thin ratio = 0%Z) /\
  exists n thin L ratio c, (0 < thin)%nat /\ (0 < L)%nat /\ (0 < n)%nat /\
    make_callback (do_sample_cyclical n thin L ratio) n c L = Ok (do_sample_cyclical n thin L ratio).
Proof.
  split.
  - intros c L thin ratio H. unfold documented_cyclical. rewrite Nat.mod_mul by lia. cbn [Nat.mul]. replace (Qfloor _) with 0%Z; [destruct thin; [reflexivity|apply Zmod_0_l]|].
    rewrite <- (Qfloor_Z 0). apply Qfloor_comp. change (nQ 0) with (inject_Z 0). rewrite Qmult_0_l. reflexivity.
  - exists 3%nat, 1%nat, 4%nat, (1 # 4)%Q, 1%nat. repeat split; lia.
Qed.
Theorem cyclical_intended_refuted :
  (exists n thin L ratio c, (Z.of_nat n <= intended_cyclical (c * L) L thin ratio)%Z /\ (0 < thin < L)%nat /\ (0 <= ratio < 1)%Q /\
     make_callback (do_sample_cyclical n thin L ratio) n c L = Err ValueError) /\
  (exists n thin L ratio c, (intended_cyclical (c * L) L thin ratio < Z.of_nat n)%Z /\ (0 < thin < L)%nat /\ (0 <= ratio < 1)%Q /\
     make_callback (do_sample_cyclical n thin L ratio) n c L = Ok (do_sample_cyclical n thin L ratio)).
Proof.
  split.
  - exists 4%nat, 3%nat, 5%nat, (1 # 5)%Q, 3%nat. repeat split; try lia; try (vm_compute; congruence).
  - exists 4%nat, 3%nat, 10%nat, 0%Q, 1%nat. repeat split; try lia; try (vm_compute; congruence).
Qed.
