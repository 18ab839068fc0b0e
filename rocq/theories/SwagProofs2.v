(** The weights that SWAG gives to the parameters after each batch. *)
From Coq Require Import List Arith ZArith QArith Qminmax Bool Lia Lqa.
From Verif Require Import Lib QuantModel McmcModel McmcProofs2 SwagSpec.
Import ListNotations.
Open Scope Q_scope.

Lemma natq_mul a b : natq (a * b) == natq a * natq b.
Proof. unfold natq. rewrite Nat2Z.inj_mul, inject_Z_mult. reflexivity. Qed.
Lemma natq_add a b : natq (a + b) == natq a + natq b.
Proof. unfold natq. rewrite Nat2Z.inj_add, inject_Z_plus. reflexivity. Qed.
Lemma natq_nonneg a : 0 <= natq a.
Proof. unfold natq. change 0 with (inject_Z 0). rewrite <- Zle_Qle. lia. Qed.
Lemma natq_pos a : (0 < a)%nat -> 0 < natq a.
Proof. intros H. unfold natq. change 0 with (inject_Z 0). rewrite <- Zlt_Qlt. lia. Qed.
Lemma natq_S a : natq (S a) == natq a + 1.
Proof. unfold natq. rewrite Nat2Z.inj_succ. unfold Z.succ. now rewrite inject_Z_plus. Qed.
Lemma sum_below_ext n f g : (forall i, (i < n)%nat -> f i == g i) -> sum_below n f == sum_below n g.
Proof. induction n as [|n IH]; intros H; cbn [sum_below]; [reflexivity|]. rewrite IH by (intros; apply H; lia). rewrite H by lia. reflexivity. Qed.
Lemma sum_below_scale n f a : a * sum_below n f == sum_below n (fun i => a * f i).
Proof. induction n as [|n IH]; cbn [sum_below]; [ring|]. rewrite <- IH. ring. Qed.

Section One.
Variable rank : nat.
Definition mean_o (st : option swag) : Q := match st with Some s => sw_mean s | None => 0 end.
Definition sq_o (st : option swag) : Q := match st with Some s => sw_mean_sq s | None => 0 end.
Lemma step_mean st e p : (st = None -> e = O) ->
  mean_o (swag_step rank st e p) * natq (e + 1) == mean_o st * natq e + p /\ sq_o (swag_step rank st e p) * natq (e + 1) == sq_o st * natq e + p * p.
Proof.
  intros H. destruct st as [s|].
  - cbn [swag_step mean_o sq_o sw_mean sw_mean_sq]. fold (natq e). rewrite natq_add. change (natq 1) with 1. pose proof (natq_nonneg e). split; field; lra.
  - rewrite (H eq_refl). cbn [swag_step mean_o sq_o sw_mean sw_mean_sq]. change (natq (0 + 1)) with 1. change (natq 0) with 0. split; ring.
Qed.
Lemma step_some st e p : swag_step rank st e p <> None.
Proof. destruct st; discriminate. Qed.

(** one epoch *)
Definition epoch_run (e : nat) (x : nat -> Q) (n : nat) (st : option swag) : option swag := fold_left (fun st i => swag_step rank st e (x i)) (seq 0 n) st.
Lemma epoch_S e x n st : epoch_run e x (S n) st = swag_step rank (epoch_run e x n st) e (x n).
Proof. unfold epoch_run. rewrite seq_S, fold_left_app. reflexivity. Qed.
Lemma epoch_none e x n st : (st = None -> e = O) -> epoch_run e x n st = None -> e = O.
Proof. intros H. destruct n as [|n]; [exact H|]. rewrite epoch_S. intros E. now apply step_some in E. Qed.
Lemma pow_S a n : natq (a ^ S n) == natq a * natq (a ^ n).
Proof. change (a ^ S n)%nat with (a * a ^ n)%nat. apply natq_mul. Qed.
Lemma epoch_mean e x n st : (st = None -> e = O) ->
  mean_o (epoch_run e x n st) * natq ((e + 1) ^ n) == mean_o st * natq (e ^ n) + sum_below n (fun k => natq (e ^ (n - 1 - k) * (e + 1) ^ k) * x k)
  /\ sq_o (epoch_run e x n st) * natq ((e + 1) ^ n) == sq_o st * natq (e ^ n) + sum_below n (fun k => natq (e ^ (n - 1 - k) * (e + 1) ^ k) * (x k * x k)).
Proof.
  intros H. induction n as [|n [IH1 IH2]].
  - cbn [epoch_run seq fold_left sum_below]. change (natq ((e + 1) ^ 0)) with 1. change (natq (e ^ 0)) with 1. split; ring.
  - rewrite epoch_S. destruct (step_mean (epoch_run e x n st) e (x n) (epoch_none e x n st H)) as [E1 E2].
    assert (Z : forall y : nat -> Q, sum_below (S n) (fun k => natq (e ^ (S n - 1 - k) * (e + 1) ^ k) * y k) == natq e * sum_below n (fun k => natq (e ^ (n - 1 - k) * (e + 1) ^ k) * y k) + natq ((e + 1) ^ n) * y n).
    { intros y. cbn [sum_below]. replace (S n - 1 - n)%nat with O by lia. change (e ^ 0)%nat with 1%nat. rewrite Nat.mul_1_l. rewrite sum_below_scale. apply Qplus_comp; [|reflexivity].
      apply sum_below_ext. intros i Hi. replace (S n - 1 - i)%nat with (S (n - 1 - i)) by lia. rewrite !natq_mul, pow_S. ring. }
    rewrite !Z. rewrite !pow_S. split.
    + assert (A : mean_o (swag_step rank (epoch_run e x n st) e (x n)) * (natq (e + 1) * natq ((e + 1) ^ n)) == (mean_o (swag_step rank (epoch_run e x n st) e (x n)) * natq (e + 1)) * natq ((e + 1) ^ n)) by ring.
      rewrite A, E1. transitivity (natq e * (mean_o (epoch_run e x n st) * natq ((e + 1) ^ n)) + natq ((e + 1) ^ n) * x n); [ring|]. rewrite IH1. ring.
    + assert (A : sq_o (swag_step rank (epoch_run e x n st) e (x n)) * (natq (e + 1) * natq ((e + 1) ^ n)) == (sq_o (swag_step rank (epoch_run e x n st) e (x n)) * natq (e + 1)) * natq ((e + 1) ^ n)) by ring.
      rewrite A, E2. transitivity (natq e * (sq_o (epoch_run e x n st) * natq ((e + 1) ^ n)) + natq ((e + 1) ^ n) * (x n * x n)); [ring|]. rewrite IH2. ring.
Qed.

(** several epochs of [B] batches *)
Variables (B : nat) (x : nat -> nat -> Q).
Hypothesis HB : (0 < B)%nat.
Fixpoint epochs_run (E : nat) : option swag := match E with O => None | S e => epoch_run e (x e) B (epochs_run e) end.
Lemma epochs_none E : epochs_run E = None -> E = O.
Proof. destruct E as [|e]; [reflexivity|]. cbn [epochs_run]. destruct B as [|b]; [lia|]. rewrite epoch_S. intros H. now apply step_some in H. Qed.
Lemma epochs_mean E : mean_o (epochs_run E) * natq (E ^ B) == weighted B E x /\ sq_o (epochs_run E) * natq (E ^ B) == weighted B E (fun e i => x e i * x e i).
Proof.
  unfold weighted. induction E as [|E [IH1 IH2]].
  - cbn [epochs_run mean_o sq_o sum_below]. split; ring.
  - cbn [epochs_run sum_below]. replace (S E) with (E + 1)%nat by lia. destruct (epoch_mean E (x E) B (epochs_run E) (epochs_none E)) as [E1 E2].
    rewrite E1, E2, IH1, IH2. split; reflexivity.
Qed.
(** in the middle of an epoch *)
Lemma running_mean e i : (i < B)%nat ->
  mean_o (epoch_run e (x e) (S i) (epochs_run e)) * natq (e ^ (B - 1 - i) * (e + 1) ^ S i) == weighted B e x + sum_below (S i) (fun k => swag_weight B e k * x e k).
Proof.
  intros Hi. destruct (epoch_mean e (x e) (S i) (epochs_run e) (epochs_none e)) as [E1 _]. destruct (epochs_mean e) as [F1 _].
  rewrite natq_mul. transitivity (natq (e ^ (B - 1 - i)) * (mean_o (epoch_run e (x e) (S i) (epochs_run e)) * natq ((e + 1) ^ S i))); [ring|]. rewrite E1, <- F1.
  assert (P : natq (e ^ B) == natq (e ^ (B - 1 - i)) * natq (e ^ S i)). { rewrite <- natq_mul, <- Nat.pow_add_r. replace (B - 1 - i + S i)%nat with B by lia. reflexivity. }
  rewrite P. assert (W : natq (e ^ (B - 1 - i)) * sum_below (S i) (fun k => natq (e ^ (S i - 1 - k) * (e + 1) ^ k) * x e k) == sum_below (S i) (fun k => swag_weight B e k * x e k)).
  { rewrite sum_below_scale. apply sum_below_ext. intros k Hk. unfold swag_weight. rewrite !natq_mul. replace (B - 1 - k)%nat with ((B - 1 - i) + (S i - 1 - k))%nat by lia. rewrite Nat.pow_add_r, natq_mul. ring. }
  rewrite <- W. ring.
Qed.

(** the run as a list of steps *)
Definition steps_of (E : nat) : list (nat * Q) := flat_map (fun e => map (fun i => (e, x e i)) (seq 0 B)) (seq 0 E).
Lemma fold_epoch e n st : fold_left (fun st ep => swag_step rank st (fst ep) (snd ep)) (map (fun i => (e, x e i)) (seq 0 n)) st = epoch_run e (x e) n st.
Proof. induction n as [|n IH]; [reflexivity|]. rewrite epoch_S, seq_S, map_app, fold_left_app, IH. reflexivity. Qed.
Lemma steps_S E : steps_of (S E) = steps_of E ++ map (fun i => (E, x E i)) (seq 0 B).
Proof. unfold steps_of. rewrite seq_S, flat_map_app. cbn [flat_map]. now rewrite app_nil_r. Qed.
Lemma run_epochs E : swag_run rank (steps_of E) = epochs_run E.
Proof.
  induction E as [|E IH]; [reflexivity|]. unfold swag_run in *. rewrite steps_S, fold_left_app, IH. apply fold_epoch.
Qed.
Lemma steps_length E : length (steps_of E) = (E * B)%nat.
Proof. induction E as [|E IH]; [reflexivity|]. rewrite steps_S, app_length, IH, map_length, seq_length. lia. Qed.
Lemma steps_prefix E F : (E <= F)%nat -> exists r, steps_of F = steps_of E ++ r.
Proof.
  induction F as [|F IH]; intros H; [assert (E = O) by lia; subst; exists []; reflexivity|].
  destruct (Nat.eq_dec E (S F)) as [->|N]; [exists []; now rewrite app_nil_r|]. destruct IH as (r & Er); [lia|]. exists (r ++ map (fun i => (F, x F i)) (seq 0 B)). rewrite steps_S, Er, app_assoc. reflexivity.
Qed.
Lemma steps_nth E e i : (e < E)%nat -> (i < B)%nat -> nth_error (steps_of E) (e * B + i) = Some (e, x e i) /\ firstn (S (e * B + i)) (steps_of E) = steps_of e ++ map (fun i => (e, x e i)) (seq 0 (S i)).
Proof.
  intros He Hi. destruct (steps_prefix (S e) E He) as (r & ->). rewrite steps_S, <- app_assoc. pose proof (steps_length e) as L. split.
  - rewrite nth_error_app2 by lia. rewrite L. replace (e * B + i - e * B)%nat with i by lia. rewrite nth_error_app1 by (rewrite map_length, seq_length; exact Hi).
    rewrite (map_nth_error (fun i => (e, x e i)) i (seq 0 B) (d := i)); [reflexivity|]. rewrite (nth_error_nth' _ O) by (rewrite seq_length; exact Hi). rewrite seq_nth by exact Hi. reflexivity.
  - rewrite firstn_app, L. rewrite (firstn_all2 (steps_of e)) by lia. f_equal. replace (S (e * B + i) - e * B)%nat with (S i) by lia.
    rewrite firstn_app, map_length, seq_length. replace (S i - B)%nat with O by lia. rewrite firstn_O, app_nil_r, firstn_map. f_equal.
    replace B with (S i + (B - S i))%nat by lia. rewrite seq_app, firstn_app, seq_length. replace (S i - S i)%nat with O by lia. rewrite firstn_O, app_nil_r. apply firstn_all2. rewrite seq_length. lia.
Qed.
End One.

Theorem swag_weights : forall rank B E (x : nat -> nat -> Q), (0 < B)%nat -> (2 <= rank < E)%nat ->
  exists s, swag_run rank (steps_of B x E) = Some s
  /\ sw_mean s * natq (E ^ B) == weighted B E x
  /\ (swag_var s + sw_mean s * sw_mean s) * natq (E ^ B) == weighted B E (fun e i => x e i * x e i)
  /\ length (sw_dev s) = rank
  /\ (forall j, (j < rank)%nat -> exists m, let q := (E * B - rank + j)%nat in let e := (q / B)%nat in let i := (q mod B)%nat in
        nth j (sw_dev s) 0 = x e i - m /\ (0 < e)%nat /\ m * natq (e ^ (B - 1 - i) * (e + 1) ^ S i) == weighted B e x + sum_below (S i) (fun k => swag_weight B e k * x e k)).
Proof.
  intros rank B E x HB HR. destruct (swag_run rank (steps_of B x E)) as [s|] eqn:R.
  2:{ rewrite run_epochs in R. apply epochs_none in R; [lia|exact HB]. }
  exists s. split; [reflexivity|]. pose proof R as R'. rewrite run_epochs in R'. destruct (epochs_mean rank B x HB E) as [M1 M2]. rewrite R' in M1, M2. cbn [mean_o sq_o] in M1, M2.
  split; [exact M1|].
  assert (V : swag_var s == sw_mean_sq s - sw_mean s * sw_mean s).
  { assert (BD : exists lo hi, forall ep, In ep (steps_of B x E) -> lo <= snd ep <= hi).
    { generalize (steps_of B x E) as l. induction l as [|a l (lo & hi & H)]; [exists 0, 0; intros ? []|]. exists (Qmin lo (snd a)), (Qmax hi (snd a)). intros ep [<-|I].
      - split; [apply Q.le_min_r|apply Q.le_max_r].
      - destruct (H ep I). split; [eapply Qle_trans; [apply Q.le_min_l|assumption]|eapply Qle_trans; [|apply Q.le_max_l]; assumption]. }
    destruct BD as (lo & hi & BD). exact (proj2 (proj2 (swag_bounds rank _ lo hi s BD R))). }
  split; [rewrite V; rewrite <- M2; ring|].
  assert (EB : (rank < E * B)%nat) by nia.
  destruct (swag_columns rank (steps_of B x E) s (proj1 HR) ltac:(rewrite (steps_length B x HB E); exact EB) R) as [L C]. split; [exact L|].
  intros j Hj. destruct (C j Hj) as (ep & si & H1 & H2 & H3). rewrite (steps_length B x HB E) in *. set (q := (E * B - rank + j)%nat) in *. cbv zeta in *.
  pose proof (Nat.div_mod q B ltac:(lia)) as DM. pose proof (Nat.mod_upper_bound q B ltac:(lia)) as MB.
  assert (QE : (q < E * B)%nat) by (unfold q; lia). assert (HE : (q / B < E)%nat) by (apply Nat.div_lt_upper_bound; lia).
  destruct (steps_nth B x HB E (q / B) (q mod B) HE MB) as [N F]. replace (q / B * B + q mod B)%nat with q in * by lia.
  rewrite N in H1. injection H1 as <-. rewrite F in H2. unfold swag_run in H2. rewrite fold_left_app in H2. change (fold_left _ (steps_of B x (q / B)) None) with (swag_run rank (steps_of B x (q / B))) in H2. rewrite run_epochs, fold_epoch in H2.
  exists (sw_mean si). cbn [snd] in H3. split; [exact H3|]. split.
  - apply Nat.div_str_pos. split; [lia|]. unfold q. nia.
  - pose proof (running_mean rank B x HB (q / B) (q mod B) MB) as RM. rewrite H2 in RM. exact RM.
Qed.

(** the weights of an epoch add up to (e+1)^B - e^B *)
Lemma weights_total : forall B e, sum_below B (swag_weight B e) + natq (e ^ B) == natq ((e + 1) ^ B).
Proof.
  intros B e. pose proof (epoch_mean 0 e (fun _ => 1) B (Some {| sw_mean := 1; sw_mean_sq := 1; sw_dev := [] |}) ltac:(discriminate)) as [H _].
  assert (M : mean_o (epoch_run 0 e (fun _ => 1) B (Some {| sw_mean := 1; sw_mean_sq := 1; sw_dev := [] |})) == 1).
  { clear H.
    induction B as [|B IH]; [reflexivity|]. rewrite epoch_S. set (st := epoch_run 0 e (fun _ => 1) B _) in *. destruct st as [s|] eqn:E.
    - cbn [swag_step mean_o sw_mean] in *. rewrite IH. fold (natq e). pose proof (natq_nonneg e). field. lra.
    - cbn [mean_o] in IH. discriminate IH. }
  rewrite M in H. cbn [mean_o sw_mean] in H. ring_simplify in H. rewrite H. rewrite Qplus_comm. apply Qplus_comp; [reflexivity|]. apply sum_below_ext. intros i _. unfold swag_weight. ring.
Qed.
