(** Dynamics of whole fits of stochastic gradient samplers. *)
From Coq Require Import List Arith ZArith QArith Bool String Lia Reals.
From Verif Require Import Lib QuantModel PredModel PredSpec MetricSpec TrainModel TrainProofs4 McmcModel McmcSpec McmcProofs DescModel DescSpec DescProofs ChainModel ChainSpec ChainProofs2.
Import ListNotations.
Open Scope list_scope.
Local Notation length := List.length.

Lemma chain_key_S {K} (split : K -> K * K) : forall i key, chain_key split (S i) key = snd (split (chain_key split i key)).
Proof. induction i as [|i IH]; intros key; [reflexivity|]. change (chain_key split (S (S i)) key) with (chain_key split (S i) (snd (split key))). rewrite IH. reflexivity. Qed.
Lemma nth_passes {B} (bs : list B) : forall n k, (k < n * length bs)%nat -> nth_error (passes n bs) k = nth_error bs (k mod length bs).
Proof.
  induction n as [|n IH]; intros k Hk; [lia|]. change (passes (S n) bs) with (bs ++ passes n bs). destruct (Nat.lt_ge_cases k (length bs)) as [L|L].
  - rewrite nth_error_app1 by exact L. now rewrite Nat.mod_small.
  - rewrite nth_error_app2 by exact L. rewrite IH by lia. f_equal. assert (length bs <> 0)%nat by (intros E; rewrite E in *; lia).
    replace k with (k - length bs + 1 * length bs)%nat at 2 by lia. now rewrite Nat.mod_add.
Qed.
Lemma after_S {St B} (upd : nat -> St -> B -> St) j n (bs : list B) s k b : (k < n * length bs)%nat -> nth_error bs (k mod length bs) = Some b ->
  after upd j n bs s (S k) = upd (j + k)%nat (after upd j n bs s k) b.
Proof.
  intros Hk Hb. unfold after. rewrite <- (nth_passes bs n k Hk) in Hb.
  assert (F : firstn (S k) (passes n bs) = firstn k (passes n bs) ++ [b]).
  { revert Hb. generalize (passes n bs) as l. clear. intros l. revert k. induction l as [|x l IH]; intros [|k] H; try discriminate; [injection H as ->; reflexivity|]. cbn [firstn app]. f_equal. apply IH. exact H. }
  rewrite F, descend_app. cbn [descend]. f_equal. rewrite firstn_length, passes_length. lia.
Qed.

Section Dynamics.
Variables (Co K2 M X T K : Type) (split : K2 -> K2 * K2) (normal : Co -> K2 -> R) (pc : preconditioner).
Variable fold_in : nat -> K.
Variable diff : ((Co -> R) -> Q) -> (Co -> R) -> Co -> R.
Variable objective : K -> (Co -> R) -> option M -> X * list T -> Q.
Variable change : K -> (Co -> R) -> option M -> X * list T -> option M.
Local Open Scope R_scope.

Theorem sghmc_dynamics : forall decay schedule j n bs key p0 m0,
  let update := gradient_update diff (fun g => g) (sghmc_opt Co K2 split normal pc decay schedule) fold_in objective change in
  let at_ := after update j n bs (p0, integrator_init Co K2 pc key p0, m0) in
  let p := fun k => fst (fst (at_ k)) in
  exists (mom : nat -> Co -> R) (prec : nat -> Co -> pc_state pc),
    (forall c, mom 0%nat c = 0 /\ prec 0%nat c = pc_init pc)
    /\ forall k b, (k < n * length bs)%nat -> nth_error bs (k mod length bs) = Some b -> forall c,
       let g := diff (fun q => objective (fold_in (j + k)%nat) q (snd (at_ k)) b) (p k) c in
       let noise := pc_sqrt pc (normal c (fst (split (chain_key split k key)))) (prec (S k) c) in
       prec (S k) c = pc_update pc g (prec k c)
       /\ mom (S k) c = decay * mom k c + g * sqrt (schedule k) + noise * sqrt (2 * (1 - decay))
       /\ p (S k) c = p k c + pc_inv pc (mom (S k) c) (prec (S k) c) * sqrt (schedule k).
Proof.
  intros decay schedule j n bs key p0 m0 update at_ p.
  assert (I : forall k, (k <= n * length bs)%nat -> forall c, sg_count pc K2 (snd (fst (at_ k)) c) = k /\ sg_key pc K2 (snd (fst (at_ k)) c) = chain_key split k key).
  { induction k as [|k IH]; intros Hk c.
    - unfold at_, after. cbn [firstn descend fst snd]. split; reflexivity.
    - destruct (nth_error bs (k mod length bs)) as [b|] eqn:E.
      2:{ exfalso. apply nth_error_None in E. assert (length bs <> 0)%nat by (intros Z; rewrite Z in *; lia). pose proof (Nat.mod_upper_bound k (length bs) H). lia. }
      destruct (IH ltac:(lia) c) as [I1 I2]. unfold at_ in *. rewrite (after_S update j n bs _ k b) by (try exact E; lia).
      destruct (after update j n bs _ k) as [[pk ok] mk]. cbn [fst snd] in I1, I2. unfold update, gradient_update, sghmc_opt, integrator_opt, sghmc_update. cbn [fst snd sg_count sg_key]. rewrite I1, I2, chain_key_S. split; reflexivity. }
  exists (fun k c => sg_momentum pc K2 (snd (fst (at_ k)) c)), (fun k c => sg_pc pc K2 (snd (fst (at_ k)) c)). split; [intros c; split; reflexivity|].
  intros k b Hk Hb c. unfold p. assert (ES : at_ (S k) = update (j + k)%nat (at_ k) b) by (apply after_S; assumption). destruct (I k ltac:(lia) c) as [I1 I2].
  rewrite !ES. destruct (at_ k) as [[pk ok] mk]. cbn [fst snd] in *. unfold update, gradient_update, sghmc_opt, integrator_opt, sghmc_update. cbn [fst snd sg_momentum sg_pc]. rewrite I1, I2. repeat split; reflexivity.
Qed.

Lemma phase_due L ratio k : (0 < L)%nat -> Qle_bool ratio (phase L k) = true <-> (ratio * nQ L <= nQ (k mod L))%Q.
Proof. intros H. exact (phase_ge L ratio k H). Qed.

Theorem cyclical_dynamics : forall L ratio schedule j n bs key p0 m0, (0 < L)%nat ->
  let update := gradient_update diff (fun g => g) (cyclical_opt Co K2 split normal pc L ratio schedule) fold_in objective change in
  let at_ := after update j n bs (p0, integrator_init Co K2 pc key p0, m0) in
  let p := fun k => fst (fst (at_ k)) in
  exists (keys : nat -> K2) (prec : nat -> Co -> pc_state pc),
    keys 0%nat = key /\ (forall c, prec 0%nat c = pc_init pc)
    /\ forall k b, (k < n * length bs)%nat -> nth_error bs (k mod length bs) = Some b ->
       (keys (S k) = if Qlt_le_dec (nQ (k mod L)) (ratio * nQ L) then keys k else snd (split (keys k)))
       /\ forall c,
       let g := diff (fun q => objective (fold_in (j + k)%nat) q (snd (at_ k)) b) (p k) c in
       let noise := pc_sqrt pc (normal c (fst (split (keys k)))) (prec (S k) c) in
       prec (S k) c = pc_update pc g (prec k c)
       /\ p (S k) c = p k c + if Qlt_le_dec (nQ (k mod L)) (ratio * nQ L) then pc_inv pc (schedule k * g) (prec (S k) c)
                             else pc_inv pc (g * sqrt (schedule k) + noise * sqrt 2) (prec (S k) c) * sqrt (schedule k).
Proof.
  intros L ratio schedule j n bs key p0 m0 HL update at_ p.
  set (keys := fix keys k := match k with O => key | S k => if Qlt_le_dec (nQ (k mod L)) (ratio * nQ L) then keys k else snd (split (keys k)) end).
  assert (I : forall k, (k <= n * length bs)%nat -> forall c, sg_count pc K2 (snd (fst (at_ k)) c) = k /\ sg_key pc K2 (snd (fst (at_ k)) c) = keys k).
  { induction k as [|k IH]; intros Hk c.
    - unfold at_, after. cbn [firstn descend fst snd]. split; reflexivity.
    - destruct (nth_error bs (k mod length bs)) as [b|] eqn:E.
      2:{ exfalso. apply nth_error_None in E. assert (length bs <> 0)%nat by (intros Z; rewrite Z in *; lia). pose proof (Nat.mod_upper_bound k (length bs) H). lia. }
      destruct (IH ltac:(lia) c) as [I1 I2]. unfold at_ in *. rewrite (after_S update j n bs _ k b) by (try exact E; lia).
      destruct (after update j n bs _ k) as [[pk ok] mk]. cbn [fst snd] in I1, I2. unfold update, gradient_update, cyclical_opt, integrator_opt, cyclical_update. cbn [fst snd]. rewrite I1.
      cbn [keys]. destruct (Qle_bool ratio (phase L k)) eqn:EP.
      + apply phase_due in EP; [|exact HL]. unfold sghmc_update. cbn [fst snd sg_count sg_key]. rewrite I1, I2. destruct (Qlt_le_dec _ _) as [Z|Z]; [exfalso; exact (Qlt_not_le _ _ Z EP)|]. split; reflexivity.
      + unfold sgd_update. cbn [fst snd sg_count sg_key]. rewrite I1, I2. destruct (Qlt_le_dec _ _) as [Z|Z]; [split; reflexivity|]. exfalso. apply (phase_due L ratio k HL) in Z. congruence. }
  exists keys, (fun k c => sg_pc pc K2 (snd (fst (at_ k)) c)). split; [reflexivity|]. split; [intros c; reflexivity|].
  intros k b Hk Hb. split; [reflexivity|]. intros c. unfold p. assert (ES : at_ (S k) = update (j + k)%nat (at_ k) b) by (apply after_S; assumption). destruct (I k ltac:(lia) c) as [I1 I2].
  rewrite !ES. destruct (at_ k) as [[pk ok] mk]. cbn [fst snd] in *. unfold update, gradient_update, cyclical_opt, integrator_opt, cyclical_update. cbn [fst snd]. rewrite I1.
  destruct (Qle_bool ratio (phase L k)) eqn:EP.
  - apply phase_due in EP; [|exact HL]. destruct (Qlt_le_dec _ _) as [Z|Z]; [exfalso; exact (Qlt_not_le _ _ Z EP)|]. unfold sghmc_update. cbn [fst snd sg_pc]. rewrite I1, I2. split; [reflexivity|].
    f_equal. f_equal. f_equal. replace (2 * (1 - 0)) with 2 by ring. ring.
  - destruct (Qlt_le_dec _ _) as [Z|Z]; [|exfalso; apply (phase_due L ratio k HL) in Z; congruence]. unfold sgd_update. cbn [fst snd sg_pc]. rewrite I1. split; [reflexivity|]. f_equal. f_equal. ring.
Qed.
End Dynamics.
