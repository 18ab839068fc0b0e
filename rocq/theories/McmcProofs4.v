(** Proofs about step schedules, preconditioners, integrators, SWAG samples and the kernel
    Stein discrepancy. *)
From Coq Require Import List Arith ZArith QArith Bool Lia Reals Lra Psatz.
From Verif Require Import Lib QuantModel ConfRegModel ConfClassModel MetricSpec TempModel TempProofs3 PredModel PredSpec PredProofs4 McmcModel McmcSpec McmcProofs.
Import ListNotations.
Open Scope R_scope.

(** ---- schedules ---- *)
Lemma PI_pos : 0 < PI.
Proof. exact PI_RGT_0. Qed.
Lemma half_cos x : 0 <= / 2 * (1 + cos x) <= 1.
Proof. pose proof (COS_bound x). lra. Qed.
Lemma cos_le x y : 0 <= x -> x <= y -> y <= PI -> cos y <= cos x.
Proof. intros A B C. destruct (Req_dec x y) as [->|N]; [lra|]. left. apply cos_decreasing_1; lra. Qed.
Lemma frac_le a b n : (0 < n)%nat -> (a <= b)%nat -> INR a / INR n <= INR b / INR n.
Proof. intros H L. apply Rmult_le_compat_r. left. apply Rinv_0_lt_compat. now apply INR_pos. now apply le_INR. Qed.
Lemma frac_lt a b n : (0 < n)%nat -> (a < b)%nat -> INR a / INR n < INR b / INR n.
Proof. intros H L. apply Rmult_lt_compat_r. apply Rinv_0_lt_compat. now apply INR_pos. now apply lt_INR. Qed.
Lemma frac_nonneg a n : (0 < n)%nat -> 0 <= INR a / INR n.
Proof. intros H. apply Rmult_le_pos. apply pos_INR. left. apply Rinv_0_lt_compat. now apply INR_pos. Qed.
Lemma frac_one n : (0 < n)%nat -> INR n / INR n = 1.
Proof. intros H. field. pose proof (INR_pos n H). lra. Qed.
Lemma frac_le_1 a n : (0 < n)%nat -> (a <= n)%nat -> INR a / INR n <= 1.
Proof. intros H L. rewrite <- (frac_one n H). now apply frac_le. Qed.
Lemma half_init i x : 0 <= i -> 0 <= / 2 * i * (1 + cos x) <= i.
Proof. intros H. pose proof (half_cos x). split; nra. Qed.

Theorem constant_step : forall init, (forall f, constant_schedule init = Ok f -> forall step, f step = init /\ 0 <= f step) /\ (init < 0 -> constant_schedule init = Err ValueError).
Proof.
  intros init. unfold constant_schedule. split.
  - intros f. destruct (Rleb 0 init) eqn:E; cbn [negb]; [|discriminate]. intros X. injection X as <-. intros s. apply Rleb_true in E. split; [reflexivity|exact E].
  - intros H. destruct (Rleb 0 init) eqn:E; [|reflexivity]. apply Rleb_true in E. lra.
Qed.
Theorem cosine_step : forall init total f, cosine_schedule init total = Ok f ->
  f 0%nat = init /\ f total = 0 /\ (forall step, 0 <= f step <= init) /\
  (forall s s', (s <= s' <= total)%nat -> f s' <= f s).
Proof.
  intros init total f. unfold cosine_schedule. destruct (Rleb 0 init) eqn:E; cbn [negb]; [|discriminate]. apply Rleb_true in E. destruct (Nat.ltb_spec 0 total) as [T|T]; cbn [negb]; [|discriminate]. intros X. injection X as <-. cbn zeta.
  split; [|split; [|split]].
  - cbn [INR]. unfold Rdiv. rewrite !Rmult_0_l, cos_0. lra.
  - rewrite frac_one by exact T. rewrite Rmult_1_l, cos_PI. lra.
  - intros step. now apply half_init.
  - intros s s' H. pose proof PI_pos. pose proof (frac_nonneg s total T). pose proof (frac_le s s' total T ltac:(lia)). pose proof (frac_le_1 s' total T ltac:(lia)).
    assert (C : cos (INR s' / INR total * PI) <= cos (INR s / INR total * PI)). { apply cos_le; nra. } nra.
Qed.
(** past the horizon the step size grows again *)
Theorem cosine_restarts : forall init total f, cosine_schedule init total = Ok f -> f (2 * total)%nat = init.
Proof.
  intros init total f. unfold cosine_schedule. destruct (Rleb 0 init) eqn:E; cbn [negb]; [|discriminate]. destruct (Nat.ltb_spec 0 total) as [T|T]; cbn [negb]; [|discriminate]. intros X. injection X as <-. cbn zeta.
  assert (Y : INR (2 * total) / INR total * PI = 2 * PI). { rewrite mult_INR. cbn [INR]. field. pose proof (INR_pos total T). lra. } rewrite Y, cos_2PI. lra.
Qed.
Theorem polynomial_step : forall a b gamma, (polynomial_schedule a b gamma = Err ValueError <-> gamma <= / 2 \/ 1 < gamma) /\
  forall f, polynomial_schedule a b gamma = Ok f -> 0 < a -> 0 < b -> forall s, 0 < f (Datatypes.S s) < f s.
Proof.
  intros a b gamma. unfold polynomial_schedule. destruct (Rleb gamma (/ 2)) eqn:E1; cbn [orb].
  - apply Rleb_true in E1. split; [tauto|discriminate].
  - apply Rleb_false in E1. destruct (Rleb gamma 1) eqn:E2; cbn [negb].
    + apply Rleb_true in E2. split. { split; [discriminate|lra]. } intros f X A B s. injection X as <-. pose proof (pos_INR s). rewrite S_INR. split.
      * apply Rmult_lt_0_compat; [exact A|]. unfold Rpower. apply exp_pos.
      * apply Rmult_lt_compat_l; [exact A|]. unfold Rpower. apply exp_increasing. assert (ln (b + INR s) < ln (b + (INR s + 1))) by (apply ln_increasing; lra). nra.
    + apply Rleb_false in E2. split; [tauto|discriminate].
Qed.
Theorem burnin_step : forall init final burnin f, (0 < burnin)%nat -> cosine_burnin_schedule init final burnin = Ok f ->
  f 0%nat = init /\ (forall s, (burnin <= s)%nat -> f s = final) /\ (forall s, Rmin init final <= f s <= Rmax init final) /\
  (init <= final -> forall s, f s <= f (Datatypes.S s)) /\ (final <= init -> forall s, f (Datatypes.S s) <= f s).
Proof.
  intros init final burnin f H. unfold cosine_burnin_schedule. destruct (Rleb 0 init) eqn:E1; cbn [negb]; [|discriminate]. destruct (Rleb 0 final) eqn:E2; cbn [negb]; [|discriminate]. intros X. injection X as <-. cbn zeta.
  pose proof PI_pos as PP. assert (M : forall s, 0 <= Rmin (INR s / INR burnin) 1 <= 1). { intros s. split. apply Rmin_glb; [now apply frac_nonneg|lra]. apply Rmin_r. }
  assert (D : forall s, cos (Rmin (INR (Datatypes.S s) / INR burnin) 1 * PI) <= cos (Rmin (INR s / INR burnin) 1 * PI)).
  { intros s. assert (Rmin (INR s / INR burnin) 1 <= Rmin (INR (Datatypes.S s) / INR burnin) 1). { apply Rle_min_compat_r. apply frac_le; lia. } pose proof (M s). pose proof (M (Datatypes.S s)). apply cos_le; nra. }
  split; [|split; [|split; [|split]]].
  - assert (Z : Rmin (INR 0 / INR burnin) 1 = 0). { cbn [INR]. unfold Rdiv. rewrite Rmult_0_l. apply Rmin_left. lra. } rewrite Z, Rmult_0_l, cos_0. lra.
  - intros s L. rewrite Rmin_right. rewrite Rmult_1_l, cos_PI. lra. rewrite <- (frac_one burnin H). now apply frac_le.
  - intros s. pose proof (half_cos (Rmin (INR s / INR burnin) 1 * PI)). set (k := (1 + cos (Rmin (INR s / INR burnin) 1 * PI)) * / 2). assert (0 <= k <= 1) by (unfold k; lra). pose proof (Rmin_l init final). pose proof (Rmin_r init final). pose proof (Rmax_l init final). pose proof (Rmax_r init final). split; nra.
  - intros L s. pose proof (D s). nra.
  - intros L s. pose proof (D s). nra.
Qed.
Theorem cyclical_step : forall init burnin cycle f, (0 < cycle)%nat -> cyclical_schedule init burnin cycle = Ok f ->
  (forall s, 0 <= f s <= init) /\ (forall s, (s <= burnin + 1)%nat -> f s = init) /\
  (forall s, (burnin < s)%nat -> f (s + cycle)%nat = f s) /\
  (forall k j, (j + 1 < cycle)%nat -> let s := (burnin + 1 + k * cycle + j)%nat in 0 < init -> f (Datatypes.S s) < f s) /\
  (forall k, f (burnin + 1 + k * cycle)%nat = init).
Proof.
  intros init burnin cycle f H. unfold cyclical_schedule. destruct (Rleb 0 init) eqn:E1; cbn [negb]; [|discriminate]. apply Rleb_true in E1. intros X. injection X as <-. cbn zeta. pose proof PI_pos as PP.
  assert (Z : forall s, (s - burnin - 1) mod cycle = 0%nat -> / 2 * init * (1 + cos (INR ((s - burnin - 1) mod cycle) / INR cycle * PI)) = init). { intros s ->. cbn [INR]. unfold Rdiv. rewrite !Rmult_0_l, cos_0. lra. }
  split; [|split; [|split; [|split]]].
  - intros s. now apply half_init.
  - intros s L. apply Z. replace (s - burnin - 1)%nat with 0%nat by lia. apply Nat.mod_0_l. lia.
  - intros s L. do 6 f_equal. replace (s + cycle - burnin - 1)%nat with (s - burnin - 1 + 1 * cycle)%nat by lia. apply Nat.mod_add. lia.
  - intros k j L I. replace (Datatypes.S (burnin + 1 + k * cycle + j) - burnin - 1)%nat with (Datatypes.S j + k * cycle)%nat by lia. replace (burnin + 1 + k * cycle + j - burnin - 1)%nat with (j + k * cycle)%nat by lia. rewrite !Nat.mod_add by lia. rewrite !Nat.mod_small by lia.
    pose proof (frac_nonneg j cycle H). pose proof (frac_lt j (Datatypes.S j) cycle H ltac:(lia)). pose proof (frac_le_1 (Datatypes.S j) cycle H ltac:(lia)).
    assert (C : cos (INR (Datatypes.S j) / INR cycle * PI) < cos (INR j / INR cycle * PI)). { apply cos_decreasing_1; nra. } nra.
  - intros k. apply Z. replace (burnin + 1 + k * cycle - burnin - 1)%nat with (0 + k * cycle)%nat by lia. rewrite Nat.mod_add by lia. apply Nat.mod_0_l. lia.
Qed.
(** the cycles of the schedule start one step after the cycles of the phase test: with no
    burn-in, the first count of every later cycle gets the smallest step size of all *)
Theorem cyclical_offset : forall init cycle f k s, (2 <= cycle)%nat -> 0 < init -> cyclical_schedule init 0 cycle = Ok f ->
  (1 <= k)%nat -> phase cycle (k * cycle) == 0%Q /\ ((s mod cycle <> 0)%nat -> f (k * cycle)%nat < f s).
Proof.
  intros init cycle f k s H I. unfold cyclical_schedule. destruct (Rleb 0 init) eqn:E1; cbn [negb]; [|discriminate]. intros X K. injection X as <-. cbn zeta. split.
  - unfold phase. rewrite Nat.mod_mul by lia. reflexivity.
  - intros N. pose proof PI_pos as PP. assert (S0 : (s <> 0)%nat) by (intros ->; rewrite Nat.mod_0_l in N; lia).
    assert (A : ((k * cycle - 0 - 1) mod cycle = cycle - 1)%nat). { replace (k * cycle - 0 - 1)%nat with ((cycle - 1) + (k - 1) * cycle)%nat by nia. rewrite Nat.mod_add by lia. apply Nat.mod_small. lia. }
    assert (B : ((s - 0 - 1) mod cycle < cycle - 1)%nat). { pose proof (Nat.mod_upper_bound (s - 0 - 1) cycle ltac:(lia)) as U. destruct (Nat.eq_dec ((s - 0 - 1) mod cycle) (cycle - 1)) as [Q|Q]; [|lia]. exfalso. apply N. pose proof (Nat.div_mod (s - 0 - 1) cycle ltac:(lia)) as D. rewrite Q in D. replace s with (0 + (Datatypes.S ((s - 0 - 1) / cycle)) * cycle)%nat by nia. rewrite Nat.mod_add by lia. apply Nat.mod_0_l. lia. }
    rewrite A. set (j := ((s - 0 - 1) mod cycle)%nat) in *. pose proof (frac_nonneg j cycle ltac:(lia)). pose proof (frac_lt j (cycle - 1) cycle ltac:(lia) B). pose proof (frac_le_1 (cycle - 1) cycle ltac:(lia) ltac:(lia)).
    assert (C : cos (INR (cycle - 1) / INR cycle * PI) < cos (INR j / INR cycle * PI)). { apply cos_decreasing_1; nra. } nra.
Qed.

(** ---- preconditioners ---- *)
Theorem rmsprop_range : forall factor eps gs G e, 0 <= factor <= 1 -> (forall g, In g gs -> - G <= g <= G) -> 0 <= e <= G * G ->
  0 <= fold_left (fun e g => pc_update (rmsprop factor eps) g e) gs e <= G * G.
Proof.
  intros factor eps gs G e F. revert e. induction gs as [|g gs IH]; intros e B H; cbn [fold_left]; [exact H|]. apply IH. intros x Hx. apply B. now right.
  cbn [pc_update rmsprop]. assert (Bg := B g (or_introl eq_refl)). assert (0 <= g * g <= G * G) by (split; nra). split; nra.
Qed.
Lemma sqrt_pos_arg eps e : 0 < eps -> 0 < sqrt (eps + sqrt e).
Proof. intros H. apply sqrt_lt_R0. pose proof (sqrt_pos e). lra. Qed.
Theorem rmsprop_inverse : forall factor eps v (e : R), 0 < eps ->
  pc_sqrt (rmsprop factor eps) (pc_sqrt_inv (rmsprop factor eps) v e) e = v /\
  pc_sqrt_inv (rmsprop factor eps) (pc_sqrt (rmsprop factor eps) v e) e = v /\
  pc_sqrt_inv (rmsprop factor eps) (pc_sqrt_inv (rmsprop factor eps) v e) e = pc_inv (rmsprop factor eps) v e /\
  pc_inv (rmsprop factor eps) (pc_sqrt (rmsprop factor eps) (pc_sqrt (rmsprop factor eps) v e) e) e = v.
Proof.
  intros factor eps v e H. cbn [pc_sqrt pc_sqrt_inv pc_inv rmsprop]. assert (P := sqrt_pos_arg eps e H). assert (Q : sqrt (eps + sqrt e) * sqrt (eps + sqrt e) = eps + sqrt e). { apply sqrt_sqrt. pose proof (sqrt_pos e). lra. } pose proof (sqrt_pos e).
  set (r := sqrt (eps + sqrt e)) in *. repeat split.
  - field. lra.
  - field. lra.
  - rewrite <- Q. field. lra.
  - rewrite <- Q. field. lra.
Qed.

(** ---- integrators ---- *)
Section Int.
Context (P : preconditioner) (K : Type) (split : K -> K * K) (normal : K -> R).
Lemma integrate_count upd : (forall g st, sg_count P K (snd (upd g st)) = Datatypes.S (sg_count P K st)) ->
  forall gs st, sg_count P K (snd (integrate P K upd gs st)) = (sg_count P K st + length gs)%nat /\ length (fst (integrate P K upd gs st)) = length gs.
Proof.
  intros H gs. induction gs as [|g gs IH]; intros st; cbn [integrate]. cbn [fst snd length]. lia.
  specialize (H g st). destruct (upd g st) as [u st']. specialize (IH st'). destruct (integrate P K upd gs st') as [us st'']. cbn [fst snd length] in *. lia.
Qed.
End Int.
Theorem integrator_counts : forall P K split normal decay resample cycle ratio schedule gs key,
  sg_count P K (snd (integrate P K (sghmc_update P K split normal decay resample schedule) gs (sghmc_init P K key))) = length gs /\
  sg_count P K (snd (integrate P K (cyclical_update P K split normal cycle ratio schedule) gs (sghmc_init P K key))) = length gs.
Proof.
  intros. split.
  - apply (integrate_count P K (sghmc_update P K split normal decay resample schedule)). intros g st. reflexivity.
  - apply (integrate_count P K (cyclical_update P K split normal cycle ratio schedule)). intros g st. unfold cyclical_update. destruct (Qle_bool _ _); reflexivity.
Qed.
Theorem sgld_rmsprop : forall K split normal factor eps schedule g st, 0 < eps -> 0 <= schedule (sg_count (rmsprop factor eps) K st) ->
  let step := schedule (sg_count (rmsprop factor eps) K st) in
  let e := sg_pc (rmsprop factor eps) K st * factor + g * g * (1 - factor) in
  let M := eps + sqrt e in
  fst (sghmc_update (rmsprop factor eps) K split normal 0 None schedule g st) = step * (g / M) + sqrt (2 * step) * (normal (fst (split (sg_key _ _ st))) / sqrt M).
Proof.
  intros K split normal factor eps schedule g st H S0. cbn zeta. unfold sghmc_update. cbn [fst]. cbn [pc_update pc_sqrt pc_inv rmsprop]. set (step := schedule _) in *. set (e := (_ * factor + _)%R). set (z := normal _).
  assert (P := sqrt_pos_arg eps e H). assert (Q : sqrt (eps + sqrt e) * sqrt (eps + sqrt e) = eps + sqrt e). { apply sqrt_sqrt. pose proof (sqrt_pos e). lra. } pose proof (sqrt_pos e).
  assert (S1 : sqrt step * sqrt step = step) by (now apply sqrt_sqrt). rewrite (sqrt_mult 2 step) by lra. rewrite Rminus_0_r, Rmult_1_r. set (q := sqrt step) in *. set (r := sqrt (eps + sqrt e)) in *. set (t := sqrt 2). rewrite <- Q. rewrite <- S1. field. lra.
Qed.
Theorem sgld_identity : forall K split normal schedule g st, 0 <= schedule (sg_count identity_pc K st) ->
  let step := schedule (sg_count identity_pc K st) in
  fst (sghmc_update identity_pc K split normal 0 None schedule g st) = step * g + sqrt (2 * step) * normal (fst (split (sg_key _ _ st))).
Proof.
  intros K split normal schedule g st S0. cbn zeta. unfold sghmc_update. cbn [fst pc_update pc_sqrt pc_inv identity_pc]. set (step := schedule _) in *. assert (S1 : sqrt step * sqrt step = step) by (now apply sqrt_sqrt). rewrite (sqrt_mult 2 step) by lra. rewrite Rminus_0_r, Rmult_1_r. rewrite <- S1 at 3. ring.
Qed.
Theorem sghmc_identity : forall K split normal decay schedule g st,
  let step := schedule (sg_count identity_pc K st) in
  let m := decay * sg_momentum _ _ st + sqrt step * g + sqrt (2 * (1 - decay)) * normal (fst (split (sg_key _ _ st))) in
  sghmc_update identity_pc K split normal decay None schedule g st =
    (sqrt step * m, {| sg_count := Datatypes.S (sg_count _ _ st); sg_key := snd (split (sg_key _ _ st)); sg_momentum := m; sg_pc := sg_pc _ _ st |}).
Proof.
  intros. unfold sghmc_update. cbn [pc_update pc_sqrt pc_inv identity_pc]. assert (E : decay * sg_momentum identity_pc K st + g * sqrt (schedule (sg_count identity_pc K st)) + normal (fst (split (sg_key identity_pc K st))) * sqrt (2 * (1 - decay)) = m) by (unfold m, step; ring). rewrite E. rewrite (Rmult_comm m). reflexivity.
Qed.
Theorem momentum_forgotten : forall P K split normal decay k schedule g st st',
  (sg_count P K st mod k = 0)%nat -> sg_count P K st = sg_count P K st' -> sg_key P K st = sg_key P K st' -> sg_pc P K st = sg_pc P K st' ->
  sghmc_update P K split normal decay (Some k) schedule g st = sghmc_update P K split normal decay (Some k) schedule g st'.
Proof.
  intros P K split normal decay k schedule g st st' M C Ky Pc. unfold sghmc_update. rewrite <- C, <- Ky, <- Pc, M. reflexivity.
Qed.
Theorem exploration_no_noise : forall P K split normal cycle ratio schedule g st, (Qle_bool ratio (phase cycle (sg_count P K st)) = false) ->
  let r := cyclical_update P K split normal cycle ratio schedule g st in
  fst r = pc_inv P (schedule (sg_count P K st) * g) (pc_update P g (sg_pc P K st)) /\ sg_key P K (snd r) = sg_key P K st /\
  sg_momentum P K (snd r) = sg_momentum P K st /\ sg_pc P K (snd r) = pc_update P g (sg_pc P K st).
Proof.
  intros P K split normal cycle ratio schedule g st H. unfold cyclical_update. rewrite H. cbn zeta. unfold sgd_update. cbn [fst snd sg_key sg_momentum sg_pc]. repeat split. f_equal. ring.
Qed.
Theorem sampling_is_sgld : forall P K split normal cycle ratio schedule g st, (Qle_bool ratio (phase cycle (sg_count P K st)) = true) ->
  cyclical_update P K split normal cycle ratio schedule g st = sghmc_update P K split normal 0 None schedule g st.
Proof. intros P K split normal cycle ratio schedule g st H. unfold cyclical_update. now rewrite H. Qed.
(** keys: the noise of the i-th SGHMC update uses the i-th key of the split chain *)
Theorem sghmc_keys : forall P K split normal decay resample schedule gs st,
  sg_key P K (snd (integrate P K (sghmc_update P K split normal decay resample schedule) gs st)) = chain_key split (length gs) (sg_key P K st).
Proof.
  intros P K split normal decay resample schedule gs. induction gs as [|g gs IH]; intros st; [reflexivity|]. cbn [integrate length chain_key]. destruct (sghmc_update P K split normal decay resample schedule g st) as [u st'] eqn:E. specialize (IH st'). destruct (integrate P K _ gs st') as [us st'']. cbn [snd] in *. rewrite IH. f_equal. unfold sghmc_update in E. injection E as _ <-. reflexivity.
Qed.
(** the sample taken at the first step of a sampling phase was produced by an exploration step *)
Theorem first_sample_refuted : exists n thin L ratio step, do_sample_cyclical n thin L ratio step 0 = Ok true /\
  forall P K split normal normal' schedule g st, sg_count P K st = (step - 1)%nat ->
    cyclical_update P K split normal L ratio schedule g st = cyclical_update P K split normal' L ratio schedule g st.
Proof.
  exists 1%nat, 1%nat, 4%nat, (1 # 2), 2%nat. split; [reflexivity|]. intros P K split normal normal' schedule g st C. unfold cyclical_update. rewrite C. reflexivity.
Qed.

(** ---- SWAG samples ---- *)
Lemma rsum_cons x l : rsum (x :: l) = x + rsum l.
Proof. reflexivity. Qed.
Theorem swag_sample_normal : forall mean std dev z1 z2, length z2 = length dev -> dev <> [] ->
  exists coefs, length coefs = Datatypes.S (length dev) /\
    swag_sample mean std dev z1 z2 = mean + rdot coefs (z1 :: z2) /\
    rdot coefs coefs = std * std / 2 + rdot dev dev / (2 * INR (length dev)).
Proof.
  intros mean std dev z1 z2 L NE. assert (N : 0 < INR (length dev)). { apply INR_pos. destruct dev; [congruence|cbn; lia]. }
  set (c1 := 1 / sqrt 2). set (c2 := c1 / sqrt (INR (length dev))). exists (c1 * std :: map (fun d => c2 * d) dev). split; [cbn [length]; now rewrite map_length|].
  assert (S2 : sqrt 2 * sqrt 2 = 2) by (apply sqrt_sqrt; lra). assert (P2 : 0 < sqrt 2) by (apply sqrt_lt_R0; lra).
  assert (SN : sqrt (INR (length dev)) * sqrt (INR (length dev)) = INR (length dev)) by (apply sqrt_sqrt; lra). assert (PN : 0 < sqrt (INR (length dev))) by (now apply sqrt_lt_R0).
  split.
  - unfold swag_sample. fold c1. fold c2. unfold rdot. cbn [combine map fst snd]. rewrite rsum_cons. assert (G : forall d z, rsum (map (fun p => fst p * snd p) (combine (map (fun d => c2 * d) d) z)) = c2 * rsum (map (fun p => fst p * snd p) (combine d z))).
    { induction d as [|a d IH]; intros [|b z]; cbn [map combine fst snd]; try (unfold rsum; cbn [fold_right]; ring). rewrite !rsum_cons, IH. ring. }
    rewrite G. ring.
  - unfold rdot. cbn [combine map fst snd]. rewrite rsum_cons. assert (G : forall d, rsum (map (fun p => fst p * snd p) (combine (map (fun d => c2 * d) d) (map (fun d => c2 * d) d))) = c2 * c2 * rsum (map (fun p => fst p * snd p) (combine d d))).
    { induction d as [|a d IH]; cbn [map combine fst snd]; try (unfold rsum; cbn [fold_right]; ring). rewrite !rsum_cons, IH. ring. }
    rewrite G. set (D := rsum _). assert (C1 : c1 * c1 = / 2). { unfold c1. transitivity (/ (sqrt 2 * sqrt 2)). field. lra. now rewrite S2. }
    assert (C2 : c2 * c2 = / (2 * INR (length dev))). { unfold c2. transitivity (c1 * c1 * / (sqrt (INR (length dev)) * sqrt (INR (length dev)))). field. lra. rewrite C1, SN. field. lra. }
    replace (c1 * std * (c1 * std)) with (c1 * c1 * (std * std)) by ring. rewrite C1, C2. field. lra.
Qed.

(** ---- kernel Stein discrepancy ---- *)
Lemma rminus_opp x : forall y, rminus y x = map Ropp (rminus x y).
Proof. unfold rminus. induction x as [|a x IH]; intros [|b y]; try reflexivity. cbn [combine map fst snd]. rewrite <- IH. apply (f_equal2 cons); [ring|reflexivity]. Qed.
Lemma rdot_comm a : forall b, rdot a b = rdot b a.
Proof. unfold rdot. induction a as [|x a IH]; intros [|y b]; try reflexivity. cbn [combine map fst snd]. rewrite !rsum_cons, IH. ring. Qed.
Lemma rdot_opp a : forall b, rdot a (map Ropp b) = - rdot a b.
Proof. unfold rdot. induction a as [|x a IH]; intros [|y b]; cbn [map combine fst snd]; try (unfold rsum; cbn [fold_right]; ring). rewrite !rsum_cons, IH. ring. Qed.
Theorem stein_symmetric : forall c beta x y gx gy, length x = length y -> stein_kernel c beta x y gx gy = stein_kernel c beta y x gy gx.
Proof.
  intros c beta x y gx gy L. unfold stein_kernel. rewrite L. rewrite (rminus_opp x y). rewrite !rdot_opp. rewrite (rdot_comm (map Ropp (rminus x y))), rdot_opp. rewrite (rdot_comm gy gx). rewrite !Ropp_involutive. ring.
Qed.
Lemma rdot_self_zero x : rminus x x = repeat 0 (length x).
Proof. unfold rminus. induction x as [|a x IH]; [reflexivity|]. cbn [combine map fst snd length repeat]. rewrite IH. apply (f_equal2 cons); [ring|reflexivity]. Qed.
Lemma rdot_zeros a : forall n, rdot a (repeat 0 n) = 0.
Proof. unfold rdot. induction a as [|x a IH]; intros [|n]; cbn [repeat combine map fst snd]; try reflexivity. rewrite rsum_cons, IH. ring. Qed.
Lemma Rpower_one_base y : Rpower 1 y = 1.
Proof. unfold Rpower. rewrite ln_1, Rmult_0_r. apply exp_0. Qed.
Theorem ksd_single : forall x g, ksd None None [x] [g] = Ok (sqrt (rdot g g + INR (length x))).
Proof.
  intros x g. unfold ksd. cbn [combine map fst snd length]. f_equal. unfold rsum. cbn [fold_right]. rewrite !Rplus_0_r. unfold stein_kernel. rewrite rdot_self_zero, !rdot_zeros. rewrite Rplus_0_r, Rmult_1_r, !Rpower_one_base.
  cbn [INR]. unfold Rdiv. rewrite Rinv_1, Rmult_1_r. f_equal. field.
Qed.
Theorem ksd_shift : forall c beta (a : R) x y gx gy, length x = length y ->
  stein_kernel c beta (map (Rplus a) x) (map (Rplus a) y) gx gy = stein_kernel c beta x y gx gy.
Proof.
  intros c beta a x y gx gy L. unfold stein_kernel. rewrite map_length. assert (E : rminus (map (Rplus a) x) (map (Rplus a) y) = rminus x y). { clear. unfold rminus. revert y. induction x as [|b x IH]; intros [|d y]; try reflexivity. cbn [map combine fst snd]. rewrite IH. apply (f_equal2 cons); [ring|reflexivity]. } now rewrite E.
Qed.
Theorem ksd_arguments : forall c beta samples grads v, ksd c beta samples grads = Ok v -> c = None /\ beta = None /\ 0 <= v.
Proof.
  intros [c|] [b|] samples grads v; cbn [ksd]; try discriminate. intros X. injection X as <-. repeat split. apply Rmult_le_pos. apply sqrt_pos. destruct samples as [|s l]. cbn [length INR]. rewrite Rinv_0. lra. left. apply Rinv_0_lt_compat. apply INR_pos. cbn. lia.
Qed.

(** concrete cases *)
Lemma cosine_case : exists f, cosine_schedule (/ 10) 4 = Ok f /\ f 2%nat = / 20 /\ cosine_schedule (/ 10) 0 = Err ValueError.
Proof.
  unfold cosine_schedule. assert (E : Rleb 0 (/ 10) = true) by (apply Rleb_true; lra). rewrite E. cbn [negb Nat.ltb Nat.leb]. eexists. split; [reflexivity|]. split; [|reflexivity]. cbn zeta.
  replace (INR 2 / INR 4 * PI) with (PI / 2) by (cbn [INR]; field). rewrite cos_PI2. lra.
Qed.
Lemma integrator_case : fst (integrate identity_pc nat (cyclical_update identity_pc nat (fun k => (k, Datatypes.S k)) INR 2 (1 # 2) (fun _ => / 2)) [1; 2; 3] (sghmc_init identity_pc nat 5%nat)) = [/ 2; 6; 3 / 2].
Proof.
  cbn -[INR sqrt IZR Rmult Rplus Rminus Ropp Rinv Rdiv].
  apply (f_equal2 cons); [lra|]. apply (f_equal2 cons). 2: { apply (f_equal2 cons); [lra|reflexivity]. }
  assert (S2 : sqrt (2 * (1 - 0)) * sqrt (/ 2) = 1). { rewrite <- sqrt_mult by lra. replace (2 * (1 - 0) * / 2) with 1 by lra. apply sqrt_1. } assert (S1 : sqrt (/ 2) * sqrt (/ 2) = / 2) by (apply sqrt_sqrt; lra). cbn [INR]. nra.
Qed.
Lemma ksd_case : ksd None None [[5; 1]] [[3; 4]] = Ok (sqrt 27).
Proof. rewrite ksd_single. f_equal. f_equal. unfold rdot. cbn [combine map fst snd length INR]. unfold rsum. cbn [fold_right]. lra. Qed.
