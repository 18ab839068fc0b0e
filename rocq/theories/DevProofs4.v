(** Sharding of batches, mutable collections and metrics on several devices. *)
From Coq Require Import List Arith Lia Bool QArith Reals Lra Psatz.
From Verif Require Import Lib LoaderModel LoaderSpec LoaderProofs LoaderProofs2 TempModel LikModel TrainModel DevModel DevSpec DevProofs DevProofs2 DevProofs3.
Import ListNotations.
Open Scope nat_scope.

(** ---- sharding ---- *)
Lemma reshape_even : forall X d (b : list X) sh, 1 <= d -> b <> [] -> reshape_devices d b = Ok sh -> even_shards d b sh.
Proof.
  intros X d b sh Hd N E. destruct (Nat.eq_dec (length b mod d) 0) as [Z|Z]; [|rewrite reshape_devices_err in E by exact Z; discriminate].
  destruct (reshape_devices_ok d b Hd Z) as [sh' [E' [C [L F]]]]. assert (sh' = sh) by congruence. subst sh'.
  split; [exact L|]. split; [exact C|]. exists (length b / d). split; [|exact F].
  apply Nat.div_exact in Z; [|lia]. destruct b as [|x b]; [congruence|]. cbn [length] in *. destruct (S (length b) / d); lia.
Qed.

Lemma reshape_shards : forall X d (b : list X), 1 <= d -> length b mod d = 0 -> exists sh, reshape_devices d b = Ok sh /\ length sh = d /\ concat sh = b /\ Forall (fun s => length s * d = length b) sh.
Proof.
  intros X d b Hd Z. destruct (reshape_devices_ok d b Hd Z) as [sh [E [C [L F]]]]. exists sh. repeat split; try assumption.
  apply Forall_impl with (2 := F). intros s ->. apply Nat.div_exact in Z; lia.
Qed.

Lemma device_loader_ok : forall X Y d (l : list (batch X Y)), 1 <= d ->
  Forall (fun b => length (fst b) mod d = 0 /\ length (snd b) mod d = 0) l ->
  exists out, add_device_dim_loader d l = Ok out /\
    Forall2 (fun b s => (length (fst s) = d /\ concat (fst s) = fst b /\ Forall (fun u => length u * d = length (fst b)) (fst s)) /\
                        (length (snd s) = d /\ concat (snd s) = snd b /\ Forall (fun u => length u * d = length (snd b)) (snd s))) l out.
Proof.
  intros X Y d l Hd. induction l as [|[xs ys] l IH]; intros F; [exists []; split; [reflexivity|constructor]|].
  apply Forall_cons_iff in F. destruct F as [[F1 F2] F']. cbn [fst snd] in F1, F2. destruct (IH F') as [out [E H]].
  destruct (reshape_shards X d xs Hd F1) as [sx [Ex Hx]]. destruct (reshape_shards Y d ys Hd F2) as [sy [Ey Hy]].
  exists ((sx, sy) :: out). split.
  - unfold add_device_dim_loader in *. cbn [mapM fst snd]. rewrite Ex. cbn [bind]. rewrite Ey. cbn [rmap bind]. rewrite E. reflexivity.
  - constructor; [split; assumption|exact H].
Qed.

Lemma device_loader_err : forall X Y d (l : list (batch X Y)), 
  Exists (fun b => length (fst b) mod d <> 0 \/ length (snd b) mod d <> 0) l -> add_device_dim_loader d l = Err ValueError.
Proof.
  intros X Y d l. unfold add_device_dim_loader. induction l as [|[xs ys] l IH]; intros F; [inversion F|]. cbn [mapM fst snd].
  destruct (Nat.eq_dec (length xs mod d) 0) as [Zx|Zx]; [|rewrite reshape_devices_err by exact Zx; reflexivity].
  unfold reshape_devices at 1. rewrite Zx. cbn [Nat.eqb negb bind].
  destruct (Nat.eq_dec (length ys mod d) 0) as [Zy|Zy]; [|rewrite reshape_devices_err by exact Zy; reflexivity].
  unfold reshape_devices at 1. rewrite Zy. cbn [Nat.eqb negb bind rmap].
  rewrite IH; [reflexivity|]. inversion F; subst; [cbn [fst snd] in *; tauto|assumption].
Qed.

Lemma well_batched_sizes : forall A b d (data : list A) bs, 1 <= b -> 1 <= d -> well_batched b data bs ->
  (Forall (fun c => length c mod d = 0) bs <-> (length data mod b) mod d = 0 /\ (b <= length data -> b mod d = 0)).
Proof.
  intros A b d data bs Hb Hd [C [init [last [E [F [Ll [N1 N2]]]]]]]. subst bs.
  assert (Len : length data = length init * b + length last).
  { rewrite <- C, concat_app, app_length. cbn [concat]. rewrite app_nil_r. f_equal. now apply even_length. }
  rewrite Forall_app. assert (Fi : Forall (fun c => length c mod d = 0) init <-> (init = [] \/ b mod d = 0)).
  { split; intros H.
    - destruct init as [|c init]; [now left|right]. inversion H; inversion F; subst. assumption.
    - destruct H as [->|H]; [constructor|]. apply Forall_impl with (2 := F). now intros c ->. }
  rewrite Fi. rewrite (Forall_cons_iff _ last []). 
  assert (M0 : 0 mod d = 0) by (apply Nat.mod_0_l; lia).
  destruct (Nat.eq_dec (length last) b) as [Lb|Lb].
  - assert (Z : length data mod b = 0) by (rewrite Len, Lb; replace (length init * b + b) with (S (length init) * b) by lia; apply Nat.mod_mul; lia).
    rewrite Z, Lb, M0. split.
    + intros [_ [H _]]. auto.
    + intros [_ H]. assert (H' := H ltac:(lia)). split; [now right|]. split; [exact H'|constructor].
  - assert (Z : length data mod b = length last) by (rewrite Len, Nat.add_comm, Nat.mod_add by lia; apply Nat.mod_small; lia).
    rewrite Z. split.
    + intros [H [H2 _]]. split; [exact H2|]. intros Hge. destruct H as [->|H]; [cbn in Len; lia|exact H].
    + intros [H H2]. split; [|split; [exact H|constructor]]. destruct init as [|c init]; [now left|right]. apply H2. rewrite Len. cbn [length]. lia.
Qed.

Lemma array_loader_devices : forall X Y (xs : list X) (ys : list Y) b d prefetch perm, 1 <= b -> 1 <= d -> length xs = length ys ->
  exists bs, from_batch_array_data xs ys (Some b) false prefetch perm = Ok bs /\
    ((exists out, add_device_dim_loader d bs = Ok out) <-> (length xs mod b) mod d = 0 /\ (b <= length xs -> b mod d = 0)).
Proof.
  intros X Y xs ys b d prefetch perm Hb Hd E. destruct (from_batch_array_data_spec xs ys b prefetch perm Hb E) as [bs [O [WX [WY [A R]]]]].
  exists bs. split; [exact O|]. rewrite <- (well_batched_sizes X b d xs (map fst bs) Hb Hd WX). rewrite Forall_map. split.
  - intros [out Ho]. apply Forall_forall. intros q I. destruct (Nat.eq_dec (length (fst q) mod d) 0) as [Z|Z]; [exact Z|].
    rewrite device_loader_err in Ho; [discriminate|]. apply Exists_exists. exists q. split; [exact I|now left].
  - intros F. destruct (device_loader_ok X Y d bs Hd) as [out [Ho _]]; [|now exists out].
    unfold aligned in A. rewrite Forall_forall in *. intros q I. split; [now apply F|]. rewrite <- (A q I). now apply F.
Qed.

Open Scope R_scope.
(** ---- mutable collections ---- *)
Section Mut.
Context {P O B K : Type}.
Notation tst := (tstate P O (list R) (option (list R))).

Definition muts (n : nat) (rs : list tst) : Prop := Forall (fun r => exists v, mutable _ _ _ _ r = Some v /\ length v = n) rs.

Lemma sync_spec : forall n (rs : list tst), rs <> [] -> muts n rs ->
  exists vs, map (mutable _ _ _ _) rs = map Some vs /\ dims n vs /\ vs <> [] /\ Forall (fun r : tst => mutable _ _ _ _ r = Some (pmean vs)) (sync_mutable rs) /\
    map (params _ _ _ _) (sync_mutable rs) = map (params _ _ _ _) rs.
Proof.
  intros n rs N H.
  exists (map (fun s : tst => match mutable _ _ _ _ s with Some v => v | None => [] end) rs).
  unfold muts in H. split; [|split; [|split; [|split]]].
  - rewrite map_map. apply map_ext_in. intros r I. rewrite Forall_forall in H. destruct (H r I) as [v [E _]]. now rewrite E.
  - unfold dims. rewrite Forall_map. apply Forall_impl with (2 := H). intros r [v [E L]]. now rewrite E.
  - destruct rs; [congruence|discriminate].
  - destruct rs as [|r rs]; [congruence|]. unfold sync_mutable. inversion H as [|? ? [v [E L]] H']; subst. rewrite E.
    rewrite Forall_map. apply Forall_forall. intros x I. reflexivity.
  - destruct rs as [|r rs]; [congruence|]. unfold sync_mutable. inversion H as [|? ? [v [E L]] H']; subst. rewrite E.
    rewrite map_map. reflexivity.
Qed.

Lemma checkpoint_average : forall n (rs : list tst), rs <> [] -> muts n rs ->
  exists vs s v, map (mutable _ _ _ _) rs = map Some vs /\ checkpointed rs = Some s /\ mutable _ _ _ _ s = Some v /\ length v = n /\ is_average vs v.
Proof.
  intros n rs N H. destruct (sync_spec n rs N H) as [vs [E [D [NV [F _]]]]].
  unfold checkpointed. destruct (sync_mutable rs) as [|s l] eqn:S.
  - assert (L := sync_mutable_length rs). rewrite S in L. destruct rs; [congruence|discriminate].
  - exists vs, s, (pmean vs). inversion F; subst. repeat split; try assumption.
    + now apply pmean_length.
    + now apply (pmean_average n).
Qed.

Lemma synced_same : forall n (rs : list tst), rs <> [] -> muts n rs -> checkpointed (sync_mutable rs) = returned (sync_mutable rs).
Proof.
  intros n rs N H. destruct (sync_spec n rs N H) as [vs [E [D [NV [F _]]]]].
  unfold checkpointed, returned. destruct (sync_mutable rs) as [|s l] eqn:Es; [reflexivity|].
  inversion F as [|? ? Hs F']; subst. unfold sync_mutable. rewrite Hs. cbn [map hd_error]. f_equal.
  assert (X : pmean (match mutable P O (list R) (option (list R)) s with Some v => v | None => [] end :: map (fun s0 : tst => match mutable _ _ _ _ s0 with Some v => v | None => [] end) l) = pmean vs).
  { apply pmean_same; [discriminate|]. constructor; [now rewrite Hs|]. rewrite Forall_map. apply Forall_impl with (2 := F'). intros x ->. reflexivity. }
  rewrite X. destruct s; cbn in *. now rewrite Hs.
Qed.

Variable vg : P -> option (list R) -> B -> K -> list R * option (list R) * R.
Variable clip : list R -> list R.
Variable opt : list R -> O -> P -> P * O.
Variable n : nat.
Hypothesis Hm : forall p v b key, length v = n -> exists v', snd (fst (vg p (Some v) b key)) = Some v' /\ length v' = n.

Lemma step_muts : forall scaled k rs sh ks, length sh = length rs -> length ks = length rs -> muts n rs ->
  muts n (fst (device_step vg clip opt scaled k rs sh ks)) /\ length (fst (device_step vg clip opt scaled k rs sh ks)) = length rs.
Proof.
  intros scaled k rs sh ks Es Ek H. destruct (device_step_map vg clip opt scaled k rs sh ks Es Ek) as [E ->].
  set (L := combine rs (combine sh ks)) in *. cbn [fst]. split; [|rewrite map_length, <- E; now rewrite map_length].
  unfold muts in *. rewrite Forall_map. rewrite <- E, Forall_map in H. apply Forall_impl with (2 := H).
  intros q [v [Ev Lv]]. destruct (Hm (params _ _ _ _ (fst q)) v (fst (snd q)) (snd (snd q)) Lv) as [v' [E' L']].
  exists v'. split; [|exact L']. unfold next.
  assert (X : snd (fst (loc vg q)) = Some v') by (unfold loc; now rewrite Ev).
  destruct (1 <? k)%nat; [destruct (S (step _ _ _ _ (fst q)) mod k =? 0)%nat|]; exact X.
Qed.
Lemma steps_muts : forall scaled k d steps rs, length rs = d ->
  Forall (fun st : list B * list K => length (fst st) = d /\ length (snd st) = d) steps -> muts n rs ->
  muts n (run_steps vg clip opt scaled k steps rs) /\ length (run_steps vg clip opt scaled k steps rs) = d.
Proof.
  intros scaled k d steps. induction steps as [|[sh ks] steps IH]; intros rs L F H; [now split|].
  apply Forall_cons_iff in F. destruct F as [[F1 F2] F']. cbn [fst snd] in F1, F2.
  destruct (step_muts scaled k rs sh ks ltac:(congruence) ltac:(congruence) H) as [H1 L1].
  unfold run_steps. cbn [fold_left fst snd]. apply IH; [congruence|exact F'|exact H1].
Qed.
Lemma sync_muts : forall rs, muts n rs -> muts n (sync_mutable rs).
Proof.
  intros rs H. destruct rs as [|r rs]; [exact H|]. destruct (sync_spec n (r :: rs) ltac:(discriminate) H) as [vs [E [D [NV [F _]]]]].
  apply Forall_impl with (2 := F). intros x Ex. exists (pmean vs). split; [exact Ex|now apply pmean_length].
Qed.
Lemma epochs_muts : forall scaled k d epochs rs, length rs = d ->
  Forall (fun e : list (list B * list K) * bool => Forall (fun st => length (fst st) = d /\ length (snd st) = d) (fst e)) epochs -> muts n rs ->
  muts n (run_epochs vg clip opt scaled k epochs rs) /\ length (run_epochs vg clip opt scaled k epochs rs) = d.
Proof.
  intros scaled k d epochs. induction epochs as [|[st v] epochs IH]; intros rs L F H; [now split|].
  apply Forall_cons_iff in F. destruct F as [F1 F']. cbn [fst snd] in F1.
  destruct (steps_muts scaled k d st rs L F1 H) as [H1 L1].
  unfold run_epochs. cbn [fold_left fst snd]. apply IH; [| exact F' |]; destruct v; try assumption.
  - now rewrite sync_mutable_length.
  - now apply sync_muts.
Qed.

Lemma validated_run : forall scaled k d epochs last s v, (0 < d)%nat -> mutable _ _ _ _ s = Some v -> length v = n ->
  Forall (fun e : list (list B * list K) * bool => Forall (fun st => length (fst st) = d /\ length (snd st) = d) (fst e)) (epochs ++ [(last, true)]) ->
  let rs := run_epochs vg clip opt scaled k (epochs ++ [(last, true)]) (replicate d s) in
  returned rs <> None /\ checkpointed rs = returned rs.
Proof.
  intros scaled k d epochs last s v Hd Es Lv F rs.
  apply Forall_app in F. destruct F as [F1 F2]. apply Forall_cons_iff in F2. destruct F2 as [F2 _]. cbn [fst] in F2.
  assert (H0 : muts n (replicate d s)).
  { apply Forall_forall. intros r I. apply repeat_spec in I. subst r. now exists v. }
  destruct (epochs_muts scaled k d epochs (replicate d s) (repeat_length _ _) F1 H0) as [H1 L1].
  destruct (steps_muts scaled k d last _ L1 F2 H1) as [H2 L2].
  unfold rs. unfold run_epochs at 1 2 3. rewrite fold_left_app. cbn [fold_left fst snd].
  fold (run_epochs vg clip opt scaled k epochs (replicate d s)).
  set (X := run_steps vg clip opt scaled k last (run_epochs vg clip opt scaled k epochs (replicate d s))) in *.
  assert (NX : X <> []) by (intros Z; rewrite Z in L2; cbn in L2; lia). split.
  - unfold returned. assert (L3 := sync_mutable_length X). destruct (sync_mutable X); [cbn in L3; lia|discriminate].
  - now apply (synced_same n).
Qed.
End Mut.

(** ---- metrics ---- *)
Lemma metric_mean : forall X (f : X -> R) d b sh, (0 < d)%nat -> even_shards d b sh ->
  device_metric (fun s => rmean (map f s)) sh = rmean (map f b).
Proof.
  intros X f d b sh Hd [L [C [m [Hm F]]]]. subst b. unfold device_metric. apply mean_even with (m := m); try assumption.
  intros ->. cbn in L. lia.
Qed.
Lemma metric_merged : forall X d (b : list X) sh (metric : list X -> R), even_shards d b sh -> metric (merged sh) = metric b.
Proof. intros X d b sh metric [_ [C _]]. unfold merged. now rewrite C. Qed.

Lemma rsum_sq_bound : forall (l : list R) c, 2 * c * rsum l - INR (length l) * (c * c) <= rsum (map (fun x => x * x) l).
Proof.
  intros l c. induction l as [|x l IH]; unfold rsum in *; [cbn; lra|]. cbn [map fold_right length]. rewrite S_INR.
  assert (H := Rle_0_sqr (x - c)). unfold Rsqr in H. nra.
Qed.
Lemma rmean_sqrt_le : forall l, l <> [] -> Forall (fun x => 0 <= x) l -> rmean (map sqrt l) <= sqrt (rmean l).
Proof.
  intros l N F. assert (Z : 0 < INR (length l)) by (apply lt_0_INR; destruct l; [congruence|cbn; lia]).
  assert (S0 : 0 <= rsum (map sqrt l)).
  { clear. induction l as [|x l IH]; unfold rsum in *; cbn [map fold_right]; [lra|]. assert (H := sqrt_pos x). lra. }
  apply Rsqr_incr_0_var; [|apply sqrt_pos].
  assert (Pl : 0 <= rsum l).
  { clear -F. induction F as [|x l Hx F IH]; unfold rsum in *; cbn [fold_right]; lra. }
  rewrite Rsqr_sqrt; [|unfold rmean; apply Rmult_le_pos; [exact Pl|left; now apply Rinv_0_lt_compat]].
  assert (B := rsum_sq_bound (map sqrt l) (rmean (map sqrt l))).
  rewrite map_map in B. replace (map (fun x => sqrt x * sqrt x) l) with l in B.
  2:{ symmetry. rewrite <- (map_id l) at 2. apply map_ext_in. intros x I. apply sqrt_sqrt. exact (proj1 (Forall_forall _ _) F x I). }
  unfold Rsqr. set (m := rmean (map sqrt l)) in *.
  assert (E : rsum (map sqrt l) = INR (length l) * m) by (unfold m, rmean; rewrite map_length; field; lra).
  rewrite map_length in B. rewrite E in B. unfold rmean. apply (Rmult_le_reg_r (INR (length l))); [exact Z|].
  replace (rsum l / INR (length l) * INR (length l)) with (rsum l) by (field; lra). lra.
Qed.
Lemma metric_rmse : forall X (f : X -> R) d b sh, (0 < d)%nat -> even_shards d b sh -> (forall x, 0 <= f x) ->
  device_metric (fun s => sqrt (rmean (map f s))) sh <= sqrt (rmean (map f b)).
Proof.
  intros X f d b sh Hd E Hf. rewrite <- (metric_mean X f d b sh Hd E). unfold device_metric.
  rewrite <- (map_map (fun s => rmean (map f s)) sqrt). apply rmean_sqrt_le.
  - destruct E as [L _]. destruct sh; [cbn in L; lia|discriminate].
  - rewrite Forall_map. apply Forall_forall. intros s _. unfold rmean.
    assert (P : 0 <= rsum (map f s)). { clear -Hf. induction s as [|x s IH]; unfold rsum in *; cbn [map fold_right]; [lra|]. specialize (Hf x). lra. }
    destruct (map f s) as [|y r] eqn:Em; [unfold rsum; cbn; unfold Rdiv; rewrite Rmult_0_l; lra|].
    apply Rmult_le_pos; [exact P|]. left. apply Rinv_0_lt_compat, lt_0_INR. cbn. lia.
Qed.
