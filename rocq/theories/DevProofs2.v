(** Training on several devices against training on one. *)
From Coq Require Import List Arith Lia Bool QArith Reals Lra.
From Verif Require Import Lib LoaderModel LoaderSpec LoaderProofs LoaderProofs2 TempModel LikModel TrainModel DevModel DevSpec DevProofs.
Import ListNotations.
Open Scope R_scope.

Lemma combine_maps {A B C} (f : A -> B) (g : A -> C) : forall l, combine (map f l) (map g l) = map (fun x => (f x, g x)) l.
Proof. induction l as [|x l IH]; [reflexivity|]. cbn [map combine]. now rewrite IH. Qed.
Lemma map_fst_combine {A B} : forall (a : list A) (b : list B), length a = length b -> map fst (combine a b) = a.
Proof. induction a as [|x a IH]; intros [|y b] E; cbn in E; try lia; [reflexivity|]. cbn [combine map fst]. now rewrite IH by lia. Qed.
Lemma map_snd_combine {A B} : forall (a : list A) (b : list B), length a = length b -> map snd (combine a b) = b.
Proof. induction a as [|x a IH]; intros [|y b] E; cbn in E; try lia; [reflexivity|]. cbn [combine map snd]. now rewrite IH by lia. Qed.

Section D.
Context {P O B K : Type}.
Notation tst := (tstate P O (list R) (option (list R))).
Variable vg : P -> option (list R) -> B -> K -> list R * option (list R) * R.
Variable clip : list R -> list R.
Variable opt : list R -> O -> P -> P * O.

Definition loc (q : tst * (B * K)) := vg (params _ _ _ _ (fst q)) (mutable _ _ _ _ (fst q)) (fst (snd q)) (snd (snd q)).
Definition lg q := fst (fst (loc q)).
Definition la (q : tst * (B * K)) := match acc _ _ _ _ (fst q) with Some a => vadd (lg q) a | None => lg q end.
Definition next (scaled : bool) (k : nat) (L : list (tst * (B * K))) (q : tst * (B * K)) : tst :=
  let r := fst q in
  let mut := snd (fst (loc q)) in
  if (1 <? k)%nat then
    if (S (step _ _ _ _ r) mod k =? 0)%nat then
      let g := clip (collective scaled (map (fun q => vdiv (la q) k) L) (vdiv (la q) k)) in
      apply_gradients _ _ _ _ opt r g mut (Some (vzeros g))
    else {| params := params _ _ _ _ r; opt_state := opt_state _ _ _ _ r; step := S (step _ _ _ _ r); mutable := mut; acc := Some (la q) |}
  else apply_gradients _ _ _ _ opt r (clip (collective scaled (map lg L) (lg q))) mut (acc _ _ _ _ r).

Lemma device_step_map : forall scaled k rs sh ks, length sh = length rs -> length ks = length rs ->
  let L := combine rs (combine sh ks) in
  map fst L = rs /\
  device_step vg clip opt scaled k rs sh ks = (map (next scaled k L) L, map (fun q => if scaled then snd (loc q) else rmean (map (fun q => snd (loc q)) L)) L).
Proof.
  intros scaled k rs sh ks Es Ek L.
  assert (E : map fst L = rs) by (apply map_fst_combine; rewrite combine_length; lia). split; [exact E|].
  unfold device_step. fold L. fold loc.
  change (map (fun q => vg (params P O (list R) (option (list R)) (fst q)) (mutable P O (list R) (option (list R)) (fst q)) (fst (snd q)) (snd (snd q))) L) with (map loc L).
  assert (X : combine rs (map (fun l => fst (fst l)) (map loc L)) = map (fun q => (fst q, lg q)) L).
  { rewrite map_map, <- E at 1. apply combine_maps. }
  assert (Y : map (fun q => match acc P O (list R) (option (list R)) (fst q) with Some a => vadd (snd q) a | None => snd q end) (map (fun q => (fst q, lg q)) L) = map la L).
  { rewrite map_map. reflexivity. }
  rewrite X, Y, !map_map. rewrite <- E at 1. rewrite !combine_maps, !map_map. reflexivity.
Qed.

(** ---- without a dynamic scale the replicas stay equal ---- *)
Lemma device_step_sync : forall k rs sh ks p o n, rs <> [] -> length sh = length rs -> length ks = length rs -> replicas_hold p o n rs ->
  length (fst (device_step vg clip opt false k rs sh ks)) = length rs /\
  exists p' o', replicas_hold p' o' (S n) (fst (device_step vg clip opt false k rs sh ks)).
Proof.
  intros k rs sh ks p o n N Es Ek H. destruct (device_step_map false k rs sh ks Es Ek) as [E ->].
  set (L := combine rs (combine sh ks)) in *. cbn [fst]. split.
  { rewrite map_length. rewrite <- E. now rewrite map_length. }
  assert (HL : Forall (fun q : tst * (B * K) => params _ _ _ _ (fst q) = p /\ opt_state _ _ _ _ (fst q) = o /\ step _ _ _ _ (fst q) = n) L).
  { unfold replicas_hold in H. rewrite <- E, Forall_map in H. exact H. }
  unfold replicas_hold. setoid_rewrite Forall_map. unfold next, collective.
  destruct (1 <? k)%nat; [destruct (S n mod k =? 0)%nat eqn:M|].
  - exists (fst (opt (clip (pmean (map (fun q => vdiv (la q) k) L))) o p)), (snd (opt (clip (pmean (map (fun q => vdiv (la q) k) L))) o p)).
    apply Forall_impl with (2 := HL). intros q [Hp [Ho Hn]]. rewrite Hn, M. unfold apply_gradients. cbn [params opt_state step]. now rewrite Hp, Ho, Hn.
  - exists p, o. apply Forall_impl with (2 := HL). intros q [Hp [Ho Hn]]. rewrite Hn, M. cbn [params opt_state step]. auto.
  - exists (fst (opt (clip (pmean (map lg L))) o p)), (snd (opt (clip (pmean (map lg L))) o p)).
    apply Forall_impl with (2 := HL). intros q [Hp [Ho Hn]]. unfold apply_gradients. cbn [params opt_state step]. now rewrite Hp, Ho, Hn.
Qed.

Lemma run_steps_sync : forall k d steps rs p o n, (0 < d)%nat -> length rs = d ->
  Forall (fun st : list B * list K => length (fst st) = d /\ length (snd st) = d) steps -> replicas_hold p o n rs ->
  length (run_steps vg clip opt false k steps rs) = d /\
  exists p' o', replicas_hold p' o' (n + length steps) (run_steps vg clip opt false k steps rs).
Proof.
  intros k d steps. induction steps as [|[sh ks] steps IH]; intros rs p o n Hd Lr F H.
  - cbn [run_steps fold_left length]. rewrite Nat.add_0_r. split; [exact Lr|now exists p, o].
  - inversion F as [|? ? [F1 F2] F']; subst. cbn [fst snd] in F1, F2.
    assert (N : rs <> []) by (intros ->; cbn in Hd; lia).
    destruct (device_step_sync k rs sh ks p o n N F1 F2 H) as [L' [p' [o' H']]].
    unfold run_steps. cbn [fold_left fst snd length].
    fold (run_steps vg clip opt false k steps (fst (device_step vg clip opt false k rs sh ks))).
    rewrite <- Nat.add_succ_comm. apply (IH _ p' o' (S n)); assumption.
Qed.

Lemma sync_mutable_length : forall rs : list tst, length (sync_mutable rs) = length rs.
Proof. intros [|r rs]; [reflexivity|]. unfold sync_mutable. destruct (mutable _ _ _ _ r); [now rewrite map_length|reflexivity]. Qed.
Lemma sync_mutable_hold : forall (rs : list tst) p o n, replicas_hold p o n rs -> replicas_hold p o n (sync_mutable rs).
Proof.
  intros [|r rs] p o n H; [exact H|]. unfold sync_mutable. destruct (mutable _ _ _ _ r); [|exact H].
  unfold replicas_hold in *. rewrite Forall_map. exact H.
Qed.
Lemma replicate_hold : forall d (s : tst), replicas_hold (params _ _ _ _ s) (opt_state _ _ _ _ s) (step _ _ _ _ s) (replicate d s).
Proof. intros d s. unfold replicas_hold, replicate. apply Forall_forall. intros r I. apply repeat_spec in I. now subst. Qed.

Lemma run_epochs_sync : forall k d epochs rs p o n, (0 < d)%nat -> length rs = d ->
  Forall (fun e : list (list B * list K) * bool => Forall (fun st => length (fst st) = d /\ length (snd st) = d) (fst e)) epochs -> replicas_hold p o n rs ->
  length (run_epochs vg clip opt false k epochs rs) = d /\
  exists p' o', replicas_hold p' o' (n + length (concat (map fst epochs))) (run_epochs vg clip opt false k epochs rs).
Proof.
  intros k d epochs. induction epochs as [|[steps v] epochs IH]; intros rs p o n Hd Lr F H.
  - cbn [run_epochs fold_left map concat length]. rewrite Nat.add_0_r. split; [exact Lr|now exists p, o].
  - inversion F as [|? ? F1 F']; subst. cbn [fst] in F1.
    destruct (run_steps_sync k _ steps rs p o n Hd eq_refl F1 H) as [L' [p' [o' H']]].
    unfold run_epochs. cbn [fold_left fst snd map concat]. rewrite app_length, Nat.add_assoc.
    set (rs' := if v then _ else _).
    fold (run_epochs vg clip opt false k epochs rs').
    assert (H2 : length rs' = length rs /\ replicas_hold p' o' (n + length steps) rs').
    { unfold rs'. destruct v; [rewrite sync_mutable_length; split; [exact L'|now apply sync_mutable_hold]|now split]. }
    apply (IH rs' p' o'); [exact Hd|apply H2|exact F'|apply H2].
Qed.

Lemma replicas_in_sync : forall k d epochs (s : tst), (0 < d)%nat ->
  Forall (fun e : list (list B * list K) * bool => Forall (fun st => length (fst st) = d /\ length (snd st) = d) (fst e)) epochs ->
  let rs := run_epochs vg clip opt false k epochs (replicate d s) in
  length rs = d /\ exists p o, replicas_hold p o (step _ _ _ _ s + length (concat (map fst epochs))) rs.
Proof.
  intros k d epochs s Hd F. apply (run_epochs_sync k d epochs _ (params _ _ _ _ s) (opt_state _ _ _ _ s)); [exact Hd| |exact F|apply replicate_hold].
  unfold replicate. apply repeat_length.
Qed.
End D.
