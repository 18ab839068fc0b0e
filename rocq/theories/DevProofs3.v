(** Data parallel training equals training on one device. *)
From Coq Require Import List Arith Lia Bool QArith Reals Lra.
From Verif Require Import Lib LoaderModel LoaderSpec LoaderProofs LoaderProofs2 TempModel LikModel TrainModel DevModel DevSpec DevProofs DevProofs2.
Import ListNotations.
Open Scope R_scope.

Lemma batch_grad_length {P X} : forall dim n (dlp : P -> nat -> R) (dll : P -> X -> nat -> R) p b, length (batch_grad dim n dlp dll p b) = dim.
Proof. intros. unfold batch_grad. now rewrite map_length, seq_length. Qed.
Lemma batch_grad_nth {P X} : forall dim n (dlp : P -> nat -> R) (dll : P -> X -> nat -> R) p b j, (j < dim)%nat ->
  nth j (batch_grad dim n dlp dll p b) 0 = batch_objective n (dlp p j) (fun x => dll p x j) b.
Proof.
  intros. unfold batch_grad. set (f := fun j => _). rewrite (nth_indep _ 0 (f 0%nat)) by now rewrite map_length, seq_length.
  now rewrite (map_nth f), seq_nth.
Qed.
Lemma pmean_batch_grad {P X} : forall dim n (dlp : P -> nat -> R) (dll : P -> X -> nat -> R) p d b sh, (0 < d)%nat -> even_shards d b sh ->
  pmean (map (batch_grad dim n dlp dll p) sh) = batch_grad dim n dlp dll p b.
Proof.
  intros dim n dlp dll p d b sh Hd E.
  assert (N : map (batch_grad dim n dlp dll p) sh <> []) by (destruct E as [E _]; destruct sh; cbn in *; [lia|discriminate]).
  assert (D : dims dim (map (batch_grad dim n dlp dll p) sh)) by (unfold dims; rewrite Forall_map; apply Forall_forall; intros; apply batch_grad_length).
  apply (vec_ext dim); [now apply pmean_length|apply batch_grad_length|]. intros j L.
  rewrite (pmean_nth dim) by assumption. rewrite map_map, batch_grad_nth by exact L.
  rewrite <- (objective_even n (dlp p j) (fun x => dll p x j) d b sh Hd E). apply (f_equal rmean), map_ext. intros s. now apply batch_grad_nth.
Qed.

Section DP.
Context {P O X K : Type}.
Notation tst := (tstate P O (list R) (option (list R))).
Variables (dim n_data : nat) (dlp : P -> nat -> R) (dll : P -> X -> nat -> R).
Variable vg : P -> option (list R) -> list X -> K -> list R * option (list R) * R.
Variable vg1 : P -> option (list R) -> list X -> nat -> list R * option (list R) * list Q.
Variable clip : list R -> list R.
Variable opt : list R -> O -> P -> P * O.
Hypothesis Hvg : forall p m b key, fst (fst (vg p m b key)) = batch_grad dim n_data dlp dll p b.
Hypothesis Hvg1 : forall p m b key, fst (fst (vg1 p m b key)) = batch_grad dim n_data dlp dll p b.
Hypothesis Hclip : forall g, length g = dim -> length (clip g) = dim.

Notation one_step := (training_step P O (list R) (option (list R)) (list X) vg1 vadd vdiv vzeros clip opt).

Definition Inv (d : nat) (s : tst) (rs : list tst) : Prop :=
  length rs = d /\ replicas_hold (params _ _ _ _ s) (opt_state _ _ _ _ s) (step _ _ _ _ s) rs /\
  ((acc _ _ _ _ s = None /\ map (acc _ _ _ _) rs = map (fun _ => None) rs) \/
   exists a accs, acc _ _ _ _ s = Some a /\ length a = dim /\ map (acc _ _ _ _) rs = map Some accs /\ dims dim accs /\ pmean accs = a).

Lemma zeros_dims : forall (g : list R) (l : list tst), length g = dim -> l <> [] ->
  dims dim (map (fun _ => vzeros g) l) /\ pmean (map (fun _ => vzeros g) l) = vzeros g.
Proof.
  intros g l Lg N. split.
  - unfold dims. rewrite Forall_map. apply Forall_forall. intros. unfold vzeros. now rewrite map_length.
  - apply pmean_same; [destruct l; [congruence|discriminate]|]. rewrite Forall_map. now apply Forall_forall.
Qed.

Lemma inv_step : forall k d s rs b sh keys key, (0 < d)%nat -> even_shards d b sh -> length keys = d -> Inv d s rs ->
  Inv d (fst (one_step k s b key)) (fst (device_step vg clip opt false k rs sh keys)).
Proof.
  intros k d s rs b sh keys key Hd E Lk [Lr [H A]].
  assert (Lsh : length sh = length rs) by (destruct E; congruence).
  destruct (device_step_map vg clip opt false k rs sh keys Lsh ltac:(congruence)) as [EL ->].
  set (L := combine rs (combine sh keys)) in *. cbn [fst].
  assert (LL : length L = d) by (rewrite <- Lr, <- EL; now rewrite map_length).
  assert (NL : L <> []) by (intros Z; rewrite Z in LL; cbn in LL; lia).
  assert (Esh : map (fun q : tst * (list X * K) => fst (snd q)) L = sh).
  { rewrite <- (map_map snd fst). unfold L. rewrite map_snd_combine by (rewrite combine_length; lia). apply map_fst_combine. congruence. }
  assert (HL : Forall (fun q : tst * (list X * K) => params _ _ _ _ (fst q) = params _ _ _ _ s /\ opt_state _ _ _ _ (fst q) = opt_state _ _ _ _ s /\ step _ _ _ _ (fst q) = step _ _ _ _ s) L).
  { unfold replicas_hold in H. rewrite <- EL, Forall_map in H. exact H. }
  assert (HL' := proj1 (Forall_forall _ _) HL).
  set (g := batch_grad dim n_data dlp dll (params _ _ _ _ s) b).
  assert (Lg : length g = dim) by apply batch_grad_length.
  assert (Glg : map (lg vg) L = map (batch_grad dim n_data dlp dll (params _ _ _ _ s)) sh).
  { rewrite <- Esh, map_map. apply map_ext_in. intros q I. unfold lg, loc. rewrite Hvg. now rewrite (proj1 (HL' q I)). }
  assert (Gm : pmean (map (lg vg) L) = g) by (rewrite Glg; now apply pmean_batch_grad with (d := d)).
  assert (Gd : dims dim (map (lg vg) L)).
  { rewrite Glg. unfold dims. rewrite Forall_map. apply Forall_forall. intros. apply batch_grad_length. }
  assert (Nlg : map (lg vg) L <> []) by (destruct L; [congruence|discriminate]).
  set (g1 := match acc _ _ _ _ s with Some a => vadd g a | None => g end).
  assert (Ad : dims dim (map (la vg) L) /\ pmean (map (la vg) L) = g1 /\ length g1 = dim).
  { unfold g1. destruct A as [[An Ar]|[a [accs [An [La [Ar [Da Pa]]]]]]]; rewrite An.
    - assert (Z : map (la vg) L = map (lg vg) L).
      { apply map_ext_in. intros q I. unfold la. rewrite <- EL, !map_map in Ar.
        assert (Q0 : acc _ _ _ _ (fst q) = None).
        { assert (I2 : In (acc P O (list R) (option (list R)) (fst q)) (map (fun q => acc P O (list R) (option (list R)) (fst q)) L)) by (apply (in_map (fun q => acc P O (list R) (option (list R)) (fst q))); exact I).
          rewrite Ar in I2. apply in_map_iff in I2. destruct I2 as [? [? _]]. congruence. }
        now rewrite Q0. }
      rewrite Z. auto.
    - set (C := combine (map (lg vg) L) accs).
      assert (La' : length accs = length L) by (rewrite <- (map_length Some accs), <- Ar, map_length; congruence).
      assert (Z : map (la vg) L = map (fun p => vadd (fst p) (snd p)) C).
      { unfold C. rewrite <- EL, map_map in Ar. clear -Ar La'. revert accs Ar La'.
        induction L as [|q l IH]; intros [|x accs] Ar La'; cbn in La'; try lia; [reflexivity|].
        cbn [map] in Ar. injection Ar as A1 A2. cbn [map combine fst snd]. rewrite <- (IH accs A2) by lia. unfold la at 1. now rewrite A1. }
      assert (F1 : map fst C = map (lg vg) L) by (apply map_fst_combine; rewrite map_length; congruence).
      assert (F2 : map snd C = accs) by (apply map_snd_combine; rewrite map_length; congruence).
      assert (NC : C <> []) by (intros Q0; rewrite Q0 in F1; cbn in F1; congruence).
      rewrite Z. split; [|split].
      + unfold dims. rewrite Forall_map. apply Forall_forall. intros p I. apply vadd_length.
        * assert (I2 := in_map fst _ _ I). rewrite F1 in I2. exact (proj1 (Forall_forall _ _) Gd _ I2).
        * assert (I2 := in_map snd _ _ I). rewrite F2 in I2. exact (proj1 (Forall_forall _ _) Da _ I2).
      + rewrite (pmean_vadd dim C NC) by (rewrite ?F1, ?F2; assumption). rewrite F1, F2, Gm, Pa. reflexivity.
      + now apply vadd_length. }
  destruct Ad as [Ad [Am Ag1]].
  assert (Nla : map (la vg) L <> []) by (destruct L; [congruence|discriminate]).
  assert (Mm : pmean (map (fun q => vdiv (la vg q) k) L) = vdiv g1 k).
  { rewrite <- (map_map (la vg) (fun a => vdiv a k)), (pmean_vdiv dim) by assumption. now rewrite Am. }
  unfold training_step. destruct (vg1 (params _ _ _ _ s) (mutable _ _ _ _ s) b key) as [[g' m'] l'] eqn:EV. cbn [fst].
  assert (Eg : g' = g) by (specialize (Hvg1 (params _ _ _ _ s) (mutable _ _ _ _ s) b key); rewrite EV in Hvg1; exact Hvg1). subst g'.
  unfold Inv. rewrite map_length. split; [exact LL|].
  unfold next, collective, update_with_accumulation. fold g1.
  destruct (1 <? k)%nat eqn:K1; [destruct (S (step _ _ _ _ s) mod k =? 0)%nat eqn:M|].
  - rewrite Mm. split.
    + unfold replicas_hold. rewrite Forall_map. apply Forall_impl with (2 := HL). intros q [Hp [Ho Hn]]. rewrite Hn, M.
      unfold apply_gradients. cbn [params opt_state step]. now rewrite Hp, Ho, Hn.
    + right. set (c := clip (vdiv g1 k)). assert (Lc : length c = dim) by (apply Hclip; unfold vdiv; now rewrite map_length).
      assert (NR : rs <> []) by (intros Z; rewrite Z in Lr; cbn in Lr; lia).
      destruct (zeros_dims c rs Lc NR) as [Z1 Z2].
      exists (vzeros c), (map (fun _ : tst => vzeros c) rs). split; [reflexivity|]. split; [unfold vzeros; now rewrite map_length|]. split; [|split; assumption].
      rewrite map_map, <- EL, !map_map. apply map_ext_in. intros q I. destruct (HL' q I) as [_ [_ Hn]]. rewrite Hn, M. reflexivity.
  - split.
    + unfold replicas_hold. rewrite Forall_map. apply Forall_impl with (2 := HL). intros q [Hp [Ho Hn]]. rewrite Hn, M. cbn [params opt_state step]. auto.
    + right. exists g1, (map (la vg) L). split; [reflexivity|]. split; [exact Ag1|]. split; [|split; assumption].
      rewrite !map_map. apply map_ext_in. intros q I. destruct (HL' q I) as [_ [_ Hn]]. rewrite Hn, M. reflexivity.
  - rewrite Gm. split.
    + unfold replicas_hold. rewrite Forall_map. apply Forall_impl with (2 := HL). intros q [Hp [Ho Hn]].
      unfold apply_gradients. cbn [params opt_state step]. now rewrite Hp, Ho, Hn.
    + unfold apply_gradients. cbn [acc]. rewrite !map_map. rewrite <- EL, !map_map in A. exact A.
Qed.

Lemma inv_run : forall k d (run : list (list X * nat * (list (list X) * list K))) s rs, (0 < d)%nat ->
  Forall (fun q => even_shards d (fst (fst q)) (fst (snd q)) /\ length (snd (snd q)) = d) run -> Inv d s rs ->
  Inv d (fold_left (fun s q => fst (one_step k s (fst q) (snd q))) (map fst run) s) (run_steps vg clip opt false k (map snd run) rs).
Proof.
  intros k d run. induction run as [|[[b key] [sh ks]] run IH]; intros s rs Hd F I; [exact I|].
  apply Forall_cons_iff in F. destruct F as [[F1 F2] F']. cbn [fst snd] in F1, F2.
  unfold run_steps. cbn [map fold_left fst snd]. apply IH; [exact Hd|exact F'|]. apply inv_step; assumption.
Qed.

Lemma data_parallel : forall k d (run : list (list X * nat * (list (list X) * list K))) s, (0 < d)%nat -> acc _ _ _ _ s = None ->
  Forall (fun q => even_shards d (fst (fst q)) (fst (snd q)) /\ length (snd (snd q)) = d) run ->
  let s' := fold_left (fun s q => fst (one_step k s (fst q) (snd q))) (map fst run) s in
  let rs := run_steps vg clip opt false k (map snd run) (replicate d s) in
  length rs = d /\ replicas_hold (params _ _ _ _ s') (opt_state _ _ _ _ s') (step _ _ _ _ s') rs.
Proof.
  intros k d run s Hd A F. destruct (inv_run k d run s (replicate d s) Hd F) as [L [H _]]; [|now split].
  split; [apply repeat_length|]. split; [apply replicate_hold|]. left. split; [exact A|].
  apply map_ext_in. intros r I. apply repeat_spec in I. now subst.
Qed.
End DP.

Lemma loss_reported {P O X K} : forall n_data (lp : P -> R) (ll : P -> X -> R)
    (vg : P -> option (list R) -> list X -> K -> list R * option (list R) * R) clip (opt : list R -> O -> P -> P * O) scaled k d p o n rs b sh keys,
  (forall p m b key, snd (vg p m b key) = batch_objective n_data (lp p) (ll p) b) ->
  (0 < d)%nat -> even_shards d b sh -> length keys = d -> length rs = d -> replicas_hold p o n rs ->
  reported_loss (snd (device_step vg clip opt scaled k rs sh keys)) = batch_objective n_data (lp p) (ll p) b.
Proof.
  intros n_data lp ll vg clip opt scaled k d p o n rs b sh keys Hv Hd E Lk Lr H.
  assert (Lsh : length sh = length rs) by (destruct E; congruence).
  destruct (device_step_map vg clip opt scaled k rs sh keys Lsh ltac:(congruence)) as [EL ->].
  set (L := combine rs (combine sh keys)) in *. cbn [snd].
  assert (LL : length L = d) by (rewrite <- Lr, <- EL; now rewrite map_length).
  assert (NL : L <> []) by (intros Z; rewrite Z in LL; cbn in LL; lia).
  assert (HL : Forall (fun q : tstate P O (list R) (option (list R)) * (list X * K) => params _ _ _ _ (fst q) = p) L).
  { unfold replicas_hold in H. rewrite <- EL, Forall_map in H. apply Forall_impl with (2 := H). tauto. }
  assert (Esh : map (fun q : tstate P O (list R) (option (list R)) * (list X * K) => fst (snd q)) L = sh).
  { rewrite <- (map_map snd fst). unfold L. rewrite map_snd_combine by (rewrite combine_length; lia). apply map_fst_combine. congruence. }
  assert (Z : map (fun q => snd (loc vg q)) L = map (batch_objective n_data (lp p) (ll p)) sh).
  { rewrite <- Esh, map_map. apply map_ext_in. intros q I. unfold loc. rewrite Hv. now rewrite (proj1 (Forall_forall _ _) HL q I). }
  unfold reported_loss. destruct scaled.
  - rewrite Z. now apply objective_even with (d := d).
  - rewrite rmean_const by exact NL. rewrite Z. now apply objective_even with (d := d).
Qed.
