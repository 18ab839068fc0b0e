(** Proofs about training on several devices. *)
From Coq Require Import List Arith Lia Bool QArith Reals Lra.
From Verif Require Import Lib LoaderModel LoaderSpec LoaderProofs LoaderProofs2 TempModel LikModel TrainModel DevModel DevSpec.
Import ListNotations.
Open Scope R_scope.

(** ---- sums and means ---- *)
Lemma rsum_app : forall a b, rsum (a ++ b) = rsum a + rsum b.
Proof. induction a as [|x a IH]; intros b; unfold rsum in *; cbn [app fold_right]; [lra|]. rewrite IH. lra. Qed.
Lemma rsum_scale : forall c l, rsum (map (fun x => c * x) l) = c * rsum l.
Proof. intros c. induction l as [|x l IH]; unfold rsum in *; cbn [map fold_right]; [lra|]. rewrite IH. lra. Qed.
Lemma rsum_plus {A} : forall (f g : A -> R) l, rsum (map (fun x => f x + g x) l) = rsum (map f l) + rsum (map g l).
Proof. intros f g. induction l as [|x l IH]; unfold rsum in *; cbn [map fold_right]; [lra|]. rewrite IH. lra. Qed.
Lemma rsum_const {A} : forall c (l : list A), rsum (map (fun _ => c) l) = INR (length l) * c.
Proof. intros c. induction l as [|x l IH]; unfold rsum in *; [cbn; lra|]. cbn [map fold_right length]. rewrite IH, S_INR. lra. Qed.
Lemma rsum_concat {A} : forall (f : A -> R) ls, rsum (map f (concat ls)) = rsum (map (fun s => rsum (map f s)) ls).
Proof. intros f. induction ls as [|l ls IH]; [reflexivity|]. cbn [concat map]. rewrite map_app, rsum_app, IH. reflexivity. Qed.

Lemma even_length {X} : forall m (sh : list (list X)), Forall (fun s => length s = m) sh -> length (concat sh) = (length sh * m)%nat.
Proof. intros m. induction 1 as [|s sh E F IH]; [reflexivity|]. cbn [concat length]. rewrite app_length, E, IH. lia. Qed.

Lemma mean_even {X} : forall (f : X -> R) m sh, (0 < m)%nat -> sh <> [] -> Forall (fun s => length s = m) sh ->
  rmean (map (fun s => rmean (map f s)) sh) = rmean (map f (concat sh)).
Proof.
  intros f m sh Hm N F. unfold rmean. rewrite !map_length, rsum_concat, (even_length m sh F), mult_INR.
  assert (E : map (fun s => rsum (map f s) / INR (length (map f s))) sh = map (fun y => / INR m * y) (map (fun s => rsum (map f s)) sh)).
  { rewrite map_map. apply map_ext_in. intros s I. rewrite Forall_forall in F. rewrite map_length, (F s I). unfold Rdiv. lra. }
  rewrite E, rsum_scale. field. split; apply not_0_INR; [lia|]. destruct sh; [congruence|discriminate].
Qed.

Lemma objective_even {X} : forall n lp (ll : X -> R) d b sh, (0 < d)%nat -> even_shards d b sh ->
  rmean (map (batch_objective n lp ll) sh) = batch_objective n lp ll b.
Proof.
  intros n lp ll d b sh Hd [Ld [Lb [m [Hm F]]]]. subst b.
  assert (Lc := even_length m sh F).
  assert (N : sh <> []) by (intros ->; cbn in Ld; lia).
  assert (Z : INR (length sh) <> 0) by (apply not_0_INR; lia).
  assert (Zm : INR m <> 0) by (apply not_0_INR; lia).
  unfold rmean. rewrite map_length.
  assert (E : map (batch_objective n lp ll) sh = map (fun s => (- (INR n / INR m)) * rsum (map ll s) + - lp) sh).
  { apply map_ext_in. intros s I. rewrite Forall_forall in F. unfold batch_objective. rewrite (F s I). lra. }
  rewrite E, (rsum_plus (fun s => (- (INR n / INR m)) * rsum (map ll s)) (fun _ => - lp)), rsum_const.
  rewrite <- (map_map (fun s => rsum (map ll s)) (fun y => (- (INR n / INR m)) * y)), rsum_scale, <- rsum_concat.
  unfold batch_objective. rewrite Lc, mult_INR. field. split; assumption.
Qed.

(** ---- elementwise means of vectors of [dim] coordinates ---- *)
Definition dims (dim : nat) (gs : list (list R)) : Prop := Forall (fun g => length g = dim) gs.

Lemma pmean_length : forall dim gs, gs <> [] -> dims dim gs -> length (pmean gs) = dim.
Proof. intros dim [|g gs] N F; [congruence|]. inversion F; subst. cbn [pmean]. now rewrite map_length, seq_length. Qed.
Lemma pmean_nth : forall dim gs j, gs <> [] -> dims dim gs -> (j < dim)%nat -> nth j (pmean gs) 0 = rmean (map (fun g => nth j g 0) gs).
Proof.
  intros dim [|g gs] j N F L; [congruence|]. inversion F as [|? ? E F']; subst. cbn [pmean].
  set (f := fun j0 => rmean (map (fun h => nth j0 h 0) (g :: gs))).
  change (nth j (map f (seq 0 (length g))) 0 = f j).
  rewrite (nth_indep _ 0 (f 0%nat)) by now rewrite map_length, seq_length.
  rewrite (map_nth f), seq_nth by exact L. reflexivity.
Qed.
Lemma vec_ext : forall dim (a b : list R), length a = dim -> length b = dim -> (forall j, (j < dim)%nat -> nth j a 0 = nth j b 0) -> a = b.
Proof. intros dim a b La Lb E. apply (nth_ext _ _ 0 0); [congruence|]. intros j Hj. apply E. lia. Qed.

Lemma vadd_length : forall dim a b, length a = dim -> length b = dim -> length (vadd a b) = dim.
Proof. intros dim a b La Lb. unfold vadd. rewrite map_length, combine_length. lia. Qed.
Lemma vadd_nth : forall dim a b j, length a = dim -> length b = dim -> (j < dim)%nat -> nth j (vadd a b) 0 = nth j a 0 + nth j b 0.
Proof.
  intros dim a b j La Lb L. unfold vadd. rewrite (nth_indep _ 0 ((fun p => fst p + snd p) (0, 0))) by (rewrite map_length, combine_length; lia).
  rewrite (map_nth (fun p : R * R => fst p + snd p)), combine_nth by congruence. reflexivity.
Qed.
Lemma vdiv_nth : forall a k j, nth j (vdiv a k) 0 = nth j a 0 / INR k.
Proof.
  intros a k j. unfold vdiv. destruct (Nat.lt_ge_cases j (length a)) as [L|L].
  - rewrite (nth_indep _ 0 ((fun x => x / INR k) 0)) by now rewrite map_length. now rewrite (map_nth (fun x => x / INR k)).
  - rewrite !nth_overflow; try rewrite map_length; auto. unfold Rdiv. lra.
Qed.
Lemma vzeros_nth : forall a j, nth j (vzeros a) 0 = 0.
Proof. intros a j. exact (map_nth (fun _ : R => 0) a 0 j). Qed.

Lemma rmean_const {A} : forall c (l : list A), l <> [] -> rmean (map (fun _ => c) l) = c.
Proof.
  intros c l N. unfold rmean. rewrite rsum_const, map_length. field. apply not_0_INR. destruct l; [congruence|discriminate].
Qed.
Lemma pmean_same : forall (gs : list (list R)) v, gs <> [] -> Forall (fun g => g = v) gs -> pmean gs = v.
Proof.
  intros gs v N F. assert (D : dims (length v) gs) by (unfold dims; apply Forall_impl with (2 := F); now intros a ->).
  apply (vec_ext (length v)); [now apply pmean_length|reflexivity|]. intros j L. rewrite (pmean_nth (length v)) by assumption.
  replace (map (fun g => nth j g 0) gs) with (map (fun _ : list R => nth j v 0) gs); [now apply rmean_const|].
  apply map_ext_in. intros g I. rewrite Forall_forall in F. now rewrite (F g I).
Qed.
Lemma pmean_average : forall dim gs, gs <> [] -> dims dim gs -> is_average gs (pmean gs).
Proof.
  intros dim gs N D j L. rewrite (pmean_length dim) in L by assumption. rewrite (pmean_nth dim) by assumption. unfold rmean.
  rewrite map_length. fold (rsum (map (fun u => nth j u 0) gs)). field. apply not_0_INR. destruct gs; [congruence|discriminate].
Qed.
Lemma map_combine2 {A B C} (f : A -> B -> C) : forall (l : list A) (g : A -> B), map (fun q => f (fst q) (snd q)) (combine l (map g l)) = map (fun x => f x (g x)) l.
Proof. induction l as [|x l IH]; intros g; [reflexivity|]. cbn [map combine fst snd]. now rewrite IH. Qed.

Lemma pmean_vadd : forall dim (l : list (list R * list R)), l <> [] -> dims dim (map fst l) -> dims dim (map snd l) ->
  pmean (map (fun p => vadd (fst p) (snd p)) l) = vadd (pmean (map fst l)) (pmean (map snd l)).
Proof.
  intros dim l N D1 D2.
  assert (N1 : map fst l <> []) by (destruct l; [congruence|discriminate]). assert (N2 : map snd l <> []) by (destruct l; [congruence|discriminate]).
  assert (N3 : map (fun p => vadd (fst p) (snd p)) l <> []) by (destruct l; [congruence|discriminate]).
  unfold dims in *. rewrite Forall_map in D1, D2. rewrite Forall_forall in D1, D2.
  assert (D3 : dims dim (map (fun p => vadd (fst p) (snd p)) l)).
  { unfold dims. apply Forall_forall. intros v I. apply in_map_iff in I. destruct I as [p [<- I]]. apply vadd_length; [now apply D1|now apply D2]. }
  assert (F1 : dims dim (map fst l)) by (apply Forall_map, Forall_forall; exact D1).
  assert (F2 : dims dim (map snd l)) by (apply Forall_map, Forall_forall; exact D2).
  apply (vec_ext dim); [now apply pmean_length|apply vadd_length; now apply pmean_length|].
  intros j L. rewrite (vadd_nth dim) by (try exact L; now apply pmean_length). rewrite !(pmean_nth dim) by assumption.
  rewrite !map_map. unfold rmean. rewrite !map_length.
  replace (map (fun x => nth j (vadd (fst x) (snd x)) 0) l) with (map (fun x : list R * list R => nth j (fst x) 0 + nth j (snd x) 0) l).
  - rewrite (rsum_plus (fun x : list R * list R => nth j (fst x) 0) (fun x => nth j (snd x) 0)). unfold Rdiv. lra.
  - apply map_ext_in. intros p I. symmetry. apply (vadd_nth dim); [now apply D1|now apply D2|exact L].
Qed.
Lemma pmean_vdiv : forall dim k gs, gs <> [] -> dims dim gs -> pmean (map (fun a => vdiv a k) gs) = vdiv (pmean gs) k.
Proof.
  intros dim k gs N D. assert (N3 : map (fun a => vdiv a k) gs <> []) by (destruct gs; [congruence|discriminate]).
  assert (D3 : dims dim (map (fun a => vdiv a k) gs)).
  { unfold dims in *. rewrite Forall_map. apply Forall_impl with (2 := D). intros a E. unfold vdiv. now rewrite map_length. }
  apply (vec_ext dim); [now apply pmean_length|unfold vdiv; rewrite map_length; now apply pmean_length|].
  intros j L. rewrite vdiv_nth, !(pmean_nth dim) by assumption. rewrite map_map. unfold rmean. rewrite !map_length.
  replace (map (fun x => nth j (vdiv x k) 0) gs) with (map (fun y => / INR k * y) (map (fun g => nth j g 0) gs)).
  - rewrite rsum_scale. unfold Rdiv. lra.
  - rewrite map_map. apply map_ext. intros g. rewrite vdiv_nth. unfold Rdiv. lra.
Qed.
