(** Functions that the other proofs only reach indirectly: the whole collator (C11), the
    update of all ensemble members (C18), the error update from an interval (C30) and the
    reported coverage of the positives (C35). *)
From Coq Require Import List Arith ZArith QArith Lia Lqa Bool String.
From Verif Require Import Lib QuantModel QuantSpec ConfRegModel ConfClassModel ConfClassSpec QuantProofs ConfClassProofs3 TextModel
  NestedModel RepoModel RepoSpec RepoProofs RepoProofs2.
Import ListNotations.
Local Notation length := List.length.
Open Scope nat_scope.

(** ---- data_collator.py ---- *)
Lemma collate_plain : forall mask_id pad inputs special ds,
  exists out, collate_lm false mask_id pad inputs special ds = Ok out /\ map fst out = inputs /\
  (forall i t, nth_error inputs i = Some t ->
     nth_error (map snd out) i = Some (if match pad with Some p => Z.eqb t p | None => false end then ignore_index else t)).
Proof.
  intros mask_id pad inputs special ds. eexists. split; [reflexivity|]. rewrite !map_map. cbn [fst snd]. split; [apply map_id|].
  intros i t H. rewrite nth_error_map, H. destruct pad; reflexivity.
Qed.
Lemma collate_masked : forall mask_id pad inputs ds,
  collate_lm true mask_id pad inputs None ds = Err AttributeError /\
  forall special, collate_lm true mask_id pad inputs (Some special) ds = Ok (mask_tokens mask_id inputs special ds).
Proof. intros. split; reflexivity. Qed.

(** ---- posterior_multi_state_repository.py ---- *)
Section Multi.
Context {V O : Type} (init : O -> tree V -> V).
Lemma run_multi_app (xs ys : list (nat * op (V:=V) (O:=O))) : forall w rs,
  run_multi init (xs ++ ys) w rs =
  (let u := run_multi init xs w rs in
   let v := run_multi init ys (fst (snd u)) (snd (snd u)) in (fst u ++ fst v, snd v)).
Proof.
  induction xs as [|[i x] xs IH]; intros w rs.
  - cbn. destruct (run_multi init ys w rs) as [a b]. reflexivity.
  - cbn [app run_multi]. destruct (run_member init i x w rs) as [y wr]. rewrite IH.
    destruct (run_multi init xs (fst wr) (snd wr)) as [a b]. cbn. reflexivity.
Qed.
Lemma only_app {A} j (xs ys : list (nat * A)) : only j (xs ++ ys) = only j xs ++ only j ys.
Proof. unfold only. rewrite filter_app, map_app. reflexivity. Qed.
Lemma only_all {A} (x : A) j : forall n a, only j (map (fun i => (i, x)) (seq a n)) = if (a <=? j) && (j <? a + n) then [x] else [].
Proof.
  unfold only. induction n as [|n IH]; intros a.
  - cbn [seq map filter]. destruct (Nat.leb_spec a j), (Nat.ltb_spec j (a + 0)); cbn; try reflexivity; lia.
  - cbn [seq map filter fst]. specialize (IH (S a)).
    destruct (Nat.eqb_spec a j); cbn [map snd].
    + subst. rewrite IH. replace (S j <=? j) with false by (symmetry; apply Nat.leb_gt; lia).
      rewrite Nat.leb_refl. replace (j <? j + S n) with true by (symmetry; apply Nat.ltb_lt; lia). reflexivity.
    + rewrite IH. destruct (Nat.leb_spec (S a) j), (Nat.leb_spec a j), (Nat.ltb_spec j (S a + n)), (Nat.ltb_spec j (a + S n)); cbn; try reflexivity; lia.
Qed.
End Multi.

Lemma update_all_spec : forall V O (init : O -> tree V -> V) size base w xs ys vs keep j, j < size ->
  let wr := snd (run_multi init xs w (init_multi size base)) in
  let u := update_all init vs keep (fst wr) (snd wr) in
  only j (fst (run_multi init xs w (init_multi size base))) ++ only j (fst u) ++
    only j (fst (run_multi init ys (fst (snd u)) (snd (snd u))))
  = fst (run init (only j xs ++ Update vs None keep :: only j ys) w (mk_repo (option_map (fun b => member_dir b j) base) None)).
Proof.
  intros V O init size base w xs ys vs keep j Hj wr u.
  pose (ups := map (fun i => (i, Update vs None keep)) (seq 0 size) : list (nat * op (V:=V) (O:=O))).
  assert (E : only j (xs ++ ups ++ ys) = only j xs ++ Update vs None keep :: only j ys).
  { rewrite !only_app. unfold ups. rewrite only_all. replace (j <? 0 + size) with true by (symmetry; apply Nat.ltb_lt; lia). reflexivity. }
  rewrite <- E, <- (members_independent init size base w (xs ++ ups ++ ys) j Hj). rewrite run_multi_app. cbn [fst]. rewrite only_app, run_multi_app. cbn [fst]. rewrite only_app.
  subst u wr. unfold update_all. rewrite run_multi_length.
  assert (L : length (init_multi (V:=V) (O:=O) size base) = size) by (unfold init_multi; rewrite map_length, seq_length; reflexivity).
  rewrite L. fold ups. reflexivity.
Qed.

(** ---- adaptive_conformal_regressor.py ---- *)
Open Scope Q_scope.
Lemma interval_update : forall lo hi e y t g e', update_error (lo, hi) e y t g None None = Ok e' ->
  let step := e + g * (t - (if Qlt_le_dec y lo then 1 else if Qlt_le_dec hi y then 1 else 0)) in
  0 < g /\ (step < 0 -> e' == 0) /\ (0 <= step <= 1 -> e' == step) /\ (1 < step -> e' == 1).
Proof.
  intros lo hi e y t g e' H step. revert H. unfold update_error, update_error_from.
  destruct (Qle_bool g 0) eqn:Eg; [discriminate|]. intros H. injection H as <-.
  assert (Hg : 0 < g) by (apply Qnot_le_lt; intro C; apply Qle_bool_iff in C; congruence).
  split; [exact Hg|].
  assert (Es : e + g * (t - 1 + of_bool (is_in y (lo, hi))) == step).
  { unfold step, is_in. cbn [fst snd].
    destruct (Qlt_le_dec y lo) as [L|L].
    - replace (Qle_bool lo y) with false; [rewrite andb_false_r; cbn [of_bool]; ring|].
      symmetry. destruct (Qle_bool lo y) eqn:E; [|reflexivity]. apply Qle_bool_iff in E. lra.
    - rewrite (proj2 (Qle_bool_iff lo y) L), andb_true_r. destruct (Qlt_le_dec hi y) as [M|M].
      + replace (Qle_bool y hi) with false; [cbn [of_bool]; ring|].
        symmetry. destruct (Qle_bool y hi) eqn:E; [|reflexivity]. apply Qle_bool_iff in E. lra.
      + rewrite (proj2 (Qle_bool_iff y hi) M). cbn [of_bool]. ring. }
  clearbody step. unfold clip_error. set (s := e + _) in *. clearbody s. rewrite <- Es.
  unfold Qlt_bool.
  destruct (Qle_bool s 1) eqn:A; cbn [negb].
  - apply Qle_bool_iff in A. destruct (Qle_bool 0 s) eqn:B; cbn [negb].
    + apply Qle_bool_iff in B. repeat split; intros; lra.
    + assert (s < 0) by (apply Qnot_le_lt; intro C; apply Qle_bool_iff in C; congruence). repeat split; intros; lra.
  - assert (1 < s) by (apply Qnot_le_lt; intro C; apply Qle_bool_iff in C; congruence).
    replace (Qle_bool 0 1) with true by reflexivity. cbn [negb]. repeat split; intros; lra.
Qed.

(** ---- maxcovfixprec_binary_classfication.py ---- *)
Lemma positive_coverage : forall probs thr, probs <> [] ->
  true_positive_coverage probs thr * inject_Z (Z.of_nat (length probs))
  == inject_Z (Z.of_nat (n_selected (fun p => Qle_bool thr p) probs)).
Proof.
  intros probs thr H. unfold true_positive_coverage, qmean. unfold qlen. rewrite !map_length.
  rewrite <- (map_map (fun p => Qle_bool thr p) of_bool), sum_of_bool.
  assert (E : count (fun b => b) (map (fun p => Qle_bool thr p) probs) = n_selected (fun p => Qle_bool thr p) probs).
  { unfold n_selected. clear H. induction probs as [|p r IH]; [reflexivity|]. cbn [map]. rewrite !count_cons, IH. reflexivity. }
  rewrite E. fold (nQ (length probs)). fold (nQ (n_selected (fun p => Qle_bool thr p) probs)).
  assert (P : 0 < nQ (length probs)) by (apply nQ_pos; destruct probs; [congruence|cbn; lia]).
  field. lra.
Qed.
