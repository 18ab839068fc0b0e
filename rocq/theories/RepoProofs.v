From Coq Require Import List Arith Lia Bool String Sorting Permutation.
From Verif Require Import Lib NestedModel NestedSpec NestedProofs NestedProofs2 RepoModel RepoSpec.
Import ListNotations.
Open Scope list_scope.
Local Notation length := List.length.

Section Files.
Context {V : Type}.
Implicit Types (l : files V) (w : fs V).

Definition sorted l := StronglySorted lt (map fst l).

Lemma latest_app l x : latest (l ++ [x]) = Some x.
Proof. unfold latest. rewrite map_app. simpl. apply last_last. Qed.

Lemma latest_nil : latest (@nil (nat * file V)) = None. Proof. reflexivity. Qed.

Definition notin (ns : list nat) (p : nat * file V) : bool := negb (existsb (Nat.eqb (fst p)) ns).

Lemma notin_true ns p : notin ns p = true <-> ~ In (fst p) ns.
Proof.
  unfold notin. rewrite negb_true_iff. split.
  - intros H X. assert (E : existsb (Nat.eqb (fst p)) ns = true).
    { apply existsb_exists. exists (fst p). split; [assumption|apply Nat.eqb_refl]. }
    congruence.
  - intros N. destruct (existsb _ ns) eqn:E; [|reflexivity]. apply existsb_exists in E.
    destruct E as (x & Hx & E). apply Nat.eqb_eq in E. subst. contradiction.
Qed.

Lemma dir_set_same d fl w : dir_files d (assoc_set d fl w) = fl.
Proof. unfold dir_files. now rewrite get_set_same. Qed.
Lemma dir_set_other d d' fl w : d' <> d -> dir_files d' (assoc_set d fl w) = dir_files d' w.
Proof. intros N. unfold dir_files. now rewrite get_set_other. Qed.

Lemma filter_all {A} (f : A -> bool) (m : list A) : (forall x, In x m -> f x = true) -> filter f m = m.
Proof. induction m as [|a m IH]; intros H; simpl; [reflexivity|]. rewrite (H a) by now left. f_equal. apply IH. intros x Hx. apply H. now right. Qed.

Lemma filter_filter {A} (f g : A -> bool) (m : list A) : filter f (filter g m) = filter (fun x => g x && f x) m.
Proof. induction m as [|a m IH]; simpl; [reflexivity|]. destruct (g a); simpl; [destruct (f a)|]; now rewrite IH. Qed.

Lemma removes_files d ns w :
  dir_files d (apply_actions w (map (ARemove d) ns)) = filter (notin ns) (dir_files d w).
Proof.
  revert w. induction ns as [|n ns IH]; intros w; simpl.
  - symmetry. apply filter_all. reflexivity.
  - unfold apply_actions in *. simpl. rewrite IH. rewrite dir_set_same, filter_filter.
    apply filter_ext. intros p. unfold notin. simpl. now rewrite negb_orb.
Qed.

Lemma removes_other d d' ns w : d' <> d ->
  dir_files d' (apply_actions w (map (ARemove d) ns)) = dir_files d' w.
Proof.
  intros N. revert w. induction ns as [|n ns IH]; intros w; [reflexivity|].
  unfold apply_actions in *. simpl. rewrite IH. simpl. now apply dir_set_other.
Qed.

(** insertion into a sorted directory *)
Lemma insert_split n f l : sorted l ->
  insert_file n f l = filter (fun p => fst p <? n) l ++ (n, f) :: filter (fun p => n <? fst p) l.
Proof.
  unfold sorted. induction l as [|[m g] l IH]; intros S; [reflexivity|].
  simpl in S. inversion S as [|? ? S1 S2]; subst. rewrite Forall_forall in S2.
  assert (Big : forall p, In p l -> m < fst p) by (intros p Hp; apply S2, in_map, Hp).
  simpl. destruct (Nat.ltb_spec n m) as [L|L].
  - assert (E1 : (m <? n) = false) by (apply Nat.ltb_ge; lia). rewrite E1.
    assert (E2 : filter (fun p : nat * file V => fst p <? n) l = []).
    { clear -Big L. induction l as [|p l IH]; [reflexivity|]. simpl.
      assert (E : (fst p <? n) = false) by (apply Nat.ltb_ge; specialize (Big p (or_introl eq_refl)); lia).
      rewrite E. apply IH. intros q Hq. apply Big. now right. }
    rewrite E2. simpl. f_equal. f_equal.
    symmetry. apply filter_all. intros p Hp. apply Nat.ltb_lt. specialize (Big p Hp). lia.
  - destruct (Nat.eqb_spec n m) as [->|N].
    + rewrite Nat.ltb_irrefl.
      assert (E2 : filter (fun p : nat * file V => fst p <? m) l = []).
      { clear -Big. induction l as [|p l IH]; [reflexivity|]. simpl.
        assert (E : (fst p <? m) = false) by (apply Nat.ltb_ge; specialize (Big p (or_introl eq_refl)); lia).
        rewrite E. apply IH. intros q Hq. apply Big. now right. }
      rewrite E2. simpl. f_equal. symmetry. apply filter_all. intros p Hp. apply Nat.ltb_lt. auto.
    + assert (E1 : (m <? n) = true) by (apply Nat.ltb_lt; lia). rewrite E1. simpl. now rewrite IH.
Qed.

Lemma sorted_filter (f : nat * file V -> bool) l : sorted l -> sorted (filter f l).
Proof.
  unfold sorted. induction l as [|p l IH]; intros S; [exact S|]. simpl in *.
  inversion S as [|? ? S1 S2]; subst. destruct (f p); [|auto]. simpl. constructor; [auto|].
  rewrite Forall_forall in *. intros x Hx. apply S2. apply in_map_iff in Hx. destruct Hx as (q & <- & Hq).
  apply filter_In in Hq. apply in_map, Hq.
Qed.

Lemma sorted_app l1 l2 : sorted l1 -> sorted l2 ->
  (forall a b, In a l1 -> In b l2 -> fst a < fst b) -> sorted (l1 ++ l2).
Proof.
  unfold sorted. induction l1 as [|p l1 IH]; intros S1 S2 H; [exact S2|]. simpl in *.
  inversion S1 as [|? ? A B]; subst. constructor; [apply IH; auto|].
  rewrite map_app. apply Forall_app. split; [exact B|].
  apply Forall_forall. intros x Hx. apply in_map_iff in Hx. destruct Hx as (q & <- & Hq). auto.
Qed.

Lemma sorted_app_inv l1 l2 : sorted (l1 ++ l2) -> sorted l1 /\ sorted l2 /\
  (forall a b, In a l1 -> In b l2 -> fst a < fst b).
Proof.
  unfold sorted. induction l1 as [|p l1 IH]; intros S.
  - split; [constructor|]. split; [exact S|]. intros a b [].
  - simpl in S. inversion S as [|? ? S1 S2]; subst. destruct (IH S1) as (A & B & C).
    rewrite map_app in S2. apply Forall_app in S2. destruct S2 as (S2 & S3).
    split; [simpl; constructor; assumption|]. split; [exact B|].
    intros a b [<-|Ha] Hb; [|auto]. rewrite Forall_forall in S3. apply S3, in_map, Hb.
Qed.

Lemma sorted_nodup l : sorted l -> NoDup (map fst l).
Proof.
  unfold sorted. induction (map fst l) as [|x xs IH]; intros S; constructor; inversion S as [|? ? A B]; subst; auto.
  intros H. rewrite Forall_forall in B. specialize (B _ H). lia.
Qed.

Lemma remove_prefix k l : NoDup (map fst l) -> filter (notin (firstn k (map fst l))) l = skipn k l.
Proof.
  revert k. induction l as [|p l IH]; intros k ND; [now destruct k|].
  simpl in ND. inversion ND as [|? ? N1 N2]; subst. destruct k as [|k].
  - simpl firstn. simpl skipn. apply filter_all. intros x _. reflexivity.
  - simpl map. simpl firstn. simpl skipn. cbn [filter].
    assert (E : notin (fst p :: firstn k (map fst l)) p = false).
    { unfold notin. simpl. now rewrite Nat.eqb_refl. }
    rewrite E, <- IH by assumption. apply filter_ext_in. intros q Hq.
    unfold notin. simpl. destruct (Nat.eqb_spec (fst q) (fst p)) as [E2|N]; [|reflexivity].
    exfalso. apply N1. rewrite <- E2. apply in_map, Hq.
Qed.

Lemma notin_skip n1 n2 l : (forall p, In p l -> ~ In (fst p) n1) ->
  filter (notin (n1 ++ n2)) l = filter (notin n2) l.
Proof.
  intros H. apply filter_ext_in. intros p Hp. unfold notin. rewrite existsb_app.
  specialize (H p Hp). assert (E : existsb (Nat.eqb (fst p)) n1 = false).
  { destruct (existsb _ n1) eqn:E; [|reflexivity]. apply existsb_exists in E. destruct E as (x & Hx & E).
    apply Nat.eqb_eq in E. subst. contradiction. }
  now rewrite E.
Qed.

Lemma notin_skip2 n1 n2 l : (forall p, In p l -> ~ In (fst p) n2) ->
  filter (notin (n1 ++ n2)) l = filter (notin n1) l.
Proof.
  intros H. apply filter_ext_in. intros p Hp. unfold notin. rewrite existsb_app.
  specialize (H p Hp). assert (E : existsb (Nat.eqb (fst p)) n2 = false).
  { destruct (existsb _ n2) eqn:E; [|reflexivity]. apply existsb_exists in E. destruct E as (x & Hx & E).
    apply Nat.eqb_eq in E. subst. contradiction. }
  now rewrite E, orb_false_r.
Qed.

(** removing the first i newer and the first j of the others *)
Lemma remove_both (A B : files V) i j : sorted (A ++ B) ->
  filter (notin (firstn i (map fst B) ++ firstn j (map fst A))) (A ++ B) = skipn j A ++ skipn i B.
Proof.
  intros S. destruct (sorted_app_inv A B S) as (SA & SB & C). rewrite filter_app. f_equal.
  - rewrite notin_skip; [apply remove_prefix, sorted_nodup, SA|].
    intros p Hp H. apply (In_nth _ _ 0) in H. 
    assert (X : In (fst p) (map fst B)).
    { rewrite <- (firstn_skipn i (map fst B)). apply in_or_app. left.
      destruct H as (m & Hm & <-). now apply nth_In. }
    apply in_map_iff in X. destruct X as (q & E & Hq). specialize (C p q Hp Hq). lia.
  - rewrite notin_skip2; [apply remove_prefix, sorted_nodup, SB|].
    intros p Hp H.
    assert (X : In (fst p) (map fst A)).
    { rewrite <- (firstn_skipn j (map fst A)). apply in_or_app. now left. }
    apply in_map_iff in X. destruct X as (q & E & Hq). specialize (C q p Hq Hp). lia.
Qed.

Lemma filter_map_fst (f : nat -> bool) l : filter f (map fst l) = map fst (filter (fun p => f (fst p)) l).
Proof. induction l as [|p l IH]; simpl; [reflexivity|]. destruct (f (fst p)); simpl; now rewrite IH. Qed.

Definition below n l := filter (fun p : nat * file V => fst p <? n) l.
Definition above n l := filter (fun p : nat * file V => n <? fst p) l.

Lemma sorted_insert n f l : sorted l -> sorted ((below n l ++ [(n, f)]) ++ above n l).
Proof.
  intros S. apply sorted_app; [apply sorted_app| |].
  - now apply sorted_filter.
  - repeat constructor.
  - intros a b Ha [<-|[]]. apply filter_In in Ha. destruct Ha as (_ & H). apply Nat.ltb_lt in H. exact H.
  - now apply sorted_filter.
  - intros a b Ha Hb. apply filter_In in Hb. destruct Hb as (_ & Hb). apply Nat.ltb_lt in Hb.
    apply in_app_or in Ha. destruct Ha as [Ha|[<-|[]]]; [|exact Hb].
    apply filter_In in Ha. destruct Ha as (_ & Ha). apply Nat.ltb_lt in Ha. lia.
Qed.

Lemma newer_eq {O} (s : state V O) l : sorted l ->
  filter (fun n => s_step s <? n) (map fst (insert_file (s_step s) (to_file s) l)) = map fst (above (s_step s) l).
Proof.
  intros S. rewrite insert_split by assumption. rewrite map_app, filter_app. cbn [map fst filter].
  rewrite Nat.ltb_irrefl. rewrite !filter_map_fst, !filter_filter.
  replace (filter (fun x : nat * file V => (fst x <? s_step s) && (s_step s <? fst x)) l) with (@nil (nat * file V)).
  - simpl. f_equal. unfold above. apply filter_ext. intros p. apply andb_diag.
  - clear. induction l as [|p l IH]; [reflexivity|]. simpl.
    destruct (Nat.ltb_spec (fst p) (s_step s)), (Nat.ltb_spec (s_step s) (fst p)); simpl; try lia; exact IH.
Qed.

Lemma rest_eq {O} (s : state V O) l : sorted l ->
  filter (fun n => negb (s_step s <? n)) (map fst (insert_file (s_step s) (to_file s) l))
  = map fst (below (s_step s) l ++ [(s_step s, to_file s)]).
Proof.
  intros S. rewrite insert_split by assumption. rewrite !map_app, filter_app. cbn [map fst filter].
  rewrite Nat.ltb_irrefl. cbn [negb]. f_equal.
  - rewrite filter_map_fst, filter_filter. f_equal. unfold below. apply filter_ext. intros p.
    destruct (Nat.ltb_spec (fst p) (s_step s)), (Nat.ltb_spec (s_step s) (fst p)); simpl; try reflexivity; lia.
  - f_equal. rewrite filter_map_fst, filter_filter.
    replace (filter _ l) with (@nil (nat * file V)); [reflexivity|].
    clear. induction l as [|p l IH]; [reflexivity|]. simpl. destruct (s_step s <? fst p); simpl; exact IH.
Qed.

Definition to_drop (keep len : nat) := if keep <? len then (if keep =? 0 then 0 else len - keep) else 0.

(** the save actions are: write, remove every newer one, remove a prefix of the others *)
Lemma save_actions_eq {O} d w (s : state V O) keep : sorted (dir_files d w) ->
  save_actions d w s keep =
  AWrite d (s_step s) (to_file s) ::
  map (ARemove d)
    (map fst (above (s_step s) (dir_files d w)) ++
     firstn (to_drop keep (S (length (below (s_step s) (dir_files d w)))))
            (map fst (below (s_step s) (dir_files d w) ++ [(s_step s, to_file s)]))).
Proof.
  intros S. unfold save_actions. rewrite newer_eq, rest_eq by assumption.
  do 3 f_equal. rewrite !map_length, !app_length. simpl length. rewrite Nat.add_1_r.
  unfold to_drop. destruct (keep <? _); [|reflexivity]. destruct (keep =? 0); reflexivity.
Qed.

(** files after a crash that keeps the first m removals *)
Lemma crash_files {O} d w (s : state V O) keep m : sorted (dir_files d w) ->
  let A := below (s_step s) (dir_files d w) ++ [(s_step s, to_file s)] in
  let B := above (s_step s) (dir_files d w) in
  dir_files d (apply_actions w (firstn (S m) (save_actions d w s keep)))
  = skipn (Nat.min (m - length B) (to_drop keep (length A))) A ++ skipn m B.
Proof.
  intros S A B. rewrite save_actions_eq by assumption. cbn [firstn].
  rewrite firstn_map. unfold apply_actions. cbn [fold_left].
  change (fold_left apply_action) with (fun acts u => @apply_actions V u acts). cbv beta.
  rewrite removes_files. simpl apply_action. rewrite dir_set_same, insert_split by assumption.
  fold (below (s_step s) (dir_files d w)). fold (above (s_step s) (dir_files d w)). fold B.
  replace (below (s_step s) (dir_files d w) ++ (s_step s, to_file s) :: B) with (A ++ B)
    by (unfold A; now rewrite <- app_assoc).
  rewrite firstn_app, firstn_firstn. fold A. rewrite map_length.
  replace (Datatypes.S (length (below (s_step s) (dir_files d w)))) with (length A)
    by (unfold A; rewrite app_length; simpl; lia).
  apply remove_both. apply sorted_insert. exact S.
Qed.

Lemma to_drop_lt keep n : to_drop keep (S n) <= n.
Proof.
  unfold to_drop. destruct (Nat.ltb_spec keep (S n)); [|lia]. destruct (Nat.eqb_spec keep 0); lia.
Qed.

Lemma save_files {O} d w (s : state V O) keep : sorted (dir_files d w) ->
  let A := below (s_step s) (dir_files d w) ++ [(s_step s, to_file s)] in
  dir_files d (apply_actions w (save_actions d w s keep)) = skipn (to_drop keep (length A)) A.
Proof.
  intros S A. set (m := length (save_actions d w s keep)).
  assert (E : save_actions d w s keep = firstn (Datatypes.S m) (save_actions d w s keep)).
  { symmetry. apply firstn_all2. unfold m. lia. }
  rewrite E, crash_files by assumption. fold A.
  assert (L : m = Datatypes.S (length (above (s_step s) (dir_files d w)) + to_drop keep (length A))).
  { unfold m. rewrite save_actions_eq by assumption. simpl. rewrite map_length, app_length, firstn_length, !map_length.
    f_equal. f_equal. fold A.
    replace (Datatypes.S (length (below (s_step s) (dir_files d w)))) with (length A)
      by (unfold A; rewrite app_length; simpl; lia).
    assert (to_drop keep (length A) <= length A).
    { unfold to_drop. destruct (keep <? _); [|lia]. destruct (keep =? 0); lia. }
    lia. }
  rewrite (skipn_all2 (above _ _)) by lia. rewrite app_nil_r. f_equal. lia.
Qed.

Lemma latest_skip n (A : files V) x : n <= length A -> latest (skipn n (A ++ [x])) = Some x.
Proof.
  intros H. rewrite skipn_app. replace (n - length A) with 0 by lia. simpl. apply latest_app.
Qed.

Lemma latest_app_r (A B : files V) : B <> [] -> latest (A ++ B) = latest B.
Proof.
  intros N. destruct (exists_last N) as (B' & x & ->). rewrite app_assoc, !latest_app. reflexivity.
Qed.

Lemma latest_skipn_r n (B : files V) : n < length B -> latest (skipn n B) = latest B.
Proof.
  intros H. rewrite <- (firstn_skipn n B) at 2. rewrite latest_app_r; [reflexivity|].
  intros E. apply (f_equal (@List.length _)) in E. rewrite skipn_length in E. simpl in E. lia.
Qed.

Lemma latest_above n l : above n l <> [] -> sorted l -> latest (above n l) = latest l.
Proof.
  intros N S. unfold above in *.
  induction l as [|p l IH]; [contradiction|]. simpl in *.
  destruct (Nat.ltb_spec n (fst p)) as [L|L].
  - f_equal. f_equal. apply filter_all. intros q Hq. apply Nat.ltb_lt.
    unfold sorted in S. simpl in S. inversion S as [|? ? S1 S2]; subst. rewrite Forall_forall in S2.
    specialize (S2 (fst q) (in_map _ _ _ Hq)). lia.
  - assert (S' : sorted l) by (unfold sorted in *; simpl in S; now inversion S).
    rewrite IH by assumption. symmetry. apply (latest_app_r [p] l). intros ->. now apply N.
Qed.

(** a crash during put leaves the previous or the new state as the latest *)
Lemma put_crash {O} d w (s : state V O) keep m : sorted (dir_files d w) ->
  let fl := dir_files d (apply_actions w (firstn m (save_actions d w s keep))) in
  latest fl = latest (dir_files d w) \/ latest fl = Some (s_step s, to_file s).
Proof.
  intros S fl. destruct m as [|m]; [now left|]. unfold fl. rewrite crash_files by assumption.
  set (B := above (s_step s) (dir_files d w)). set (A := below (s_step s) (dir_files d w)).
  destruct (le_lt_dec (length B) m) as [L|L].
  - right. rewrite (skipn_all2 B) by assumption. rewrite app_nil_r. apply latest_skip.
    rewrite app_length. simpl length. rewrite Nat.add_1_r. pose proof (to_drop_lt keep (length A)). lia.
  - left. assert (N : skipn m B <> []).
    { intros E. apply (f_equal (@List.length _)) in E. rewrite skipn_length in E. simpl in E. lia. }
    rewrite latest_app_r by assumption. rewrite latest_skipn_r by assumption.
    apply latest_above; [|assumption]. fold B. intros E. rewrite E in L. simpl in L. lia.
Qed.

Lemma save_sorted {O} d w (s : state V O) keep : sorted (dir_files d w) ->
  sorted (dir_files d (apply_actions w (save_actions d w s keep))).
Proof.
  intros S. rewrite save_files by assumption.
  pose proof (sorted_insert (s_step s) (to_file s) _ S) as H. apply sorted_app_inv in H. destruct H as (H & _).
  rewrite <- (firstn_skipn (to_drop keep (length (below (s_step s) (dir_files d w) ++ [(s_step s, to_file s)])))
        (below (s_step s) (dir_files d w) ++ [(s_step s, to_file s)])) in H.
  apply sorted_app_inv in H. tauto.
Qed.
End Files.

Section Refine.
Context {V O : Type} (init : O -> tree V -> V).
Notation state := (state V O).

Definition entry (s : state) := (s_step s, to_file s).
Definition repr (st : list state) (fl : files V) := fl = rev (map entry st) /\ sorted fl.

Lemma from_to s o : from_file init (s_step s) (to_file s) o = on_disk init s o.
Proof. reflexivity. Qed.

Lemma rev_filter {A} (f : A -> bool) l : rev (filter f l) = filter f (rev l).
Proof.
  induction l as [|a l IH]; simpl; [reflexivity|]. rewrite filter_app. simpl.
  destruct (f a); simpl; rewrite IH; [reflexivity|now rewrite app_nil_r].
Qed.

Lemma filter_map_entry n st : filter (fun p : nat * file V => fst p <? n) (map entry st)
  = map entry (filter (fun t => s_step t <? n) st).
Proof. induction st as [|s st IH]; simpl; [reflexivity|]. destruct (s_step s <? n); simpl; now rewrite IH. Qed.

Lemma put_refines d w s keep st : repr st (dir_files d w) ->
  repr (spec_put s keep st) (dir_files d (apply_actions w (save_actions d w s keep))).
Proof.
  intros (E & S). split; [|now apply save_sorted]. rewrite save_files by assumption.
  set (F := filter (fun t => s_step t <? s_step s) st).
  assert (EA : below (s_step s) (dir_files d w) ++ [(s_step s, to_file s)] = rev (map entry (s :: F))).
  { simpl. f_equal. unfold below. rewrite E, <- rev_filter, filter_map_entry. reflexivity. }
  rewrite EA. unfold spec_put, bounded, to_drop. fold F.
  rewrite rev_length, map_length.
  destruct (Nat.eqb_spec keep 0) as [->|N].
  - destruct (0 <? _); reflexivity.
  - rewrite skipn_rev, map_length. rewrite <- firstn_map. f_equal.
    destruct (Nat.ltb_spec keep (length (s :: F))).
    + f_equal. lia.
    + rewrite !firstn_all2; [reflexivity| |]; rewrite map_length; lia.
Qed.

Lemma latest_repr st fl : repr st fl ->
  latest fl = match st with [] => None | s :: _ => Some (entry s) end.
Proof.
  intros (-> & _). destruct st as [|s st]; [reflexivity|]. simpl. apply latest_app.
Qed.

Lemma remove_latest s st d w : repr (s :: st) (dir_files d w) ->
  repr st (dir_files d (apply_actions w [ARemove d (s_step s)])).
Proof.
  intros (E & S). change [ARemove d (s_step s)] with (map (@ARemove V d) [s_step s]).
  rewrite removes_files. rewrite E in *. simpl in *. apply sorted_app_inv in S. destruct S as (S1 & _ & C).
  rewrite filter_app. simpl. unfold notin at 2. simpl. rewrite Nat.eqb_refl. simpl. rewrite app_nil_r.
  assert (X : filter (notin [s_step s]) (rev (map entry st)) = rev (map entry st)).
  { apply filter_all. intros p Hp. apply notin_true. intros [H|[]].
    specialize (C p (entry s) Hp (or_introl eq_refl)). simpl in C. lia. }
  rewrite X. split; [reflexivity|exact S1].
Qed.

Lemma run_op_refines d x w r st : r_dir r = Some d -> repr st (dir_files d w) ->
  exists y w' r' st', run_op init x w r = (y, (w', r')) /\ spec_op init x st = (y, st') /\
    repr st' (dir_files d w') /\ r_dir r' = Some d.
Proof.
  intros D R. pose proof (latest_repr _ _ R) as LR.
  destruct x as [s keep|o|o|vs o keep]; unfold run_op, put, put_actions, update, pull, pull_actions, get, place, restore; rewrite ?D.
  - do 4 eexists. split; [reflexivity|]. split; [reflexivity|]. split; [now apply put_refines|exact D].
  - rewrite LR. destruct st as [|s st]; simpl;
    (do 4 eexists; split; [reflexivity|]; split; [reflexivity|]; split; [exact R|exact D]).
  - rewrite LR. destruct st as [|s st]; simpl entry; cbv iota beta.
    + do 4 eexists; split; [reflexivity|]; split; [reflexivity|]; split; [exact R|exact D].
    + rewrite ?D, ?LR. cbv iota beta. do 4 eexists. split; [reflexivity|]. split; [reflexivity|].
      split; [|exact D]. cbn [fst snd entry]. apply remove_latest with (1 := R).
  - rewrite LR. destruct st as [|s st]; simpl entry; cbv iota beta.
    + do 4 eexists; split; [reflexivity|]; split; [reflexivity|]; split; [exact R|exact D].
    + rewrite ?D, ?LR. unfold put, put_actions, place. cbv iota beta zeta. rewrite ?D. cbv iota beta.
      do 4 eexists. split; [reflexivity|]. split; [reflexivity|].
      cbn [fst snd entry]; rewrite D; split; [|exact D]. apply put_refines, remove_latest with (1 := R).
Qed.

Lemma run_refines d xs : forall w r st, r_dir r = Some d -> repr st (dir_files d w) ->
  fst (run init xs w r) = fst (spec_run init xs st) /\
  repr (snd (spec_run init xs st)) (dir_files d (fst (snd (run init xs w r)))) /\
  r_dir (snd (snd (run init xs w r))) = Some d.
Proof.
  induction xs as [|x xs IH]; intros w r st D R; [simpl; auto|].
  destruct (run_op_refines d x w r st D R) as (y & w' & r' & st' & E1 & E2 & R' & D').
  simpl. rewrite E1, E2. simpl. specialize (IH w' r' st' D' R').
  destruct (run init xs w' r') as [ys wr], (spec_run init xs st') as [zs st'']. simpl in *.
  destruct IH as (I1 & I2 & I3). split; [now rewrite I1|auto].
Qed.

(** fresh directory *)
Theorem disk_refines d xs w : dir_files d w = [] ->
  fst (run init xs w (mk_repo (Some d) None)) = fst (spec_run init xs []).
Proof.
  intros E. apply run_refines with (d := d); [reflexivity|]. rewrite E. split; [reflexivity|constructor].
Qed.

Lemma run_app xs ys w r : run init (xs ++ ys) w r =
  (fst (run init xs w r) ++ fst (run init ys (fst (snd (run init xs w r))) (snd (snd (run init xs w r)))),
   snd (run init ys (fst (snd (run init xs w r))) (snd (snd (run init xs w r))))).
Proof.
  revert w r. induction xs as [|x xs IH]; intros w r; simpl.
  - now destruct (run init ys w r).
  - destruct (run_op init x w r) as [y [w' r']]. simpl. rewrite IH.
    destruct (run init xs w' r') as [zs [w'' r'']]. simpl. reflexivity.
Qed.

Lemma spec_run_app xs ys st : spec_run init (xs ++ ys) st =
  (fst (spec_run init xs st) ++ fst (spec_run init ys (snd (spec_run init xs st))),
   snd (spec_run init ys (snd (spec_run init xs st)))).
Proof.
  revert st. induction xs as [|x xs IH]; intros st; simpl.
  - now destruct (spec_run init ys st).
  - destruct (spec_op init x st) as [y st']. rewrite IH. destruct (spec_run init xs st') as [zs st'']. reflexivity.
Qed.

Lemma spec_put_top (s : state) keep st : exists r, spec_put s keep st = s :: r.
Proof. unfold spec_put, bounded. destruct (Nat.eqb_spec keep 0); [eauto|]. destruct keep; [congruence|]. simpl. eauto. Qed.

Lemma spec_gets gets s st : Forall (fun x => exists o, x = Get o) gets ->
  spec_run init gets (s :: st) =
  (map (fun x => match x with Get o => Got (on_disk init s o) | _ => Done end) gets, s :: st).
Proof.
  induction gets as [|x gets IH]; intros F; [reflexivity|]. inversion F as [|? ? (o & ->) F2]; subst.
  simpl. rewrite IH by assumption. reflexivity.
Qed.

(** whatever happened before, and however often it is read *)
Theorem disk_put_get d xs w s keep gets : dir_files d w = [] ->
  Forall (fun x => exists o, x = Get o) gets ->
  fst (run init (xs ++ Put s keep :: gets) w (mk_repo (Some d) None)) =
  fst (run init xs w (mk_repo (Some d) None)) ++ Done ::
  map (fun x => match x with Get o => Got (on_disk init s o) | _ => Done end) gets.
Proof.
  intros E F. rewrite !(disk_refines d _ w E). rewrite spec_run_app. simpl. f_equal.
  destruct (spec_put_top s keep (snd (spec_run init xs []))) as (r & ->).
  rewrite spec_gets by assumption. reflexivity.
Qed.

(** ---- memory ---- *)
Lemma run_op_mem x w r : r_dir r = None ->
  exists r', run_op init x w r = (fst (mem_op init x (r_mem r)), (w, r')) /\
    r_mem r' = snd (mem_op init x (r_mem r)) /\ r_dir r' = None.
Proof.
  intros D. destruct r as [dir mem]. simpl in D. subst dir.
  destruct x as [s keep|o|o|vs o keep];
    unfold run_op, put, put_actions, update, pull, pull_actions, get, place; simpl.
  - eexists. split; [reflexivity|]. auto.
  - destruct mem as [[]|]; [|eexists; split; [reflexivity|]; auto].
    destruct o; simpl; (eexists; split; [reflexivity|]; auto).
  - destruct mem as [[]|]; [|eexists; split; [reflexivity|]; auto].
    destruct o; simpl; (eexists; split; [reflexivity|]; auto).
  - destruct mem as [[]|]; [|eexists; split; [reflexivity|]; auto].
    destruct o; simpl; (eexists; split; [reflexivity|]; auto).
Qed.

Theorem mem_refines xs : forall w r, r_dir r = None ->
  fst (run init xs w r) = fst (mem_run init xs (r_mem r)) /\ fst (snd (run init xs w r)) = w.
Proof.
  induction xs as [|x xs IH]; intros w r D; [simpl; auto|].
  destruct (run_op_mem x w r D) as (r' & E & M & D').
  simpl. rewrite E. simpl. specialize (IH w r' D'). rewrite M in IH.
  destruct (mem_op init x (r_mem r)) as [y st']. simpl in *.
  destruct (run init xs w r') as [ys wr], (mem_run init xs st') as [zs st'']. simpl in *.
  destruct IH as (I1 & I2). split; [now rewrite I1|assumption].
Qed.

Lemma mem_gets n st s : st = Some s -> fst (mem_run init (repeat (Get None) n) st) = repeat (Got s) n.
Proof.
  intros ->. induction n as [|n IH]; [reflexivity|]. simpl.
  destruct (mem_run init (repeat (Get None) n) (Some s)) as [ys st']. simpl in *. now rewrite IH.
Qed.

Lemma mem_run_app xs ys st : mem_run init (xs ++ ys) st =
  (fst (mem_run init xs st) ++ fst (mem_run init ys (snd (mem_run init xs st))),
   snd (mem_run init ys (snd (mem_run init xs st)))).
Proof.
  revert st. induction xs as [|x xs IH]; intros st; simpl.
  - now destruct (mem_run init ys st).
  - destruct (mem_op init x st) as [y st']. rewrite IH. destruct (mem_run init xs st') as [zs st'']. reflexivity.
Qed.

Theorem mem_put_get xs w s keep n :
  fst (run init (xs ++ Put s keep :: repeat (Get None) n) w (mk_repo None None)) =
  fst (run init xs w (mk_repo None None)) ++ Done :: repeat (Got s) n.
Proof.
  rewrite !(proj1 (mem_refines _ w (mk_repo None None) eq_refl)). rewrite mem_run_app. simpl fst at 1. f_equal.
  simpl. pose proof (mem_gets n (Some s) s eq_refl) as G.
  destruct (mem_run init (repeat (Get None) n) (Some s)) as [ys st']. simpl in *. now rewrite G.
Qed.

Theorem empty_get place w o : (forall d, place = Some d -> dir_files d w = []) ->
  fst (run_op init (Get o) w (mk_repo place None)) = Raised ValueError.
Proof.
  intros H. unfold run_op, get, RepoModel.place, restore. simpl. destruct place as [d|]; [|reflexivity].
  rewrite (H d eq_refl). reflexivity.
Qed.

(** ---- update ---- *)
Theorem disk_update d xs w s keep vs keep2 o : dir_files d w = [] ->
  fst (run init (xs ++ [Put s keep; Update vs None keep2; Get o]) w (mk_repo (Some d) None)) =
  fst (run init xs w (mk_repo (Some d) None)) ++
    [Done; Done; Got (on_disk init (replace (on_disk init s None) vs) o)].
Proof.
  intros E. rewrite !(disk_refines d _ w E). rewrite spec_run_app. simpl. f_equal.
  destruct (spec_put_top s keep (snd (spec_run init xs []))) as (r & ->). simpl.
  destruct (spec_put_top (replace (on_disk init s None) vs) keep2 r) as (r2 & ->). reflexivity.
Qed.

Theorem mem_update xs w s keep vs keep2 :
  fst (run init (xs ++ [Put s keep; Update vs None keep2; Get None]) w (mk_repo None None)) =
  fst (run init xs w (mk_repo None None)) ++ [Done; Done; Got (replace s vs)].
Proof.
  rewrite !(proj1 (mem_refines _ w (mk_repo None None) eq_refl)). rewrite mem_run_app. simpl. reflexivity.
Qed.

(** the update performs exactly these actions: its crash points are their prefixes *)
Lemma update_effect vs o keep d w r wr : r_dir r = Some d ->
  update init vs None o keep w r = (Ok tt, wr) -> fst wr = apply_actions w (update_actions init vs o keep w r).
Proof.
  intros D. unfold update, update_actions, pull, pull_actions, put, put_actions, get, place, restore. rewrite D.
  destruct (latest (dir_files d w)) as [[n f]|] eqn:L; [|discriminate]. cbv iota beta. rewrite D, L.
  cbv iota beta. rewrite D. intros H. injection H as <-. simpl. reflexivity.
Qed.

(** after a crash in an update the latest state is the old one, the one before it
    (if an older checkpoint was kept) or the updated one *)
Theorem update_crash d w r st s vs o keep m : r_dir r = Some d -> repr (s :: st) (dir_files d w) ->
  let fl := dir_files d (apply_actions w (firstn m (update_actions init vs o keep w r))) in
  let s' := replace (on_disk init s o) vs in
  (m = 0 /\ latest fl = Some (entry s)) \/
  latest fl = match st with [] => None | t :: _ => Some (entry t) end \/ latest fl = Some (entry s').
Proof.
  intros D R fl s'. unfold fl, update_actions, pull_actions, put_actions, get, place, restore. rewrite D.
  rewrite (latest_repr _ _ R). cbv iota beta. rewrite ?D, ?(latest_repr _ _ R). cbn [entry fst snd]. cbv iota beta.
  rewrite ?D.
  destruct m as [|m]; [left; split; [reflexivity|]; simpl; apply (latest_repr _ _ R)|]. right.
  cbn [app firstn]. unfold apply_actions. cbn [fold_left].
  change (fold_left apply_action) with (fun acts u => @apply_actions V u acts). cbv beta.
  pose proof (remove_latest s st d w R) as R1. unfold apply_actions in R1. cbn [fold_left] in R1.
  set (w1 := apply_action w (ARemove d (s_step s))) in *.
  change (from_file init (s_step s) (to_file s) o) with (on_disk init s o). fold s'.
  destruct (put_crash d w1 s' keep m (proj2 R1)) as [H|H].
  - left. rewrite H. apply (latest_repr _ _ R1).
  - right. exact H.
Qed.

(** directories reached by any history *)
Theorem put_crash_reachable d xs w (s : state) keep m : dir_files d w = [] ->
  let w1 := fst (snd (run init xs w (mk_repo (Some d) None))) in
  let fl := dir_files d (apply_actions w1 (firstn m (save_actions d w1 s keep))) in
  latest fl = latest (dir_files d w1) \/ latest fl = Some (s_step s, to_file s).
Proof.
  intros E w1 fl. apply put_crash. unfold w1.
  destruct (run_refines d xs w (mk_repo (Some d) None) [] eq_refl) as (_ & (_ & S) & _); [|exact S].
  rewrite E. split; [reflexivity|constructor].
Qed.
End Refine.
