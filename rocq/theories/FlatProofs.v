From Coq Require Import List Arith Lia Bool String Permutation Sorting.Sorted.
From Verif Require Import Lib NestedModel NestedSpec NestedProofs NestedProofs2 FreezeModel FreezeSpec FreezeProofs LapModel LapSpec LapProofs3 FlatModel FlatSpec.
Import ListNotations.
Open Scope list_scope.
Local Notation length := List.length.
Local Notation concat := List.concat.

Section Cut.
Context {V : Type}.
Notation ptree := (tree (list V)).

(** cutting a list of leaves *)
Fixpoint cut (s : list (path * list V)) (l : list V) : list (path * list V) :=
  match s with [] => [] | (p, v) :: r => (p, firstn (length v) l) :: cut r (skipn (length v) l) end.
Definition total (s : list (path * list V)) : nat := length (concat (map snd s)).

Lemma total_cons p v s : total ((p, v) :: s) = length v + total s.
Proof. unfold total. simpl. now rewrite app_length. Qed.
Lemma total_app a b : total (a ++ b) = total a + total b.
Proof. unfold total. now rewrite map_app, concat_app, app_length. Qed.
Lemma total_pre k a : total (map (pre k) a) = total a.
Proof. unfold total. now rewrite map_map. Qed.
Lemma total_ravel t : total (sleaves t) = length (ravel t).
Proof. unfold total. now rewrite ravel_sleaves. Qed.

Lemma skipn_add {A} n m (l : list A) : skipn m (skipn n l) = skipn (n + m) l.
Proof. revert l. induction n as [|n IH]; intros [|x l]; simpl; auto. now rewrite skipn_nil. Qed.
Lemma cut_app a : forall b l, cut (a ++ b) l = cut a l ++ cut b (skipn (total a) l).
Proof.
  induction a as [|[p v] a IH]; intros b l; [reflexivity|]. simpl. rewrite IH, total_cons, skipn_add. reflexivity.
Qed.
Lemma cut_pre k a : forall l, cut (map (pre k) a) l = map (pre k) (cut a l).
Proof. induction a as [|[p v] a IH]; intros l; [reflexivity|]. simpl. now rewrite IH. Qed.
Lemma cut_paths a : forall l, map fst (cut a l) = map fst a.
Proof. induction a as [|[p v] a IH]; intros l; [reflexivity|]. simpl. now rewrite IH. Qed.
Lemma cut_concat a : forall l, length l = total a -> concat (map snd (cut a l)) = l.
Proof.
  induction a as [|[p v] a IH]; intros l H. { unfold total in H. simpl in H. now destruct l. }
  rewrite total_cons in H. simpl. rewrite IH; [apply firstn_skipn|]. rewrite skipn_length. lia.
Qed.
Lemma cut_self a : cut a (concat (map snd a)) = a.
Proof.
  induction a as [|[p v] a IH]; [reflexivity|]. simpl. rewrite firstn_app, Nat.sub_diag, firstn_O, app_nil_r, firstn_all.
  rewrite skipn_app, Nat.sub_diag, skipn_all. simpl. now rewrite IH.
Qed.
Lemma cut_sizes a : forall l, total a <= length l -> map (fun pv => length (snd pv)) (cut a l) = map (fun pv => length (snd pv)) a.
Proof.
  induction a as [|[p v] a IH]; intros l H; [reflexivity|]. rewrite total_cons in H. simpl. rewrite firstn_length, Nat.min_l by lia. f_equal.
  apply IH. rewrite skipn_length. lia.
Qed.

(** ---- cut_tree ---- *)
Definition readers (kvs : list (string * ptree)) := map (fun kv => (fst kv, cut_tree (snd kv))) kvs.
Lemma cut_dict kvs l : cut_tree (Dict kvs) l = (Dict (fst (thread (readers (sort_keys kvs)) l)), snd (thread (readers (sort_keys kvs)) l)).
Proof.
  cbn [cut_tree]. unfold readers. rewrite <- (sort_map cut_tree kvs).
  assert (E : (fix go (kvs : list (string * ptree)) := match kvs with [] => [] | (k, v) :: r => (k, cut_tree v) :: go r end) kvs = map (fun kv => (fst kv, cut_tree (snd kv))) kvs).
  { induction kvs as [|[k v] kvs IH]; [reflexivity|]. cbn [map fst snd]. now rewrite IH. }
  rewrite E. now destruct (thread _ l).
Qed.
Lemma thread_cons k v (kvs : list (string * ptree)) l : thread (readers ((k, v) :: kvs)) l =
  ((k, fst (cut_tree v l)) :: fst (thread (readers kvs) (snd (cut_tree v l))), snd (thread (readers kvs) (snd (cut_tree v l)))).
Proof. cbn [readers map thread fst snd]. destruct (cut_tree v l) as [a l1]. fold (readers kvs). cbn [fst snd]. now destruct (thread (readers kvs) l1). Qed.
Lemma thread_keys kvs : forall l, map fst (fst (thread (readers kvs) l)) = map fst kvs.
Proof. induction kvs as [|[k v] kvs IH]; intros l; [reflexivity|]. rewrite thread_cons. cbn [fst map]. now rewrite IH. Qed.

Lemma insert_first {A} (p : string * A) l : Forall (key_lt p) l -> insert_key p l = p :: l.
Proof. intros F. destruct l as [|q l]; [reflexivity|]. inversion F as [|? ? H _]; subst. cbn [insert_key]. unfold string_leb. unfold key_lt in H. now rewrite H. Qed.
Lemma sort_sorted_id {A} (l : list (string * A)) : StronglySorted key_lt l -> sort_keys l = l.
Proof. unfold sort_keys. induction 1 as [|p l S IH F]; [reflexivity|]. cbn [fold_right]. rewrite IH. now apply insert_first. Qed.
Lemma sorted_keys {A B} (l : list (string * A)) (m : list (string * B)) : map fst l = map fst m -> StronglySorted key_lt l -> StronglySorted key_lt m.
Proof.
  revert m. induction l as [|p l IH]; intros [|q m] E S; simpl in E; try discriminate; [constructor|]. injection E as E1 E2. inversion S as [|? ? S1 S2]; subst.
  constructor; [now apply IH|]. apply Forall_forall. intros x Hx. unfold key_lt. rewrite <- E1.
  assert (I : In (fst x) (map fst l)) by (rewrite E2; now apply in_map). apply in_map_iff in I. destruct I as (y & Ey & I). rewrite <- Ey. rewrite Forall_forall in S2. now apply S2.
Qed.

Lemma Forall_sort (P : string * ptree -> Prop) kvs : Forall P kvs -> Forall P (sort_keys kvs).
Proof. intros F. apply Forall_forall. intros x Hx. rewrite Forall_forall in F. apply F. apply (Permutation_in _ (Permutation_sym (sort_keys_perm kvs)) Hx). Qed.

Lemma cut_tree_leaves t : unique_keys t -> forall l, sleaves (fst (cut_tree t l)) = cut (sleaves t) l /\ snd (cut_tree t l) = skipn (total (sleaves t)) l.
Proof.
  induction t as [v|kvs IH] using tree_rect'; intros U l.
  - cbn [cut_tree fst snd sleaves cut]. split; [reflexivity|]. unfold total. cbn. now rewrite app_nil_r.
  - apply unique_dict in U. destruct U as [ND F]. rewrite cut_dict. cbn [fst snd]. rewrite !sleaves_dict.
    assert (S := sort_sorted kvs ND).
    rewrite (sort_sorted_id (fst (thread (readers (sort_keys kvs)) l))) by (apply (sorted_keys (sort_keys kvs)); [now rewrite thread_keys|exact S]).
    assert (A : Forall (fun kv : string * ptree => forall l : list V, sleaves (fst (cut_tree (snd kv) l)) = cut (sleaves (snd kv)) l /\ snd (cut_tree (snd kv) l) = skipn (total (sleaves (snd kv))) l) (sort_keys kvs)).
    { apply Forall_sort. rewrite Forall_forall in *. intros x Hx. apply IH; [exact Hx|now apply F]. }
    clear IH ND F S. revert l. induction A as [|[k v] L H _ IHL]; intros l.
    + split; reflexivity.
    + rewrite thread_cons. cbn [fst snd map concat]. destruct (H l) as [H1 H2]. cbn [snd] in H1, H2. rewrite H1, H2.
      destruct (IHL (skipn (total (sleaves v)) l)) as [I1 I2]. rewrite I1, I2, cut_app, cut_pre, total_app, total_pre, skipn_add. split; reflexivity.
Qed.
Lemma cut_tree_unique (t : ptree) : unique_keys t -> forall l, unique_keys (fst (cut_tree t l)).
Proof.
  induction t as [v|kvs IH] using tree_rect'; intros U l; [exact I|]. apply unique_dict in U. destruct U as [ND F]. rewrite cut_dict. cbn [fst].
  apply unique_dict. split.
  - rewrite thread_keys. apply (Permutation_NoDup (Permutation_map fst (sort_keys_perm kvs)) ND).
  - assert (A : Forall (fun kv : string * ptree => forall l : list V, unique_keys (fst (cut_tree (snd kv) l))) (sort_keys kvs)).
    { apply Forall_sort. rewrite Forall_forall in *. intros x Hx. apply IH; [exact Hx|now apply F]. }
    revert l. induction A as [|[k v] L H _ IHL]; intros l; [constructor|]. rewrite thread_cons. cbn [fst]. constructor; [apply H|apply IHL].
Qed.
Lemma thread_get (kvs : list (string * ptree)) k : forall l, (assoc_get k kvs = None -> assoc_get k (fst (thread (readers kvs) l)) = None) /\
  (forall v, assoc_get k kvs = Some v -> exists l', assoc_get k (fst (thread (readers kvs) l)) = Some (fst (cut_tree v l'))).
Proof.
  induction kvs as [|[k' v'] kvs IH]; intros l; [split; [auto|discriminate]|]. rewrite thread_cons. cbn [fst assoc_get].
  destruct (String.eqb k k'); [|apply IH]. split; [discriminate|]. intros v E. injection E as <-. eauto.
Qed.
Lemma sort_get {A} (kvs : list (string * A)) k : NoDup (map fst kvs) -> assoc_get k (sort_keys kvs) = assoc_get k kvs.
Proof.
  intros ND. assert (ND' : NoDup (map fst (sort_keys kvs))) by apply (Permutation_NoDup (Permutation_map fst (sort_keys_perm kvs)) ND).
  destruct (assoc_get k kvs) as [v|] eqn:E.
  - apply in_get; [exact ND'|]. apply (Permutation_in _ (sort_keys_perm kvs)). now apply get_in.
  - apply get_none_notin. apply get_none_notin in E. intros H. apply E. apply (Permutation_in _ (Permutation_sym (Permutation_map fst (sort_keys_perm kvs))) H).
Qed.
Lemma cut_tree_structure (t : ptree) : unique_keys t -> forall l, same_structure t (fst (cut_tree t l)).
Proof.
  induction t as [v|kvs IH] using tree_rect'; intros U l.
  - intros [|k q]; exact I.
  - pose proof U as U0. apply unique_dict in U. destruct U as [ND F]. rewrite cut_dict. cbn [fst]. intros [|k q]; [exact I|]. rewrite !at_cons.
    destruct (thread_get (sort_keys kvs) k l) as [T1 T2]. rewrite (sort_get kvs k ND) in T1, T2.
    destruct (assoc_get k kvs) as [v|] eqn:E.
    + destruct (T2 v eq_refl) as (l' & ->). rewrite Forall_forall in IH. apply (IH (k, v)); [now apply get_in|]. now apply (unique_get kvs k v).
    + now rewrite T1.
Qed.

Lemma sleaves_at (t : ptree) q v : unique_keys t -> (In (q, v) (sleaves t) <-> leaf_at t q v).
Proof. intros U. unfold leaf_at. rewrite <- (leaves_at t U q v). split; apply Permutation_in; [|symmetry]; apply sleaves_perm. Qed.
Lemma ravel_cut (t : ptree) l : unique_keys t -> length l = length (ravel t) -> ravel (fst (cut_tree t l)) = l.
Proof. intros U H. rewrite ravel_sleaves. destruct (cut_tree_leaves t U l) as [-> _]. apply cut_concat. now rewrite total_ravel. Qed.

Lemma unravel_ok (t : ptree) l : length l = length (ravel t) -> unravel t l = Ok (fst (cut_tree t l)).
Proof. intros H. unfold unravel. now rewrite H, Nat.eqb_refl. Qed.

Lemma in_cut_sizes a : forall b l, map (fun pv => length (snd pv)) a = map (fun pv => length (snd pv)) b -> map fst a = map fst b -> cut a l = cut b l.
Proof.
  induction a as [|[p v] a IH]; intros [|[q w] b] l H K; simpl in *; try discriminate; [reflexivity|]. injection H as H1 H2. injection K as -> K2.
  rewrite H1. now rewrite (IH b) by assumption.
Qed.
Lemma same_leaves_sizes (a b : list (path * list V)) : map fst a = map fst b -> map (fun pv => length (snd pv)) a = map (fun pv => length (snd pv)) b -> NoDup (map fst a) ->
  forall q n, (exists v, In (q, v) a /\ length v = n) <-> (exists v, In (q, v) b /\ length v = n).
Proof.
  revert b. induction a as [|[p v] a IH]; intros [|[p' v'] b] E1 E2 ND q n; simpl in *; try discriminate; [reflexivity|].
  injection E1 as <- E1. injection E2 as E2 E2'. inversion ND; subst. specialize (IH b E1 E2' ltac:(assumption) q n).
  split; intros (x & [X|X] & L).
  - injection X as <- <-. exists v'. split; [now left|lia].
  - destruct (proj1 IH) as (y & Y & L'); [eauto|]. exists y. auto.
  - injection X as <- <-. exists v. split; [now left|lia].
  - destruct (proj2 IH) as (y & Y & L'); [eauto|]. exists y. auto.
Qed.
End Cut.

(** C117 *)
Lemma flat_roundtrip : forall V (t : tree (list V)), unique_keys t ->
  exists t', unravel t (ravel t) = Ok t' /\ same_structure t t' /\ forall q v, leaf_at t' q v <-> leaf_at t q v.
Proof.
  intros V t U. exists (fst (cut_tree t (ravel t))). split; [now apply unravel_ok|]. split; [now apply cut_tree_structure|].
  intros q v. rewrite <- !sleaves_at by (auto using cut_tree_unique). destruct (cut_tree_leaves t U (ravel t)) as [-> _].
  rewrite (ravel_sleaves t), cut_self. reflexivity.
Qed.

Lemma flat_any : forall V (t : tree (list V)) l, unique_keys t ->
  (length l = length (ravel t) -> exists t', unravel t l = Ok t' /\ unique_keys t' /\ same_structure t t' /\ same_sizes t t' /\ ravel t' = l) /\
  (length l <> length (ravel t) -> unravel t l = Err ValueError).
Proof.
  intros V t l U. split.
  - intros H. exists (fst (cut_tree t l)). split; [now apply unravel_ok|]. split; [now apply cut_tree_unique|]. split; [now apply cut_tree_structure|].
    split; [|now apply ravel_cut]. intros q n.
    assert (E : sleaves (fst (cut_tree t l)) = cut (sleaves t) l) by now apply cut_tree_leaves.
    assert (X : forall (s : list (path * list V)) u, unique_keys u -> sleaves u = s -> forall q n, (exists v : list V, leaf_at u q v /\ length v = n) <-> (exists v : list V, In (q, v) s /\ length v = n)).
    { intros s u Uu <- q0 n0. split; intros (v & A & B); exists v; (split; [|exact B]); apply sleaves_at; assumption. }
    rewrite (X _ t U eq_refl), (X _ _ (cut_tree_unique t U l) E). apply same_leaves_sizes.
    + now rewrite cut_paths.
    + rewrite cut_sizes; [reflexivity|]. rewrite total_ravel. lia.
    + apply sorted_nodup. now apply sleaves_sorted.
  - intros H. unfold unravel. apply Nat.eqb_neq in H. now rewrite H.
Qed.

Section Zip.
Context {V : Type} (f : V -> V -> V -> V).
Lemma forward_firstn n : forall a b c, forward f (firstn n a) (firstn n b) (firstn n c) = firstn n (forward f a b c).
Proof.
  unfold forward. induction n as [|n IH]; intros a b c; [reflexivity|]. destruct a as [|x a], b as [|y b], c as [|z c]; try reflexivity. simpl. now rewrite IH.
Qed.
Lemma forward_skipn n : forall a b c, length a = length b -> length a = length c -> forward f (skipn n a) (skipn n b) (skipn n c) = skipn n (forward f a b c).
Proof.
  unfold forward. induction n as [|n IH]; intros a b c H1 H2; [reflexivity|]. destruct a as [|x a], b as [|y b], c as [|z c]; try discriminate; [reflexivity|]. simpl. apply IH; simpl in *; lia.
Qed.
Lemma forward_length a b c : length a = length b -> length a = length c -> length (forward f a b c) = length a.
Proof. intros. unfold forward. rewrite map_length, !combine_length. lia. Qed.
Lemma forward_pointwise a : forall b c, length b = length a -> length c = length a -> pointwise f a b c (forward f a b c).
Proof.
  intros b c H1 H2. split; [now apply forward_length|]. split; [exact H1|]. split; [exact H2|].
  revert b c H1 H2. unfold forward. induction a as [|x a IH]; intros [|y b] [|z c] H1 H2 i; try discriminate; [now destruct i|].
  destruct i as [|i]; simpl; intros x0 y0 z0 A B C; [congruence|]. apply IH; auto; simpl in *; lia.
Qed.
Lemma slice_length (sizes : list nat) i (l : list V) : list_sum sizes <= length l -> i < length sizes -> length (slice sizes i l) = nth i sizes 0.
Proof.
  intros H I. unfold slice. rewrite firstn_length, skipn_length.
  assert (X : list_sum (firstn i sizes) + nth i sizes 0 <= list_sum sizes).
  { clear - I. revert i I. induction sizes as [|n s IH]; intros [|i] I; simpl in *; try lia. specialize (IH i ltac:(lia)). lia. }
  lia.
Qed.
Lemma slice_pointwise (sizes : list nat) i a b c : length a = length b -> length a = length c -> length a = list_sum sizes -> i < length sizes ->
  pointwise f (slice sizes i a) (slice sizes i b) (slice sizes i c) (slice sizes i (forward f a b c)).
Proof.
  intros H1 H2 H3 I. unfold slice at 4. rewrite <- forward_skipn, <- forward_firstn by assumption. apply forward_pointwise; fold (slice sizes i a) (slice sizes i b) (slice sizes i c);
  rewrite !slice_length by lia; reflexivity.
Qed.
Lemma cut_pointwise s : forall a b c q v, length a = length b -> length a = length c -> length a = total s -> NoDup (map fst s) ->
  In (q, v) (cut s (forward f a b c)) -> exists x y z, In (q, x) (cut s a) /\ In (q, y) (cut s b) /\ In (q, z) (cut s c) /\ pointwise f x y z v.
Proof.
  induction s as [|[p w] s IH]; intros a b c q v H1 H2 H3 ND H; [contradiction|]. rewrite total_cons in H3. inversion ND; subst. simpl in H |- *. destruct H as [H|H].
  - injection H as <- <-. exists (firstn (length w) a), (firstn (length w) b), (firstn (length w) c). repeat (split; [now left|]).
    rewrite <- forward_firstn. apply forward_pointwise; rewrite !firstn_length; lia.
  - rewrite <- forward_skipn in H by assumption. destruct (IH (skipn (length w) a) (skipn (length w) b) (skipn (length w) c) q v) as (x & y & z & X & Y & Z & P); auto;
      try (rewrite !skipn_length; lia). exists x, y, z. auto.
Qed.
End Zip.

(** arithmetic on flat vectors is arithmetic on the arrays of the tree *)
Lemma flat_arithmetic : forall V (f : V -> V -> V -> V) (t A B C D : tree (list V)) a b c, unique_keys t ->
  length a = length b -> length a = length c ->
  unravel t a = Ok A -> unravel t b = Ok B -> unravel t c = Ok C -> unravel t (forward f a b c) = Ok D ->
  forall q v, leaf_at D q v -> exists x y z, leaf_at A q x /\ leaf_at B q y /\ leaf_at C q z /\ pointwise f x y z v.
Proof.
  intros V f t A B C D a b c U H1 H2 EA EB EC ED q v. unfold unravel in *.
  destruct (Nat.eqb_spec (length a) (length (ravel t))) as [L|]; [|discriminate]. rewrite <- H1, <- H2, L, Nat.eqb_refl in *.
  destruct (_ =? _) in ED; [|discriminate]. injection EA as <-. injection EB as <-. injection EC as <-. injection ED as <-.
  rewrite <- sleaves_at by now apply cut_tree_unique. destruct (cut_tree_leaves t U (forward f a b c)) as [-> _]. intros H.
  destruct (cut_pointwise f (sleaves t) a b c q v) as (x & y & z & X & Y & Z & P); auto.
  - congruence.
  - congruence.
  - now rewrite total_ravel.
  - apply sorted_nodup. now apply sleaves_sorted.
  - exists x, y, z. rewrite <- !sleaves_at by now apply cut_tree_unique.
    destruct (cut_tree_leaves t U a) as [-> _]. destruct (cut_tree_leaves t U b) as [-> _]. destruct (cut_tree_leaves t U c) as [-> _]. auto.
Qed.
