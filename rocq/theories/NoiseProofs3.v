(** Proofs for NoiseProps: trees of keys and of normal numbers. *)
From Coq Require Import List Arith Bool Lia String Permutation Sorted.
From Verif Require Import Lib NestedModel NestedSpec NestedProofs NestedProofs2 FreezeModel FreezeSpec FreezeProofs LapModel LapSpec LapProofs3 FlatProofs
  DrawModel DrawSpec DrawProofs NoiseModel NoiseSpec.
Import ListNotations.
Local Notation length := List.length.
Local Notation concat := List.concat.
Local Open Scope nat_scope.

Definition under {A} (k : string) (pa : path * A) : path * A := (k :: fst pa, snd pa).
Section Leaves.
Context {A : Type}.
Implicit Types (t : tree A) (kvs : list (string * tree A)).
Lemma tree_leaves_dict kvs : tree_leaves (Dict kvs) = concat (map (fun kv => map (under (fst kv)) (tree_leaves (snd kv))) (sort_keys kvs)).
Proof.
  cbn [tree_leaves].
  assert (E : (fix go (kvs : list (string * tree A)) := match kvs with [] => [] | (k, v) :: r => (k, tree_leaves v) :: go r end) kvs
    = map (fun kv => (fst kv, tree_leaves (snd kv))) kvs).
  { induction kvs as [|[k v] kvs IH]; [reflexivity|]. cbn [map fst snd]. now rewrite IH. }
  rewrite E, (sort_map tree_leaves), map_map. reflexivity.
Qed.
Lemma tree_leaves_perm t : Permutation (tree_leaves t) (leaves t).
Proof.
  induction t as [v|kvs IH] using tree_rect'; [reflexivity|]. rewrite tree_leaves_dict, leaves_dict.
  rewrite <- (Permutation_concat _ _ (Permutation_map _ (sort_keys_perm kvs))).
  induction IH as [|[k v] kvs H _ IHk]; cbn [map concat leaves_kvs fst snd]; [constructor|]. apply Permutation_app; [|exact IHk]. apply (Permutation_map (under k)). exact H.
Qed.
Lemma tree_leaves_at t q v : unique_keys t -> (In (q, v) (tree_leaves t) <-> leaf_at t q v).
Proof. intros U. unfold leaf_at. rewrite <- (leaves_at t U q v). split; apply Permutation_in; [|symmetry]; apply tree_leaves_perm. Qed.
Lemma num_leaves_eq t : num_leaves t = length (leaves t).
Proof. apply Permutation_length, tree_leaves_perm. Qed.
Lemma tree_leaves_sorted t : unique_keys t -> StronglySorted path_lt (map fst (tree_leaves t)).
Proof.
  induction t as [v|kvs IH] using tree_rect'; intros U; [cbn; repeat constructor|]. apply unique_dict in U. destruct U as [ND F].
  rewrite tree_leaves_dict, concat_map, map_map. assert (S := sort_sorted kvs ND). apply sorted_concat.
  - intros x Hx. apply in_map_iff in Hx. destruct Hx as ([k v] & <- & Hk). apply (Permutation_in _ (Permutation_sym (sort_keys_perm kvs))) in Hk.
    cbn [fst snd]. rewrite map_map. cbn [under fst]. rewrite Forall_forall in IH, F. assert (SS := IH _ Hk (F _ Hk)). cbn [snd] in SS.
    rewrite <- (map_map fst (cons k)). exact (sorted_cons k _ SS).
  - intros l1 a l2 b l3 E p q Hp Hq.
    assert (exists m1 x m2 y m3, sort_keys kvs = m1 ++ x :: m2 ++ y :: m3 /\ a = map fst (map (under (fst x)) (tree_leaves (snd x)))
      /\ b = map fst (map (under (fst y)) (tree_leaves (snd y)))) as (m1 & x & m2 & y & m3 & E1 & -> & ->).
    { apply map_eq_app in E. destruct E as (m1 & r & E1 & _ & E). apply map_eq_cons in E. destruct E as (x & r' & -> & <- & E).
      apply map_eq_app in E. destruct E as (m2 & r'' & -> & _ & E). apply map_eq_cons in E. destruct E as (y & m3 & -> & <- & _). exists m1, x, m2, y, m3. auto. }
    rewrite E1 in S. apply sorted_split in S. rewrite map_map in Hp, Hq. apply in_map_iff in Hp, Hq. destruct Hp as (p' & <- & _). destruct Hq as (q' & <- & _).
    cbn [under fst]. now apply plt_head.
Qed.
End Leaves.

Section Fill.
Context {A B : Type} (dflt : B).
Implicit Types (t : tree A) (kvs : list (string * tree A)) (l : list B).
Definition fillers kvs := map (fun kv => (fst kv, fill dflt (snd kv))) kvs.
Lemma fill_dict kvs l : fill dflt (Dict kvs) l = (Dict (fst (run_readers (fillers (sort_keys kvs)) l)), snd (run_readers (fillers (sort_keys kvs)) l)).
Proof.
  cbn [fill]. unfold fillers. rewrite <- (sort_map (fill dflt) kvs).
  assert (E : (fix go (kvs : list (string * tree A)) : list (string * (list B -> tree B * list B)) :=
    match kvs with [] => [] | (k, v) :: r => (k, fill dflt v) :: go r end) kvs = map (fun kv => (fst kv, fill dflt (snd kv))) kvs).
  { induction kvs as [|[k v] kvs IH]; [reflexivity|]. cbn [map fst snd]. now rewrite IH. }
  rewrite E. now destruct (run_readers _ l).
Qed.
Lemma readers_cons k v kvs l : run_readers (fillers ((k, v) :: kvs)) l =
  ((k, fst (fill dflt v l)) :: fst (run_readers (fillers kvs) (snd (fill dflt v l))), snd (run_readers (fillers kvs) (snd (fill dflt v l)))).
Proof. cbn [fillers map run_readers fst snd]. destruct (fill dflt v l) as [a l1]. fold (fillers kvs). cbn [fst snd]. now destruct (run_readers (fillers kvs) l1). Qed.
Lemma readers_keys kvs : forall l, map fst (fst (run_readers (fillers kvs) l)) = map fst kvs.
Proof. induction kvs as [|[k v] kvs IH]; intros l; [reflexivity|]. rewrite readers_cons. cbn [fst map]. now rewrite IH. Qed.
Lemma Forall_sorted (P : string * tree A -> Prop) kvs : Forall P kvs -> Forall P (sort_keys kvs).
Proof. intros F. apply Forall_forall. intros x Hx. rewrite Forall_forall in F. apply F. apply (Permutation_in _ (Permutation_sym (sort_keys_perm kvs)) Hx). Qed.
Lemma fill_unique t : unique_keys t -> forall l, unique_keys (fst (fill dflt t l)).
Proof.
  induction t as [v|kvs IH] using tree_rect'; intros U l; [exact I|]. apply unique_dict in U. destruct U as [ND F]. rewrite fill_dict. cbn [fst].
  apply unique_dict. split.
  - rewrite readers_keys. apply (Permutation_NoDup (Permutation_map fst (sort_keys_perm kvs)) ND).
  - assert (Q : Forall (fun kv : string * tree A => forall l, unique_keys (fst (fill dflt (snd kv) l))) (sort_keys kvs)).
    { apply Forall_sorted. rewrite Forall_forall in *. intros x Hx. apply IH; [exact Hx|now apply F]. }
    revert l. induction Q as [|[k v] L H _ IHL]; intros l; [constructor|]. rewrite readers_cons. cbn [fst]. constructor; [apply H|apply IHL].
Qed.
Lemma combine_app_l {C} (a b : list C) : forall l, combine (a ++ b) l = combine a l ++ combine b (skipn (length a) l).
Proof.
  induction a as [|x a IH]; intros l; [reflexivity|]. destruct l as [|y l]; cbn [app combine length skipn]; [now destruct b|]. now rewrite IH.
Qed.
Lemma combine_under k (a : list (path * A)) : forall l, combine (map fst (map (under k) a)) l = map (under k) (combine (map fst a) l).
Proof. induction a as [|[p x] a IH]; intros [|y l]; cbn; [reflexivity..|]. now rewrite IH. Qed.
Lemma fill_leaves t : unique_keys t -> forall l, num_leaves t <= length l ->
  tree_leaves (fst (fill dflt t l)) = combine (map fst (tree_leaves t)) l /\ snd (fill dflt t l) = skipn (num_leaves t) l.
Proof.
  induction t as [v|kvs IH] using tree_rect'; intros U l H.
  - destruct l as [|b l]; [cbn in H; lia|]. split; reflexivity.
  - apply unique_dict in U. destruct U as [ND F]. rewrite fill_dict. cbn [fst snd]. unfold num_leaves in *. rewrite !tree_leaves_dict in *.
    assert (S := sort_sorted kvs ND).
    rewrite (sort_sorted_id (fst (run_readers (fillers (sort_keys kvs)) l))) by (apply (sorted_keys (sort_keys kvs)); [now rewrite readers_keys|exact S]).
    assert (Q : Forall (fun kv : string * tree A => forall l : list B, length (tree_leaves (snd kv)) <= length l ->
      tree_leaves (fst (fill dflt (snd kv) l)) = combine (map fst (tree_leaves (snd kv))) l /\ snd (fill dflt (snd kv) l) = skipn (length (tree_leaves (snd kv))) l) (sort_keys kvs)).
    { apply Forall_sorted. rewrite Forall_forall in *. intros x Hx. apply IH; [exact Hx|now apply F]. }
    clear IH ND F S. revert l H. induction Q as [|[k v] L Hv _ IHL]; intros l H.
    + split; reflexivity.
    + rewrite readers_cons. cbn [fst snd map concat] in *. rewrite app_length, map_length in H. destruct (Hv l) as [H1 H2]; [lia|]. rewrite H1, H2.
      destruct (IHL (skipn (length (tree_leaves v)) l)) as [I1 I2]; [rewrite skipn_length; lia|]. rewrite I1, I2.
      rewrite map_app, combine_app_l, combine_under, !map_length, app_length, map_length. split; [reflexivity|]. now rewrite skipn_add.
Qed.
End Fill.

Lemma unflatten_leaves {A B} (dflt : B) (t : tree A) l : unique_keys t -> length l = num_leaves t ->
  tree_leaves (tree_unflatten dflt t l) = combine (map fst (tree_leaves t)) l.
Proof. intros U H. apply fill_leaves; [exact U|lia]. Qed.

(** the number of a path in a list *)
Fixpoint index_of (q : path) (ps : list path) : nat :=
  match ps with [] => 0 | p :: r => if list_eq_dec string_dec p q then 0 else S (index_of q r) end.
Lemma index_lt q ps : In q ps -> index_of q ps < length ps.
Proof. induction ps as [|p ps IH]; cbn; [tauto|]. intros [->|I]; destruct (list_eq_dec string_dec _ _); try lia; [congruence|]. apply IH in I. lia. Qed.
Lemma index_mono p q ps : StronglySorted path_lt ps -> In p ps -> In q ps -> path_lt p q -> index_of p ps < index_of q ps.
Proof.
  induction 1 as [|x ps S IH F]; intros I J L; [destruct I|]. cbn [index_of]. rewrite Forall_forall in F.
  destruct (list_eq_dec string_dec x p) as [Ep|Np], (list_eq_dec string_dec x q) as [Eq|Nq]; try lia; [subst x q|subst x|].
  - destruct (plt_irrefl _ L).
  - destruct I as [->|I]; [congruence|]. destruct (plt_irrefl _ (plt_trans _ _ _ L (F _ I))).
  - destruct I as [->|I]; [congruence|]. destruct J as [->|J]; [congruence|]. specialize (IH I J L). lia.
Qed.
Lemma in_combine_index {B} (g : nat -> B) ps : NoDup ps -> forall lo q b, In (q, b) (combine ps (map g (seq lo (length ps)))) <-> In q ps /\ b = g (lo + index_of q ps).
Proof.
  induction 1 as [|p ps N ND IH]; intros lo q b; cbn [length seq map combine In index_of]; [tauto|]. rewrite IH. destruct (list_eq_dec string_dec p q) as [->|Ne].
  - rewrite Nat.add_0_r. split; [intros [E|[I _]]; [injection E as <-; auto|contradiction]|intros [_ ->]; now left].
  - rewrite Nat.add_succ_r. split; [intros [E|[I ->]]; [congruence|auto]|intros [[E|I] ->]; [congruence|auto]].
Qed.
Lemma split_map label k n : split label k n = map (fun i => k ++ [Cut (label n) i]) (seq 0 n).
Proof. reflexivity. Qed.

Section Keys.
Variable label : nat -> nat.
Context {A : Type}.
Lemma rng_tree_leaves k (t : tree A) : unique_keys t ->
  tree_leaves (generate_rng_like_tree label k t) = combine (map fst (tree_leaves t)) (split label k (num_leaves t)).
Proof. intros U. apply unflatten_leaves; [exact U|]. rewrite split_map. now rewrite map_length, seq_length. Qed.
Lemma combine_fst {B C} (a : list B) : forall b : list C, length a = length b -> map fst (combine a b) = a.
Proof. induction a as [|x a IH]; intros [|y b] H; cbn in *; try discriminate; [reflexivity|]. now rewrite IH by lia. Qed.
Lemma split_len k n : length (split label k n) = n.
Proof. rewrite split_map. now rewrite map_length, seq_length. Qed.
End Keys.

Theorem tree_keys : forall label A (t : tree A) k, unique_keys t -> exists number,
  (forall p q a b, leaf_at t p a -> leaf_at t q b -> path_lt p q -> number p < number q)
  /\ (forall q a, leaf_at t q a -> number q < length (leaves t))
  /\ unique_keys (generate_rng_like_tree label k t)
  /\ (forall q k', leaf_at (generate_rng_like_tree label k t) q k' <-> exists a, leaf_at t q a /\ k' = k ++ [Cut (label (length (leaves t))) (number q)]).
Proof.
  intros label A t k U. set (ps := map fst (tree_leaves t)). assert (S : StronglySorted path_lt ps) by now apply tree_leaves_sorted.
  assert (In_ps : forall q a, leaf_at t q a -> In q ps) by (intros q a L; apply tree_leaves_at in L; [|exact U]; apply (in_map fst) in L; exact L).
  assert (N : length ps = length (leaves t)) by (unfold ps; rewrite map_length; apply num_leaves_eq).
  exists (fun q => index_of q ps). split; [intros p q a b I J; apply index_mono; eauto|]. split; [intros q a L; rewrite <- N; apply index_lt; eauto|].
  assert (U' : unique_keys (generate_rng_like_tree label k t)) by now apply fill_unique. split; [exact U'|].
  intros q k'. rewrite <- (tree_leaves_at _ q k' U'), rng_tree_leaves by exact U. fold ps. rewrite num_leaves_eq, <- N, split_map.
  rewrite (in_combine_index (fun i => k ++ [Cut (label (length ps)) i]) ps (sorted_nodup _ S) 0 q k'). split.
  - intros [I E]. apply in_map_iff in I as ([q' a] & E' & I). cbn in E'. subst q'. exists a. split; [now apply tree_leaves_at|exact E].
  - intros (a & L & E). split; [eauto|exact E].
Qed.

Lemma in_zip {X Y Z} (f : X -> Y -> Z) (a : list (path * X)) : forall (b : list (path * Y)), map fst a = map fst b -> NoDup (map fst a) -> forall q z,
  In (q, z) (combine (map fst a) (map (fun xy => f (snd (fst xy)) (snd (snd xy))) (combine a b))) <-> exists x y, In (q, x) a /\ In (q, y) b /\ z = f x y.
Proof.
  induction a as [|[p x] a IH]; intros [|[p' y] b] E ND q z; cbn in E; try discriminate; [cbn; split; [tauto|intros (? & ? & [] & _)]|].
  injection E as <- E. cbn in ND. inversion ND as [|? ? N ND']; subst. cbn [map combine fst snd In]. rewrite IH by assumption. split.
  - intros [Q|(x' & y' & I & J & ->)].
    + injection Q as <- <-. exists x, y. auto.
    + exists x', y'. auto.
  - intros (x' & y' & [Q|I] & [Q'|J] & ->).
    + injection Q as <- <-. injection Q' as <-. now left.
    + injection Q as <- <-. destruct N. rewrite E. apply (in_map fst) in J. exact J.
    + injection Q' as <- <-. destruct N. apply (in_map fst) in I. exact I.
    + right. exists x', y'. auto.
Qed.
Theorem tree_normals : forall label A Sh Z (dflt : Z) (shape : A -> Sh) normal (t : tree A) k, unique_keys t -> exists t',
  generate_random_normal_like_tree label dflt shape normal k t = Ok t'
  /\ forall q z, leaf_at t' q z <-> exists a k', leaf_at t q a /\ leaf_at (generate_rng_like_tree label k t) q k' /\ z = normal k' (shape a).
Proof.
  intros label A Sh Z dflt shape normal t k U. unfold generate_random_normal_like_tree, tree_zip.
  set (u := generate_rng_like_tree label k t). assert (U' : unique_keys u) by now apply fill_unique.
  assert (E : map fst (tree_leaves t) = map fst (tree_leaves u)).
  { unfold u. rewrite rng_tree_leaves by exact U. rewrite combine_fst; [reflexivity|]. now rewrite map_length, split_len. }
  unfold paths_eqb. destruct (list_eq_dec _ _ _) as [_|N]; [|contradiction]. eexists. split; [reflexivity|]. intros q z.
  set (l := map _ (combine _ _)).
  assert (L : length l = num_leaves t). { unfold l. rewrite map_length, combine_length. apply (f_equal (@length _)) in E. rewrite !map_length in E. unfold num_leaves. lia. }
  rewrite <- tree_leaves_at by now apply fill_unique. rewrite unflatten_leaves by assumption. unfold l.
  rewrite (in_zip (fun x y => normal y (shape x)) (tree_leaves t) (tree_leaves u) E); [|now apply sorted_nodup, tree_leaves_sorted].
  split; intros (x & y & H1 & H2 & ->); exists x, y; (split; [now apply tree_leaves_at|]); (split; [now apply tree_leaves_at|reflexivity]).
Qed.
