(** Proofs about continued fits of ADVI: replacing arrays keeps the order of a dictionary. *)
From Coq Require Import List Arith Lia Bool String Permutation Sorting.Sorted.
From Verif Require Import Lib NestedModel NestedSpec NestedProofs NestedProofs2 FreezeModel FreezeSpec FreezeProofs LapModel LapSpec LapProofs3 FlatModel FlatSpec FlatProofs FlatProofs2 FlatProofs3 EnsSpec.
Import ListNotations.
Open Scope list_scope.
Local Notation length := List.length.
Local Notation concat := List.concat.

Section Skel.
Context {V : Type}.
Fixpoint skel (t : tree V) : tree unit :=
  match t with
  | Leaf _ => Leaf tt
  | Dict kvs => Dict ((fix go (kvs : list (string * tree V)) := match kvs with [] => [] | (k, v) :: r => (k, skel v) :: go r end) kvs)
  end.
Lemma skel_dict kvs : skel (Dict kvs) = Dict (map (fun kv => (fst kv, skel (snd kv))) kvs).
Proof. cbn [skel]. f_equal. induction kvs as [|[k v] kvs IH]; [reflexivity|]. cbn [map fst snd]. now rewrite IH. Qed.
Lemma skel_paths : forall t u, skel t = skel u -> map fst (leaves t) = map fst (leaves u).
Proof.
  induction t as [v|kvs IH] using tree_rect'; intros [w|kvs'] H; try (rewrite ?skel_dict in H; discriminate); [reflexivity|].
  rewrite !skel_dict in H. injection H as H. rewrite !leaves_dict. revert kvs' H. induction kvs as [|[k v] kvs IHk]; intros [|[k' v'] kvs'] H; cbn [map fst snd] in H; try discriminate; [reflexivity|].
  injection H as -> Hv Hr. inversion IH as [|? ? H1 H2]; subst. cbn [leaves_kvs]. rewrite !map_app. f_equal; [|apply IHk; assumption].
  specialize (H1 v' Hv). cbn [snd] in *. rewrite !map_map. cbn [fst]. transitivity (map (cons k') (map fst (leaves v))); [rewrite map_map; reflexivity|]. rewrite H1, map_map. reflexivity.
Qed.
Lemma skel_eq : forall t u, skel t = skel u -> unique_keys t -> (forall q v, leaf_at t q v -> leaf_at u q v) -> t = u.
Proof.
  induction t as [v|kvs IH] using tree_rect'; intros [w|kvs'] H U L; try (rewrite ?skel_dict in H; discriminate).
  - specialize (L [] v eq_refl). unfold leaf_at in L. cbn in L. congruence.
  - rewrite !skel_dict in H. injection H as H. f_equal. apply unique_dict in U. destruct U as [ND F].
    assert (L' : forall k v q w, In (k, v) kvs -> leaf_at v q w -> exists v', assoc_get k kvs' = Some v' /\ leaf_at v' q w).
    { intros k v q w Hin A. assert (G : assoc_get k kvs = Some v) by (apply in_get; assumption). specialize (L (k :: q) w). unfold leaf_at in L. rewrite !at_cons, G in L. specialize (L A).
      destruct (assoc_get k kvs') as [v'|]; [eauto|discriminate]. }
    clear L. revert kvs' H L'. induction kvs as [|[k v] kvs IHk]; intros [|[k' v'] kvs'] H L'; cbn [map fst snd] in H; try discriminate; [reflexivity|]. injection H as -> Hv Hr.
    inversion IH as [|? ? H1 H2]; subst. inversion F as [|? ? F1 F2]; subst. cbn [map fst] in ND. inversion ND as [|? ? N1 N2]; subst. f_equal.
    + f_equal. apply H1; [exact Hv|exact F1|]. intros q w A. destruct (L' k' v q w (or_introl eq_refl) A) as (v1 & G & A1). cbn [assoc_get] in G. rewrite String.eqb_refl in G. injection G as <-. exact A1.
    + apply IHk; [assumption|exact N2|exact F2|exact Hr|]. intros k w q x Hin A. destruct (L' k w q x (or_intror Hin) A) as (v1 & G & A1). cbn [assoc_get] in G.
      destruct (String.eqb k k') eqn:E; [|eauto]. apply String.eqb_eq in E. subst. exfalso. apply N1. apply (in_map fst) in Hin. exact Hin.
Qed.
Lemma skel_assoc kvs k u (o : tree V) : assoc_get k kvs = Some u -> skel o = skel u -> map (fun kv => (fst kv, skel (snd kv))) (assoc_set k o kvs) = map (fun kv => (fst kv, skel (snd kv))) kvs.
Proof.
  intros G E. induction kvs as [|[k' v] kvs IH]; cbn [assoc_get] in G; [discriminate|]. cbn [assoc_set]. destruct (String.eqb k k') eqn:K.
  - injection G as ->. apply String.eqb_eq in K. subst. cbn [map fst snd]. now rewrite E.
  - cbn [map fst snd]. now rewrite IH.
Qed.
Lemma skel_set p : forall t v w t', leaf_at t p v -> set_path false t p (Leaf w) = Ok t' -> skel t' = skel t.
Proof.
  induction p as [|k p IH]; intros t v w t' A H; [discriminate|]. destruct t as [x|kvs]; [discriminate|]. unfold leaf_at in A. rewrite at_cons in A. cbn [set_path] in H.
  destruct (assoc_get k kvs) as [u|] eqn:G; [|discriminate]. destruct p as [|k1 p].
  - injection H as <-. rewrite !skel_dict. f_equal. apply (skel_assoc kvs k u); [exact G|]. cbn in A. injection A as ->. reflexivity.
  - destruct (set_path false u (k1 :: p) (Leaf w)) as [u'|] eqn:E; [|discriminate]. cbn [rmap] in H. injection H as <-. rewrite !skel_dict. f_equal. apply (skel_assoc kvs k u); [exact G|]. eapply IH; [exact A|exact E].
Qed.
End Skel.

Section Sets.
Context {V : Type}.
Notation ptree := (tree (list V)).
Lemma skel_set_paths (pos : list (path * list V)) : forall (t t' : ptree), Forall (fun pv => exists v, leaf_at t (fst pv) v) pos -> set_paths false t (map (fun pv => (fst pv, Leaf (snd pv))) pos) = Ok t' -> skel t' = skel t.
Proof.
  induction pos as [|[p w] pos IH]; intros t t' F H; cbn [map set_paths fst snd] in H; [injection H as <-; reflexivity|].
  destruct (set_path false t p (Leaf w)) as [t1|] eqn:E; [|discriminate]. cbn [bind] in H. inversion F as [|? ? [v A] F1]; subst. cbn [fst] in A.
  rewrite (IH t1 t'); [exact (skel_set p t v w t1 A E)| |exact H]. eapply Forall_impl; [|exact F1]. intros [q x] [y B]. cbn [fst] in *. apply (structure_leaf t t1 q y); [apply (set_structure t p v w t1 A E)|exact B].
Qed.
Lemma combine_lp (pos : list (path * list V)) : combine (map fst pos) (map ltree pos) = map (fun pv => (fst pv, Leaf (snd pv))) pos.
Proof. induction pos as [|[p v] pos IH]; [reflexivity|]. cbn [map combine fst ltree snd]. now rewrite IH. Qed.
Lemma reads_skel (t t' : ptree) pos flat : reads t pos -> length flat = total pos -> unravel_paths t (map fst pos) flat = Ok t' -> skel t' = skel t.
Proof.
  intros R H E. unfold unravel_paths in E. rewrite (reads_get t pos R) in E. cbn [bind] in E. rewrite unravel_list_leaves in E by assumption. cbn [bind] in E. rewrite <- (cut_paths pos flat) in E.
  unfold nested_set in E. rewrite !map_length, Nat.eqb_refl in E. cbn [negb] in E. rewrite combine_lp in E. eapply skel_set_paths; [|exact E].
  rewrite Forall_forall. intros pv Hin. apply (in_map fst) in Hin. rewrite cut_paths in Hin. apply in_map_iff in Hin. destruct Hin as ([p v] & <- & Hin). destruct R as [_ F]. rewrite Forall_forall in F. exists v. apply (F _ Hin).
Qed.
Lemma set_paths_unique_l (t t' : ptree) pos flat : reads t pos -> length flat = total pos -> unique_keys t -> unravel_paths t (map fst pos) flat = Ok t' -> unique_keys t'.
Proof.
  intros R H U E. unfold unravel_paths in E. rewrite (reads_get t pos R) in E. cbn [bind] in E. rewrite unravel_list_leaves in E by assumption. cbn [bind] in E. rewrite <- (cut_paths pos flat) in E.
  unfold nested_set in E. rewrite !map_length, Nat.eqb_refl in E. cbn [negb] in E. eapply set_paths_unique; [|exact U|exact E]. rewrite combine_lp, Forall_map. apply Forall_forall. intros x _. exact I.
Qed.
(** replaced arrays can be replaced again as if the first replacement had not been made *)
Lemma unravel_again (t m : ptree) pos mean flat : reads t pos -> unique_keys t -> length mean = total pos -> unravel_paths t (map fst pos) mean = Ok m ->
  unravel_paths m (map fst pos) flat = unravel_paths t (map fst pos) flat /\ reads m (cut pos mean) /\ mapM (nested_get m) (map fst pos) = Ok (map ltree (cut pos mean)).
Proof.
  intros R U H E. destruct (unravel_paths_ok t pos mean R H) as (m' & E' & Rm & Om & Sm). assert (m' = m) by congruence. subst m'.
  assert (G : mapM (nested_get m) (map fst pos) = Ok (map ltree (cut pos mean))) by (rewrite <- (cut_paths pos mean); apply reads_get; exact Rm).
  split; [|split; [exact Rm|exact G]]. destruct (Nat.eq_dec (length flat) (total pos)) as [Hf|Hf].
  - destruct (unravel_paths_ok t pos flat R Hf) as (t1 & E1 & R1 & O1 & S1).
    assert (Hc : length flat = total (cut pos mean)) by (rewrite cut_total; assumption).
    destruct (unravel_paths_ok m (cut pos mean) flat Rm Hc) as (t2 & E2 & R2 & O2 & S2). rewrite cut_paths in E2, O2. rewrite E1, E2. f_equal.
    assert (CC : cut (cut pos mean) flat = cut pos flat). { apply in_cut_sizes; [|apply cut_paths]. apply cut_sizes. lia. }
    rewrite CC in R2.
    apply skel_eq.
    + rewrite (reads_skel t t1 pos flat R Hf E1). pose proof (reads_skel m t2 (cut pos mean) flat Rm Hc) as K. rewrite cut_paths in K. rewrite (K E2). apply (reads_skel t m pos mean R H E).
    + pose proof (set_paths_unique_l m t2 (cut pos mean) flat Rm Hc) as K. rewrite cut_paths in K. apply K; [|exact E2]. exact (set_paths_unique_l t m pos mean R H U E).
    + intros q v A. destruct (in_dec (list_eq_dec string_dec) q (map fst pos)) as [Y|N].
      * rewrite <- (cut_paths pos flat) in Y. apply in_map_iff in Y. destruct Y as ([q' w] & <- & Hin). cbn [fst] in *. destruct R1 as [_ F1]. destruct R2 as [_ F2]. rewrite Forall_forall in *.
        destruct (F1 _ Hin) as [_ B1]. destruct (F2 _ Hin) as [_ B2]. cbn [fst snd] in *. unfold leaf_at in *. congruence.
      * apply (O1 q v N). apply (Om q v N). apply (O2 q v N). exact A.
  - unfold unravel_paths. rewrite G, (reads_get t pos R). cbn [bind]. unfold unravel_list. rewrite !map_map. cbn [ltree ravel].
    change (map (fun x : path * list V => snd x) pos) with (map snd pos). change (map (fun x : path * list V => snd x) (cut pos mean)) with (map snd (cut pos mean)).
    rewrite (cut_concat pos mean H). unfold total in H, Hf. rewrite H. apply Nat.eqb_neq in Hf. rewrite Hf. reflexivity.
Qed.

(** paths with a label depend on the order of the dictionary only *)
Lemma labels_skel (f : path -> list V -> string) (t u : ptree) : by_path f -> skel t = skel u -> get_trainable_paths t (Some f) = get_trainable_paths u (Some f).
Proof.
  intros B S. apply skel_paths in S. unfold get_trainable_paths, get_paths_with_label.
  assert (C : map (fun pv => f (fst pv) (snd pv)) (leaves t) = map (fun pv => f (fst pv) (snd pv)) (leaves u)).
  { revert S. generalize (leaves t) (leaves u). induction l as [|[p v] l IH]; intros [|[q w] l'] H; cbn [map fst snd] in *; try discriminate; [reflexivity|]. injection H as -> H. rewrite (B q v w), (IH l' H). reflexivity. }
  rewrite C. match goal with |- bind ?a _ = _ => destruct a; [|reflexivity] end. cbn [bind]. clear C.
  assert (X : forall (cs : list string) (l l' : list (path * list V)), map fst l = map fst l' -> map (fun cp => fst (snd cp)) (filter (fun cp => String.eqb (fst cp) "trainable") (combine cs l)) = map (fun cp => fst (snd cp)) (filter (fun cp => String.eqb (fst cp) "trainable") (combine cs l'))).
  { induction cs as [|c cs IH]; intros [|[p v] l] [|[q w] l'] H; cbn [map fst combine] in *; try discriminate; try reflexivity. injection H as -> H. cbn [filter fst]. destruct (String.eqb c "trainable"); cbn [map snd fst]; rewrite (IH l l' H); reflexivity. }
  f_equal. apply X. exact S.
Qed.
End Sets.
