From Coq Require Import List Arith Lia Bool String Permutation Sorting.Sorted.
From Verif Require Import Lib NestedModel NestedSpec NestedProofs NestedProofs2 FreezeModel FreezeSpec FreezeProofs LapModel LapSpec LapProofs3 FlatModel FlatSpec FlatProofs.
Import ListNotations.
Open Scope list_scope.
Local Notation length := List.length.
Local Notation concat := List.concat.

Section Pair.
Context {W : Type}.
Implicit Types (d : tree W) (pos : list (path * tree W)).

Lemma indep_perm (l m : list path) : Permutation l m -> all_independent l -> all_independent m.
Proof.
  unfold all_independent. induction 1 as [|x l m P IH|x y l|l m n _ IH1 _ IH2]; intros H; auto.
  - inversion H as [|? ? F H']; subst. constructor; [|auto]. rewrite Forall_forall in *. intros q Hq. apply F. apply (Permutation_in _ (Permutation_sym P) Hq).
  - inversion H as [|? ? F H']; subst. inversion H' as [|? ? F' H'']; subst. inversion F; subst. constructor; [constructor; [now apply independent_sym|assumption]|]. now constructor.
Qed.
Lemma pair_still d p o l0 l1 d1 pos : pair_path d p o l0 l1 = Ok d1 -> p <> [] -> at_path d p <> None -> Forall (independent p) (map fst pos) -> Forall (fun po => at_path d (fst po) <> None) pos ->
  Forall (fun po => at_path d1 (fst po) <> None) pos.
Proof.
  intros E N A I F. destruct (at_path d p) as [v|] eqn:Ev; [|congruence]. rewrite (pair_path_eq d p o l0 l1 v N Ev) in E. rewrite Forall_forall in *. intros x Hx.
  rewrite (set_read_other false d p _ d1 (fst x) E); [now apply F|]. apply I. now apply in_map.
Qed.
Lemma pair_paths_perm pos pos' : Permutation pos pos' -> forall d l0 l1, all_independent (map fst pos) -> Forall (fun po => fst po <> []) pos -> Forall (fun po => at_path d (fst po) <> None) pos ->
  pair_paths d pos l0 l1 = pair_paths d pos' l0 l1.
Proof.
  induction 1 as [|[p o] l m P IH|[p a] [q b] l|l m n P1 IH1 P2 IH2]; intros d l0 l1 I N F.
  - reflexivity.
  - cbn [pair_paths]. inversion I as [|? ? I1 I2]; inversion N as [|? ? N1 N2]; inversion F as [|? ? F1 F2]; subst. cbn [fst] in *. destruct (pair_path d p o l0 l1) as [d1|] eqn:E; [|reflexivity].
    cbn [bind]. apply IH; auto. eapply pair_still; eauto.
  - cbn [map] in I. inversion I as [|? ? I1 I2]; inversion N as [|? ? N1 N2]; inversion F as [|? ? F1 F2]; inversion I1 as [|? ? J1 J2]; inversion N2 as [|? ? N3 _]; inversion F2 as [|? ? F3 _]; subst. cbn [fst] in *.
    cbn [pair_paths].
    destruct (at_path d p) as [v|] eqn:Ep; [|congruence]. destruct (at_path d q) as [w|] eqn:Eq; [|congruence].
    rewrite (pair_path_eq d p a l0 l1 v), (pair_path_eq d q b l0 l1 w) by assumption.
    destruct (proj2 (set_ok_iff d p (pair_dict l0 l1 v a) N3) ltac:(congruence)) as (d1 & E1).
    destruct (proj2 (set_ok_iff d q (pair_dict l0 l1 w b) N1) ltac:(congruence)) as (d2 & E2).
    assert (J : independent p q) by (now apply independent_sym).
    destruct (set_comm_paths d p q _ _ d1 d2 J E1 E2) as (d12 & X1 & X2).
    rewrite E1, E2. cbn [bind]. rewrite (pair_path_eq d1 q b l0 l1 w), (pair_path_eq d2 p a l0 l1 v); auto.
    + rewrite X1, X2. reflexivity.
    + rewrite (set_read_other false d q _ d2 p E2); [exact Ep|now apply independent_sym].
    + rewrite (set_read_other false d p _ d1 q E1); [exact Eq|assumption].
  - rewrite IH1 by assumption. apply IH2.
    + eapply indep_perm; [apply Permutation_map, P1|assumption].
    + rewrite Forall_forall in *. intros x Hx. apply N. apply (Permutation_in _ (Permutation_sym P1) Hx).
    + rewrite Forall_forall in *. intros x Hx. apply F. apply (Permutation_in _ (Permutation_sym P1) Hx).
Qed.
Lemma combine_unzip {A B} (l : list (A * B)) : combine (map fst l) (map snd l) = l.
Proof. induction l as [|[a b] l IH]; simpl; congruence. Qed.

(** pairing, then separating in any order of the paths *)
Lemma pair_unpair_perm d pos decoded l0 l1 : l0 <> l1 -> all_independent (map fst pos) -> Forall (fun po => fst po <> []) pos -> Forall (fun po => at_path d (fst po) <> None) pos ->
  Permutation (map fst pos) decoded ->
  exists D pos' d2, nested_pair d (map fst pos) (map snd pos) [l0; l1] = Ok D /\ Permutation pos pos' /\ map fst pos' = decoded /\
    nested_unpair D decoded [l0; l1] = Ok (d, d2) /\ Forall (fun po => at_path d2 (fst po) = Some (snd po)) pos'.
Proof.
  intros NE I N F P. destruct (Permutation_map_inv fst pos (Permutation_sym P)) as (pos' & E & P').
  assert (I' : all_independent (map fst pos')) by (eapply indep_perm; [apply Permutation_map, P'|assumption]).
  assert (N' : Forall (fun po => fst po <> []) pos'). { rewrite Forall_forall in *. intros x Hx. apply N. apply (Permutation_in _ (Permutation_sym P') Hx). }
  assert (F' : Forall (fun po => at_path d (fst po) <> None) pos'). { rewrite Forall_forall in *. intros x Hx. apply F. apply (Permutation_in _ (Permutation_sym P') Hx). }
  destruct (pair_unpair d (map fst pos') (map snd pos') l0 l1) as (D & d2 & E1 & E2 & A & _); auto.
  - now rewrite !map_length.
  - rewrite Forall_map. exact N'.
  - rewrite Forall_map. exact F'.
  - exists D, pos', d2. split; [|split; [assumption|split; [congruence|split; [congruence|]]]].
    + unfold nested_pair in *. rewrite !map_length, Nat.eqb_refl in *. cbn [negb] in *. rewrite combine_unzip in *. rewrite (pair_paths_perm pos pos'); auto.
    + now rewrite combine_unzip in A.
Qed.
End Pair.

Section Set_.
Context {V : Type}.
Notation ptree := (tree (list V)).
Implicit Types (t : ptree) (pos : list (path * list V)).

Definition ltree (pv : path * list V) : ptree := Leaf (snd pv).
Definition reads t pos : Prop := NoDup (map fst pos) /\ Forall (fun pv => fst pv <> [] /\ leaf_at t (fst pv) (snd pv)) pos.

Lemma reads_leaf_paths t pos : reads t pos -> leaf_paths t (map fst pos).
Proof. intros [ND F]. split; [exact ND|]. rewrite Forall_map. eapply Forall_impl; [|exact F]. intros [p v] [N H]. split; [exact N|]. exists v. exact H. Qed.
Lemma reads_get t pos : reads t pos -> mapM (nested_get t) (map fst pos) = Ok (map ltree pos).
Proof.
  intros [_ F]. induction F as [|[p v] pos [N H] _ IH]; [reflexivity|]. cbn [map mapM fst snd ltree] in *. rewrite (proj2 (nested_get_spec t p (Leaf v) N) H). cbn [bind].
  rewrite IH. reflexivity.
Qed.
Lemma reads_ravel t pos : reads t pos -> ravel_paths t (map fst pos) = Ok (concat (map snd pos)).
Proof. intros [_ F]. apply ravel_paths_leaves. rewrite Forall_forall in F. intros q v H. exact (F (q, v) H). Qed.
Lemma reads_perm t pos pos' : Permutation pos pos' -> reads t pos -> reads t pos'.
Proof.
  intros P [ND F]. split; [apply (Permutation_NoDup (Permutation_map fst P) ND)|]. rewrite Forall_forall in *. intros x Hx. apply F. apply (Permutation_in _ (Permutation_sym P) Hx).
Qed.

Lemma set_structure t p (v w : list V) t' : leaf_at t p v -> set_path false t p (Leaf w) = Ok t' -> same_structure t t'.
Proof.
  intros A E q. destruct (prefix_dec p q) as [[s ->]|N1].
  - rewrite (set_read_same false t p (Leaf w) t' s E), at_app. unfold leaf_at in A. rewrite A. destruct s; exact I.
  - destruct (prefix_dec q p) as [[r ->]|N2].
    + destruct r as [|k r]; [rewrite app_nil_r in *; exfalso; apply N1; exists []; now rewrite app_nil_r|].
      destruct (set_read_above t _ (Leaf w) t' q (k :: r) E eq_refl ltac:(discriminate)) as (kvs & kvs' & -> & -> & _). exact I.
    + rewrite (set_read_other false t p (Leaf w) t' q E); [|now split]. destruct (at_path t q) as [[?|?]|]; exact I.
Qed.
Lemma structure_leaf t u q v : same_structure t u -> leaf_at t q v -> exists w, leaf_at u q w.
Proof. intros H A. specialize (H q). unfold leaf_at in *. rewrite A in H. destruct (at_path u q) as [[w|?]|]; [eauto|contradiction|contradiction]. Qed.
Lemma structure_sym t u : same_structure t u -> same_structure u t.
Proof. intros H q. specialize (H q). destruct (at_path t q) as [[?|?]|], (at_path u q) as [[?|?]|]; tauto. Qed.

Lemma structure_refl t : same_structure t t.
Proof. intros q. destruct (at_path t q) as [[?|?]|]; exact I. Qed.
Lemma structure_trans t u w : same_structure t u -> same_structure u w -> same_structure t w.
Proof. intros A B q. specialize (A q). specialize (B q). destruct (at_path t q) as [[?|?]|], (at_path u q) as [[?|?]|], (at_path w q) as [[?|?]|]; tauto. Qed.
Lemma indep_after (l : list path) p m q : all_independent (l ++ p :: m) -> In q m -> independent q p.
Proof.
  unfold all_independent. induction l as [|a l IH]; cbn [app]; intros I H; inversion I as [|? ? A B]; subst; [|auto]. rewrite Forall_forall in A. now apply independent_sym, A.
Qed.
Lemma set_leaves pos : forall t, leaf_paths t (map fst pos) ->
  exists t', nested_set t (map fst pos) (map ltree pos) false = Ok t' /\ reads t' pos /\ same_outside (map fst pos) t' t /\ same_structure t t'.
Proof.
  intros t L. assert (I := leaf_paths_independent t _ L).
  assert (S : exists t', nested_set t (map fst pos) (map ltree pos) false = Ok t').
  { apply nested_set_ok; [now rewrite !map_length|exact I| |]; destruct L as [_ F]; (eapply Forall_impl; [|exact F]); intros p [N [v H]]; congruence. }
  destruct S as [t' E]. exists t'. split; [exact E|].
  assert (SS : same_structure t t').
  { clear I. unfold nested_set in E. rewrite !map_length, Nat.eqb_refl in E. cbn [negb] in E. revert t L E. induction pos as [|[p w] pos IH]; intros t L E; cbn [map fst ltree snd combine set_paths] in *.
    - injection E as <-. apply structure_refl.
    - change (ltree (p, w)) with (Leaf w) in E. destruct (set_path false t p (Leaf w)) as [t1|] eqn:E1; [|discriminate]. cbn [bind] in E. destruct L as [ND F]. inversion ND as [|? ? ND1 ND2]; inversion F as [|? ? [N [v A]] F2]; subst.
      assert (S1 := set_structure t p v w t1 A E1). eapply structure_trans; [exact S1|]. apply IH; [|exact E]. split; [exact ND2|].
      eapply Forall_impl; [|exact F2]. intros q [Nq [x Hq]]. split; [exact Nq|]. apply (structure_leaf t t1 q x S1 Hq). }
  split; [|split; [|exact SS]].
  - destruct L as [ND F]. split; [exact ND|]. apply Forall_forall. intros [p v] H. cbn [fst snd]. split.
    + rewrite Forall_forall in F. apply (F p). apply (in_map fst) in H. exact H.
    + apply in_split in H. destruct H as (p1 & p2 & ->).
      assert (K : map fst (p1 ++ (p, v) :: p2) = map fst (map (fun pv => (fst pv, ltree pv)) p1 ++ (p, Leaf v) :: map (fun pv => (fst pv, ltree pv)) p2) /\ map ltree (p1 ++ (p, v) :: p2) = map snd (map (fun pv => (fst pv, ltree pv)) p1 ++ (p, Leaf v) :: map (fun pv => (fst pv, ltree pv)) p2)).
      { rewrite !map_app. cbn [map fst snd ltree]. rewrite !map_map. cbn [fst snd]. split; reflexivity. }
      destruct K as [K1 K2]. refine (nested_set_last false (map (fun pv => (fst pv, ltree pv)) p1) p (Leaf v) (map (fun pv => (fst pv, ltree pv)) p2) t t' _ _).
      { rewrite <- E. f_equal; symmetry; assumption. } rewrite Forall_map. cbn [fst]. apply Forall_forall. intros x Hx.
      rewrite map_app in I. apply (indep_after (map fst p1) p (map fst p2) (fst x) I). now apply in_map.
  - intros q w NI. assert (X : forall v, leaf_at t q v -> at_path t' q = at_path t q).
    { intros v A. apply (nested_set_other false _ _ t t' q E). apply Forall_forall. intros p Hp. destruct L as [_ F]. rewrite Forall_forall in F. destruct (F p Hp) as [_ [x Hx]].
      eapply leaf_independent; eauto. intros ->. contradiction. }
    unfold leaf_at in *. split; intros A.
    + destruct (structure_leaf t' t q w (structure_sym _ _ SS) A) as [v Hv]. rewrite <- (X v Hv). exact A.
    + rewrite (X w A). exact A.
Qed.

Lemma cut_trees_leaves pos : forall l, cut_trees (map ltree pos) l = map ltree (cut pos l).
Proof. induction pos as [|[p v] pos IH]; intros l; [reflexivity|]. cbn [map ltree snd cut_trees cut_tree cut]. now rewrite IH. Qed.
Lemma unravel_list_leaves pos l : length l = total pos -> unravel_list (map ltree pos) l = Ok (map ltree (cut pos l)).
Proof. intros H. unfold unravel_list. rewrite map_map. cbn [ltree ravel]. unfold total in H. change (map (fun x : path * list V => snd x) pos) with (map snd pos). rewrite H, Nat.eqb_refl. now rewrite cut_trees_leaves. Qed.

Lemma unravel_paths_ok t pos flat : reads t pos -> length flat = total pos ->
  exists t', unravel_paths t (map fst pos) flat = Ok t' /\ reads t' (cut pos flat) /\ same_outside (map fst pos) t' t /\ same_structure t t'.
Proof.
  intros R H. unfold unravel_paths. rewrite (reads_get t pos R). cbn [bind]. rewrite unravel_list_leaves by assumption. cbn [bind].
  rewrite <- (cut_paths pos flat). apply set_leaves. rewrite cut_paths. now apply reads_leaf_paths.
Qed.

Lemma cut_nth pos : forall i l p v, nth_error pos i = Some (p, v) -> nth_error (cut pos l) i = Some (p, slice (map (fun pv => length (snd pv)) pos) i l).
Proof.
  induction pos as [|[q w] pos IH]; intros [|i] l p v H; try discriminate.
  - injection H as -> ->. reflexivity.
  - cbn [cut nth_error] in *. rewrite (IH i _ p v H). do 2 f_equal. unfold slice. cbn [map snd firstn nth list_sum fold_right]. rewrite skipn_add. reflexivity.
Qed.
Lemma total_sizes pos : total pos = list_sum (map (fun pv => length (snd pv)) pos).
Proof. induction pos as [|[p v] pos IH]; [reflexivity|]. rewrite total_cons, IH. reflexivity. Qed.

Lemma arrays_reads t paths sizes : arrays_at t paths sizes -> exists pos, map fst pos = paths /\ map (fun pv => length (snd pv)) pos = sizes /\ reads t pos.
Proof.
  intros [ND F]. assert (X : exists pos, map fst pos = paths /\ map (fun pv => length (snd pv)) pos = sizes /\ Forall (fun pv => fst pv <> [] /\ leaf_at t (fst pv) (snd pv)) pos).
  { clear ND. induction F as [|p n ps ns [N (v & A & L)] _ (pos & E1 & E2 & F)]; [exists []; repeat split; constructor|].
    exists ((p, v) :: pos). cbn [map fst snd]. split; [now f_equal|]. split; [now f_equal|]. constructor; auto. }
  destruct X as (pos & E1 & E2 & F'). exists pos. split; [exact E1|]. split; [exact E2|]. split; [congruence|exact F'].
Qed.
End Set_.
