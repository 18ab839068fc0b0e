From Coq Require Import List Arith Lia Bool String Permutation.
From Verif Require Import Lib NestedModel NestedSpec.
Import ListNotations.
Open Scope list_scope.
Local Notation length := List.length.

Section Assoc.
Context {A : Type}.
Implicit Types (d : list (string * A)).

Lemma get_set_same k v d : assoc_get k (assoc_set k v d) = Some v.
Proof.
  induction d as [|[k' v'] d IH]; simpl.
  - now rewrite String.eqb_refl.
  - destruct (String.eqb k k') eqn:E; simpl; [now rewrite String.eqb_refl|now rewrite E].
Qed.

Lemma get_set_other k k' v d : k <> k' -> assoc_get k (assoc_set k' v d) = assoc_get k d.
Proof.
  intros N. induction d as [|[k2 v2] d IH]; simpl.
  - apply String.eqb_neq in N. now rewrite N.
  - destruct (String.eqb k' k2) eqn:E; simpl.
    + apply String.eqb_eq in E. subst k2. apply String.eqb_neq in N. now rewrite N.
    + now rewrite IH.
Qed.

Lemma set_get_id k v d : assoc_get k d = Some v -> assoc_set k v d = d.
Proof.
  induction d as [|[k2 v2] d IH]; simpl; [discriminate|].
  destruct (String.eqb k k2) eqn:E.
  - apply String.eqb_eq in E. intros H. injection H as ->. now subst.
  - intros H. now rewrite IH.
Qed.

Lemma set_set k v w d : assoc_set k v (assoc_set k w d) = assoc_set k v d.
Proof.
  induction d as [|[k2 v2] d IH]; simpl.
  - now rewrite String.eqb_refl.
  - destruct (String.eqb k k2) eqn:E; simpl; [now rewrite String.eqb_refl|]. now rewrite E, IH.
Qed.

Lemma set_comm k1 v1 k2 v2 d x1 x2 : k1 <> k2 -> assoc_get k1 d = Some x1 -> assoc_get k2 d = Some x2 ->
  assoc_set k1 v1 (assoc_set k2 v2 d) = assoc_set k2 v2 (assoc_set k1 v1 d).
Proof.
  intros N. induction d as [|[k w] d IH]; simpl; [discriminate|].
  destruct (String.eqb k1 k) eqn:E1, (String.eqb k2 k) eqn:E2; simpl;
    rewrite ?E1, ?E2; simpl; intros H1 H2.
  - apply String.eqb_eq in E1, E2. congruence.
  - apply String.eqb_eq in E1. subst k. now rewrite ?String.eqb_refl, ?E2.
  - apply String.eqb_eq in E2. subst k. now rewrite ?String.eqb_refl, ?E1.
  - now rewrite IH.
Qed.

Lemma keys_set_existing k v d x : assoc_get k d = Some x -> map fst (assoc_set k v d) = map fst d.
Proof.
  induction d as [|[k2 v2] d IH]; simpl; [discriminate|].
  destruct (String.eqb k k2) eqn:E; simpl; intros H.
  - apply String.eqb_eq in E. now subst.
  - now rewrite IH.
Qed.

Lemma get_find k d :
  assoc_get k d = match List.find (fun kv => String.eqb k (fst kv)) d with
                  | Some kv => Some (snd kv) | None => None end.
Proof. induction d as [|[k2 v2] d IH]; simpl; [reflexivity|]. now destruct (String.eqb k k2). Qed.

Lemma get_none_notin k d : assoc_get k d = None <-> ~ In k (map fst d).
Proof.
  induction d as [|[k2 v2] d IH]; simpl; [tauto|].
  destruct (String.eqb k k2) eqn:E.
  - apply String.eqb_eq in E. subst. split; [discriminate|tauto].
  - apply String.eqb_neq in E. rewrite IH. intuition congruence.
Qed.

Lemma get_in k v d : assoc_get k d = Some v -> In (k, v) d.
Proof.
  induction d as [|[k2 v2] d IH]; simpl; [discriminate|].
  destruct (String.eqb k k2) eqn:E; [|auto].
  apply String.eqb_eq in E. intros H. injection H as ->. subst. now left.
Qed.

Lemma in_get k v d : NoDup (map fst d) -> In (k, v) d -> assoc_get k d = Some v.
Proof.
  induction d as [|[k2 v2] d IH]; simpl; [tauto|].
  intros ND [H|H].
  - injection H as -> ->. now rewrite String.eqb_refl.
  - inversion ND as [|? ? N1 N2]; subst. destruct (String.eqb k k2) eqn:E; [|auto].
    apply String.eqb_eq in E. subst. exfalso. apply N1. apply in_map_iff. exists (k2, v). now split.
Qed.
End Assoc.

Section Tree.
Context {V : Type}.
Implicit Types (d t o : tree V) (p q : path).

Lemma at_cons kvs k ks : at_path (Dict (V:=V) kvs) (k :: ks)
  = match assoc_get k kvs with Some t => at_path t ks | None => None end.
Proof. simpl. rewrite get_find. now destruct (List.find _ kvs). Qed.

Lemma at_leaf v k ks : at_path (Leaf (V:=V) v) (k :: ks) = None. Proof. reflexivity. Qed.

Lemma at_app t p q : at_path t (p ++ q) = match at_path t p with Some t' => at_path t' q | None => None end.
Proof.
  revert t. induction p as [|k p IH]; intros t; [reflexivity|].
  destruct t as [v|kvs]; [reflexivity|]. rewrite <- app_comm_cons, !at_cons.
  destruct (assoc_get k kvs); [apply IH|reflexivity].
Qed.

Lemma nested_get_spec d keys v : keys <> [] -> (nested_get d keys = Ok v <-> at_path d keys = Some v).
Proof.
  revert d. induction keys as [|k ks IH]; intros d N; [congruence|].
  destruct d as [x|kvs]; [simpl; split; discriminate|].
  rewrite at_cons. simpl nested_get. destruct (assoc_get k kvs) as [t|]; [|split; discriminate].
  destruct ks as [|k' ks]; [simpl; split; congruence|]. apply IH. discriminate.
Qed.

Lemma nested_get_empty d : nested_get d [] = Err ValueError. Proof. reflexivity. Qed.

Lemma nested_get_missing d keys : keys <> [] -> at_path d keys = None -> is_ok (nested_get d keys) = false.
Proof.
  intros N H. destruct (nested_get d keys) eqn:E; [|reflexivity].
  apply nested_get_spec in E; [congruence|assumption].
Qed.

(** set_path: unfolding equations *)
Lemma set_one allow kvs k o : set_path allow (Dict kvs) [k] o =
  match assoc_get k kvs with
  | Some _ => Ok (Dict (assoc_set k o kvs))
  | None => if allow then Ok (Dict (assoc_set k o kvs)) else Err KeyError
  end.
Proof. reflexivity. Qed.

Lemma set_cons allow kvs k k2 ks o : set_path allow (Dict kvs) (k :: k2 :: ks) o =
  match assoc_get k kvs with
  | Some t => rmap (fun t' => Dict (assoc_set k t' kvs)) (set_path allow t (k2 :: ks) o)
  | None => if allow then rmap (fun t' => Dict (assoc_set k t' kvs)) (set_path allow (Dict []) (k2 :: ks) o)
            else Err KeyError
  end.
Proof. reflexivity. Qed.

Lemma rmap_ok {A B} (f : A -> B) r b : rmap f r = Ok b -> exists a, r = Ok a /\ b = f a.
Proof. destruct r; simpl; [|discriminate]. intros H. injection H as <-. eauto. Qed.

(** every successful set goes through a dictionary and sets the head key *)
Lemma set_inv allow d k ks o d' : set_path allow d (k :: ks) o = Ok d' ->
  exists kvs, d = Dict kvs /\
    (ks = [] /\ d' = Dict (assoc_set k o kvs) /\ (allow = false -> assoc_get k kvs <> None) \/
     ks <> [] /\ exists t t', d' = Dict (assoc_set k t' kvs) /\ set_path allow t ks o = Ok t' /\
       (assoc_get k kvs = Some t \/ assoc_get k kvs = None /\ t = Dict [] /\ allow = true)).
Proof.
  destruct d as [v|kvs]; [discriminate|]. intros H. exists kvs. split; [reflexivity|].
  destruct ks as [|k2 ks].
  - left. rewrite set_one in H. split; [reflexivity|].
    destruct (assoc_get k kvs) eqn:E.
    + injection H as <-. split; [reflexivity|]. intros _. discriminate.
    + destruct allow; [|discriminate]. injection H as <-. split; [reflexivity|]. discriminate.
  - right. split; [discriminate|]. rewrite set_cons in H. destruct (assoc_get k kvs) as [t|] eqn:E.
    + apply rmap_ok in H. destruct H as (t' & H & ->). exists t, t'. split; [reflexivity|]. split; [exact H|]. left; exact eq_refl.
    + destruct allow; [|discriminate]. apply rmap_ok in H. destruct H as (t' & H & ->).
      exists (Dict []), t'. split; [reflexivity|]. split; [exact H|]. right. repeat split.
Qed.

Lemma prefix_cons k p q : prefix_of (k :: p) (k :: q) <-> prefix_of p q.
Proof.
  split; intros (r & H); exists r.
  - simpl in H. now injection H.
  - simpl. now rewrite H.
Qed.

Lemma prefix_nil q : prefix_of [] q. Proof. now exists q. Qed.

Lemma prefix_cons_inv k p q : prefix_of (k :: p) q -> exists q', q = k :: q' /\ prefix_of p q'.
Proof. intros (r & ->). exists (p ++ r). split; [reflexivity|now exists r]. Qed.

Lemma set_read_same allow d p o d' s : set_path allow d p o = Ok d' ->
  at_path d' (p ++ s) = at_path o s.
Proof.
  revert d d'. induction p as [|k ks IH]; intros d d' H; [discriminate|].
  apply set_inv in H. destruct H as (kvs & -> & [(-> & -> & _)|(N & t & t' & -> & H & _)]).
  - simpl app. rewrite at_cons, get_set_same. reflexivity.
  - rewrite <- app_comm_cons, at_cons, get_set_same. eapply IH; eassumption.
Qed.

Lemma set_read_other allow d p o d' q : set_path allow d p o = Ok d' ->
  independent p q -> at_path d' q = at_path d q.
Proof.
  revert d d' q. induction p as [|k ks IH]; intros d d' q H (I1 & I2); [discriminate|].
  destruct q as [|k2 q]; [exfalso; apply I2, prefix_nil|].
  apply set_inv in H. destruct H as (kvs & -> & H).
  destruct (string_dec k k2) as [<-|N].
  - rewrite prefix_cons in I1, I2. destruct H as [(-> & _)|(N & t & t' & -> & H & G)].
    + exfalso. apply I1, prefix_nil.
    + rewrite !at_cons, get_set_same.
      rewrite (IH t t' q H (conj I1 I2)).
      destruct G as [->|(-> & -> & _)]; [reflexivity|].
      destruct q as [|? ?]; [exfalso; apply I2, prefix_nil|reflexivity].
  - destruct H as [(-> & -> & _)|(N2 & t & t' & -> & _)];
      rewrite !at_cons, get_set_other by congruence; reflexivity.
Qed.

(** strictly above the assigned path there is a dictionary with the same keys *)
Lemma set_read_above d p o d' q r : set_path false d p o = Ok d' -> p = q ++ r -> r <> [] ->
  exists kvs kvs', at_path d q = Some (Dict kvs) /\ at_path d' q = Some (Dict kvs') /\
                   map fst kvs' = map fst kvs.
Proof.
  revert d d' p. induction q as [|k q IH]; intros d d' p H -> N.
  - simpl in H. destruct r as [|k ks]; [congruence|].
    apply set_inv in H. destruct H as (kvs & -> & [(-> & -> & G)|(N2 & t & t' & -> & H & G)]).
    + exists kvs. eexists. split; [reflexivity|]. split; [reflexivity|].
      destruct (assoc_get k kvs) eqn:E; [|exfalso; now apply G]. eapply keys_set_existing; eassumption.
    + exists kvs. eexists. split; [reflexivity|]. split; [reflexivity|].
      destruct G as [G|(_ & _ & G)]; [|discriminate]. eapply keys_set_existing; eassumption.
  - rewrite <- app_comm_cons in H. apply set_inv in H. destruct H as (kvs & -> & H).
    destruct H as [(E & _)|(N2 & t & t' & -> & H & G)].
    + apply app_eq_nil in E. destruct E as (_ & E). congruence.
    + destruct G as [G|(_ & _ & G)]; [|discriminate].
      rewrite !at_cons, get_set_same, G. eapply IH; eauto.
Qed.

Lemma set_above_dict allow d p o d' q r : set_path allow d p o = Ok d' -> p = q ++ r -> r <> [] ->
  exists kvs, at_path d' q = Some (Dict kvs).
Proof.
  revert d d' p. induction q as [|k q IH]; intros d d' p H -> N.
  - simpl in H. destruct r as [|k ks]; [congruence|].
    apply set_inv in H. destruct H as (kvs & -> & [(-> & -> & G)|(N2 & t & t' & -> & H & G)]); eexists; reflexivity.
  - rewrite <- app_comm_cons in H. apply set_inv in H. destruct H as (kvs & -> & H).
    destruct H as [(E & _)|(N2 & t & t' & -> & H & G)].
    + apply app_eq_nil in E. destruct E as (_ & E). congruence.
    + rewrite at_cons, get_set_same. eapply IH; eauto.
Qed.

Lemma set_ok_iff d p o : p <> [] -> ((exists d', set_path false d p o = Ok d') <-> at_path d p <> None).
Proof.
  revert d. induction p as [|k ks IH]; intros d N; [congruence|]. clear N.
  destruct d as [v|kvs].
  - simpl. split; [intros (? & H); discriminate|congruence].
  - rewrite at_cons. destruct ks as [|k2 ks].
    + rewrite set_one. simpl at_path. destruct (assoc_get k kvs); [split; intros; [congruence|eauto]|].
      split; [intros (? & H); discriminate|congruence].
    + rewrite set_cons. destruct (assoc_get k kvs) as [t|]; [|split; [intros (? & H); discriminate|congruence]].
      rewrite <- IH by discriminate. split; intros (d' & H).
      * apply rmap_ok in H. destruct H as (t' & -> & _). eauto.
      * rewrite H. simpl. eauto.
Qed.

(** with creation allowed the only obstacle is a leaf on the way *)
Definition no_leaf_before d p := forall q r v, p = q ++ r -> r <> [] -> at_path d q <> Some (Leaf v).

Lemma set_allow_ok d p o : p <> [] -> no_leaf_before d p -> exists d', set_path true d p o = Ok d'.
Proof.
  revert d. induction p as [|k ks IH]; intros d N L; [congruence|]. clear N.
  destruct d as [v|kvs].
  - exfalso. apply (L [] (k :: ks) v); [reflexivity|discriminate|reflexivity].
  - destruct ks as [|k2 ks].
    + rewrite set_one. destruct (assoc_get k kvs); eauto.
    + rewrite set_cons. destruct (assoc_get k kvs) as [t|] eqn:E.
      * destruct (IH t) as (t' & H); [discriminate| |rewrite H; simpl; eauto].
        intros q r v Eq Nr. specialize (L (k :: q) r v). rewrite at_cons, E in L. apply L; [|assumption].
        simpl. now rewrite Eq.
      * destruct (IH (Dict [])) as (t' & H); [discriminate| |rewrite H; simpl; eauto].
        intros q r v Eq Nr. destruct q as [|? ?]; simpl; discriminate.
Qed.

Lemma set_allow_err d p o q r v : p = q ++ r -> r <> [] -> at_path d q = Some (Leaf v) ->
  forall allow, is_ok (set_path allow d p o) = false.
Proof.
  intros -> N H allow. destruct (set_path allow d (q ++ r) o) as [a|] eqn:E; [|reflexivity].
  exfalso. revert d a H E. induction q as [|k q IH]; intros d a H E.
  - simpl in H. injection H as ->. destruct r; [congruence|discriminate].
  - rewrite <- app_comm_cons in E. apply set_inv in E. destruct E as (kvs & -> & E).
    rewrite at_cons in H. destruct (assoc_get k kvs) as [t|] eqn:G; [|discriminate].
    destruct E as [(E & _)|(_ & t1 & t' & _ & E & [G'|(G' & _)])].
    + apply app_eq_nil in E. destruct E as (_ & E). congruence.
    + injection G' as <-. eapply IH; eassumption.
    + discriminate.
Qed.

Lemma set_missing_keyerror d p o : p <> [] -> at_path d p = None -> no_leaf_before d p ->
  set_path false d p o = Err KeyError.
Proof.
  revert d. induction p as [|k ks IH]; intros d N H L; [congruence|]. clear N.
  destruct d as [v|kvs].
  - exfalso. apply (L [] (k :: ks) v); [reflexivity|discriminate|reflexivity].
  - rewrite at_cons in H. destruct ks as [|k2 ks].
    + rewrite set_one. simpl in H. destruct (assoc_get k kvs); [discriminate|reflexivity].
    + rewrite set_cons. destruct (assoc_get k kvs) as [t|] eqn:E; [|reflexivity].
      rewrite IH; [reflexivity|discriminate|assumption|].
      intros q r v Eq Nr. specialize (L (k :: q) r v). rewrite at_cons, E in L. apply L; [|assumption].
      simpl. now rewrite Eq.
Qed.

(** whole sequences of assignments *)
Lemma prefix_dec p q : {prefix_of p q} + {~ prefix_of p q}.
Proof.
  revert q. induction p as [|k p IH]; intros q; [left; apply prefix_nil|].
  destruct q as [|k2 q]; [right; intros (r & H); discriminate|].
  destruct (string_dec k k2) as [<-|N].
  - destruct (IH q) as [H|H]; [left; now apply prefix_cons|right; now rewrite prefix_cons].
  - right. intros (r & H). simpl in H. congruence.
Qed.

Lemma set_paths_read allow pos d d' q :
  set_paths allow d pos = Ok d' ->
  Forall (fun po => forall r, r <> [] -> fst po <> q ++ r) pos ->
  read_after pos q (at_path d q) (at_path d' q).
Proof.
  revert d. induction pos as [|[p o] pos IH]; intros d H F; simpl in *.
  - now injection H as <-.
  - inversion F as [|? ? F1 F2]; subst. simpl in F1.
    destruct (set_path allow d p o) as [d1|] eqn:E; [|discriminate]. simpl in H.
    exists (at_path d1 q). split; [|split].
    + intros s ->. eapply set_read_same; eassumption.
    + intros NP. eapply set_read_other; [eassumption|]. split; [assumption|].
      intros (r & Er). destruct r as [|x r].
      * apply NP. exists []. now rewrite Er, !app_nil_r.
      * apply (F1 (x :: r)); [discriminate|exact Er].
    + now apply IH.
Qed.

Lemma nested_set_read allow paths objs d d' q :
  nested_set d paths objs allow = Ok d' ->
  Forall (fun p => forall r, r <> [] -> p <> q ++ r) paths ->
  read_after (combine paths objs) q (at_path d q) (at_path d' q).
Proof.
  unfold nested_set. destruct (_ =? _); [|discriminate]. simpl. intros H F.
  eapply set_paths_read; [eassumption|].
  apply Forall_forall. intros [p o] Hin. simpl. apply in_combine_l in Hin.
  rewrite Forall_forall in F. now apply F.
Qed.

(** what [read_after] says for a path assigned last, and for untouched paths *)
Lemma read_after_untouched (pos : list (path * tree V)) q b a : read_after pos q b a ->
  Forall (fun po => ~ prefix_of (fst po) q) pos -> a = b.
Proof.
  revert b. induction pos as [|[p o] pos IH]; intros b; simpl; [auto|].
  intros (now & _ & H2 & H3) F. inversion F as [|? ? F1 F2]; subst.
  rewrite <- (H2 F1). now apply IH.
Qed.

Lemma read_after_app (pos1 pos2 : list (path * tree V)) q b a : read_after (pos1 ++ pos2) q b a <->
  exists m, read_after pos1 q b m /\ read_after pos2 q m a.
Proof.
  revert b. induction pos1 as [|[p o] pos1 IH]; intros b; simpl.
  - split; [intros H; exists b; auto|intros (m & -> & H); auto].
  - split.
    + intros (now & H1 & H2 & H3). apply IH in H3. destruct H3 as (m & H3 & H4). exists m. split; [|assumption].
      exists now. auto.
    + intros (m & (now & H1 & H2 & H3) & H4). exists now. split; [assumption|]. split; [assumption|].
      apply IH. eauto.
Qed.

Lemma nested_set_last allow pos1 p o pos2 d d' :
  nested_set d (map fst (pos1 ++ (p, o) :: pos2)) (map snd (pos1 ++ (p, o) :: pos2)) allow = Ok d' ->
  Forall (fun po => independent (fst po) p) pos2 ->
  at_path d' p = Some o.
Proof.
  unfold nested_set. rewrite !map_length, Nat.eqb_refl. simpl negb. cbv iota.
  intros H I.
  assert (C : forall l : list (path * tree V), combine (map fst l) (map snd l) = l)
    by (induction l as [|[? ?] l IHl]; simpl; [reflexivity|now rewrite IHl]).
  rewrite C in H. clear C.
  revert d H. induction pos1 as [|[p1 o1] pos1 IH]; intros d H; simpl in H.
  - destruct (set_path allow d p o) as [d1|] eqn:E; [|discriminate]. simpl in H.
    pose proof (set_read_same allow d p o d1 [] E) as R. rewrite app_nil_r in R.
    pose proof (set_paths_read allow pos2 d1 d' p H) as RA.
    rewrite R in RA. simpl in RA. eapply read_after_untouched.
    + apply RA. eapply Forall_impl; [|exact I]. intros po (I1 & I2) r Nr Er. apply I2. now exists r.
    + eapply Forall_impl; [|exact I]. intros po (I1 & I2). exact I1.
  - destruct (set_path allow d p1 o1) as [d1|] eqn:E; [|discriminate]. simpl in H. eapply IH; eassumption.
Qed.

Lemma nested_set_other allow paths objs d d' q :
  nested_set d paths objs allow = Ok d' ->
  Forall (fun p => independent p q) paths -> at_path d' q = at_path d q.
Proof.
  intros H F. eapply read_after_untouched.
  - eapply nested_set_read; [eassumption|]. eapply Forall_impl; [|exact F].
    intros p (I1 & I2) r N E. apply I2. now exists r.
  - apply Forall_forall. intros [p o] Hin. apply in_combine_l in Hin. rewrite Forall_forall in F.
    now apply F.
Qed.

Lemma independent_sym p q : independent p q -> independent q p.
Proof. intros (A & B). now split. Qed.

(** existence: with independent paths, nested_set succeeds iff all paths exist *)
Lemma set_paths_ok pos d : all_independent (map fst pos) -> Forall (fun po => fst po <> []) pos ->
  ((exists d', set_paths false d pos = Ok d') <-> Forall (fun po => at_path d (fst po) <> None) pos).
Proof.
  revert d. induction pos as [|[p o] pos IH]; intros d I NE; simpl in *.
  - split; intros; [constructor|eauto].
  - inversion I as [|? ? I1 I2]; subst. inversion NE as [|? ? N1 N2]; subst. simpl in N1.
    assert (T : forall d1, set_path false d p o = Ok d1 ->
               (Forall (fun po => at_path d1 (fst po) <> None) pos
                <-> Forall (fun po => at_path d (fst po) <> None) pos)).
    { intros d1 E. rewrite !Forall_forall. rewrite Forall_forall in I1.
      split; intros F x Hx; specialize (F x Hx);
        assert (Ip : independent p (fst x)) by (apply I1, in_map, Hx);
        rewrite (set_read_other _ _ _ _ _ (fst x) E Ip) in *; exact F. }
    split.
    + intros (d' & H). destruct (set_path false d p o) as [d1|] eqn:E; [|discriminate]. simpl in H.
      constructor; [apply set_ok_iff with (o := o); eauto|]. apply (T d1 eq_refl). apply IH; eauto.
    + intros F. inversion F as [|? ? F1 F2]; subst. simpl in F1. apply set_ok_iff with (o := o) in F1; [|assumption].
      destruct F1 as (d1 & E). rewrite E. simpl. apply IH; [assumption..|]. now apply (T d1 E).
Qed.

Lemma nested_set_ok paths objs d : length paths = length objs ->
  all_independent paths -> Forall (fun p => p <> []) paths ->
  ((exists d', nested_set d paths objs false = Ok d') <-> Forall (fun p => at_path d p <> None) paths).
Proof.
  intros L I NE. unfold nested_set. rewrite L, Nat.eqb_refl. simpl negb. cbv iota.
  assert (C : map fst (combine paths objs) = paths).
  { clear -L. revert objs L. induction paths as [|p ps IH]; intros [|o objs] L; simpl in *; try discriminate; [reflexivity|].
    now rewrite IH by congruence. }
  rewrite set_paths_ok.
  - rewrite <- C at 2. rewrite Forall_map. reflexivity.
  - now rewrite C.
  - rewrite <- C in NE. rewrite Forall_map in NE. exact NE.
Qed.

Lemma nested_set_length paths objs d allow : length paths <> length objs ->
  nested_set d paths objs allow = Err ValueError.
Proof. intros N. unfold nested_set. apply Nat.eqb_neq in N. now rewrite N. Qed.

(** algebra of set_path used for pair/unpair *)
Lemma set_same_id d p v : p <> [] -> at_path d p = Some v -> set_path false d p v = Ok d.
Proof.
  revert d. induction p as [|k ks IH]; intros d N H; [congruence|]. clear N.
  destruct d as [x|kvs]; [discriminate|]. rewrite at_cons in H.
  destruct (assoc_get k kvs) as [t|] eqn:E; [|discriminate].
  destruct ks as [|k2 ks].
  - simpl in H. injection H as ->. rewrite set_one, E. now rewrite set_get_id.
  - rewrite set_cons, E, (IH t); [|discriminate|assumption]. simpl. now rewrite set_get_id.
Qed.

Lemma set_set_same d p a b d1 : set_path false d p a = Ok d1 -> set_path false d1 p b = set_path false d p b.
Proof.
  revert d d1. induction p as [|k ks IH]; intros d d1 H; [discriminate|].
  apply set_inv in H. destruct H as (kvs & -> & [(-> & -> & G)|(N & t & t' & -> & H & G)]).
  - rewrite !set_one, get_set_same. destruct (assoc_get k kvs); [|exfalso; now apply G]. now rewrite set_set.
  - destruct G as [G|(_ & _ & G)]; [|discriminate].
    destruct ks as [|k2 ks]; [congruence|]. rewrite !set_cons, get_set_same, G, (IH t t' H).
    destruct (set_path false t (k2 :: ks) b); simpl; [now rewrite set_set|reflexivity].
Qed.

Lemma set_comm_paths d p q a b d1 d2 : independent p q ->
  set_path false d p a = Ok d1 -> set_path false d q b = Ok d2 ->
  exists d12, set_path false d1 q b = Ok d12 /\ set_path false d2 p a = Ok d12.
Proof.
  revert d q d1 d2. induction p as [|k ks IH]; intros d q d1 d2 (I1 & I2) H1 H2; [discriminate|].
  destruct q as [|k2 q]; [discriminate|].
  apply set_inv in H1. destruct H1 as (kvs & -> & H1).
  apply set_inv in H2. destruct H2 as (kvs2 & E2 & H2). injection E2 as <-.
  destruct (string_dec k k2) as [<-|N].
  - rewrite prefix_cons in I1, I2.
    destruct H1 as [(-> & _)|(Np & t & t' & -> & H1 & G1)]; [exfalso; apply I1, prefix_nil|].
    destruct H2 as [(-> & _)|(Nq & u & u' & -> & H2 & G2)]; [exfalso; apply I2, prefix_nil|].
    destruct G1 as [G1|(_ & _ & G1)]; [|discriminate].
    destruct G2 as [G2|(_ & _ & G2)]; [|discriminate].
    rewrite G1 in G2. injection G2 as <-.
    destruct (IH t q t' u' (conj I1 I2) H1 H2) as (w & W1 & W2).
    destruct ks as [|ka ks]; [congruence|]. destruct q as [|kb q]; [congruence|].
    exists (Dict (assoc_set k w kvs)). rewrite !set_cons, !get_set_same, W1, W2. simpl. now rewrite !set_set.
  - assert (G1 : exists x, assoc_get k kvs = Some x).
    { destruct H1 as [(_ & _ & G)|(_ & t & _ & _ & _ & [G|(_ & _ & G)])]; [|eauto|discriminate].
      destruct (assoc_get k kvs); [eauto|exfalso; now apply G]. }
    assert (G2 : exists x, assoc_get k2 kvs = Some x).
    { destruct H2 as [(_ & _ & G)|(_ & t & _ & _ & _ & [G|(_ & _ & G)])]; [|eauto|discriminate].
      destruct (assoc_get k2 kvs); [eauto|exfalso; now apply G]. }
    destruct G1 as (x1 & G1), G2 as (x2 & G2).
    assert (D1 : exists w, d1 = Dict (assoc_set k w kvs) /\
                 (forall kvs', assoc_get k kvs' = Some x1 -> set_path false (Dict kvs') (k :: ks) a = Ok (Dict (assoc_set k w kvs')))).
    { destruct H1 as [(-> & -> & _)|(Np & t & t' & -> & H1 & [G|(G & _)])].
      - exists a. split; [reflexivity|]. intros kvs' E. now rewrite set_one, E.
      - exists t'. split; [reflexivity|]. intros kvs' E. destruct ks; [congruence|].
        rewrite set_cons, E. rewrite G1 in G. injection G as ->. now rewrite H1.
      - congruence. }
    assert (D2 : exists w, d2 = Dict (assoc_set k2 w kvs) /\
                 (forall kvs', assoc_get k2 kvs' = Some x2 -> set_path false (Dict kvs') (k2 :: q) b = Ok (Dict (assoc_set k2 w kvs')))).
    { destruct H2 as [(-> & -> & _)|(Np & t & t' & -> & H2 & [G|(G & _)])].
      - exists b. split; [reflexivity|]. intros kvs' E. now rewrite set_one, E.
      - exists t'. split; [reflexivity|]. intros kvs' E. destruct q; [congruence|].
        rewrite set_cons, E. rewrite G2 in G. injection G as ->. now rewrite H2.
      - congruence. }
    destruct D1 as (w1 & -> & D1), D2 as (w2 & -> & D2).
    exists (Dict (assoc_set k2 w2 (assoc_set k w1 kvs))). split.
    + apply D2. rewrite get_set_other by congruence. exact G2.
    + rewrite D1 by (rewrite get_set_other by congruence; exact G1).
      f_equal. f_equal. eapply set_comm; eassumption.
Qed.

(** pairing one path is an assignment *)
Lemma pair_path_eq d p o l0 l1 v : p <> [] -> at_path d p = Some v ->
  pair_path d p o l0 l1 = set_path false d p (pair_dict l0 l1 v o).
Proof.
  revert d. induction p as [|k ks IH]; intros d N H; [congruence|]. clear N.
  destruct d as [x|kvs]; [discriminate|]. rewrite at_cons in H.
  destruct (assoc_get k kvs) as [t|] eqn:E; [|discriminate].
  destruct ks as [|k2 ks].
  - simpl in H. injection H as ->. rewrite set_one. simpl. now rewrite E.
  - rewrite set_cons, E, <- (IH t); [|discriminate|assumption].
    change (pair_path (Dict kvs) (k :: k2 :: ks) o l0 l1) with
      (match assoc_get k kvs with
       | None => Err KeyError
       | Some t => rmap (fun t' => Dict (assoc_set k t' kvs)) (pair_path t (k2 :: ks) o l0 l1) end).
    now rewrite E.
Qed.

Lemma unpair_path_eq d1 d2 p l0 l1 t a b d1' d2' :
  at_path d1 p = Some t -> sub_get t l0 = Ok a -> sub_get t l1 = Ok b ->
  set_path false d1 p a = Ok d1' -> set_path true d2 p b = Ok d2' ->
  unpair_path d1 d2 p l0 l1 = Ok (d1', d2').
Proof.
  revert d1 d2 d1' d2'. induction p as [|k ks IH]; intros d1 d2 d1' d2' H Ha Hb S1 S2; [discriminate|].
  apply set_inv in S1. destruct S1 as (kvs1 & -> & S1).
  apply set_inv in S2. destruct S2 as (kvs2 & -> & S2).
  rewrite at_cons in H. destruct (assoc_get k kvs1) as [t1|] eqn:E1; [|discriminate].
  destruct S1 as [(-> & -> & _)|(N & u & u' & -> & S1 & G1)].
  - destruct S2 as [(_ & -> & _)|(N & _)]; [|congruence].
    simpl in H. injection H as ->. simpl. rewrite E1, Ha, Hb. reflexivity.
  - destruct S2 as [(-> & _)|(_ & w & w' & -> & S2 & G2)]; [congruence|].
    destruct G1 as [G1|(_ & _ & G1)]; [|discriminate]. injection G1 as <-.
    destruct ks as [|k2 ks]; [congruence|].
    change (unpair_path (Dict kvs1) (Dict kvs2) (k :: k2 :: ks) l0 l1) with
      (match assoc_get k kvs1 with
       | None => Err KeyError
       | Some t1 =>
           rmap (fun z => (Dict (assoc_set k (fst z) kvs1), Dict (assoc_set k (snd z) kvs2)))
             (unpair_path t1 (match assoc_get k kvs2 with Some t => t | None => Dict [] end) (k2 :: ks) l0 l1) end).
    rewrite E1.
    assert (W : match assoc_get k kvs2 with Some t => t | None => Dict [] end = w).
    { destruct G2 as [->|(-> & -> & _)]; reflexivity. }
    rewrite W, (IH t1 w u' w'); auto.
Qed.

Lemma sub_get_pair l0 l1 v o : l0 <> l1 ->
  sub_get (pair_dict l0 l1 v o) l0 = Ok v /\ sub_get (pair_dict l0 l1 v o) l1 = Ok o.
Proof.
  intros N. unfold pair_dict. simpl.
  assert (E : String.eqb l1 l0 = false) by (apply String.eqb_neq; congruence).
  rewrite E. simpl. rewrite !String.eqb_refl, E. split; reflexivity.
Qed.

(** a later independent pairing can be done before or after an assignment *)
Lemma pair_paths_commute pos d p a d1 D l0 l1 :
  Forall (fun q => independent p q) (map fst pos) -> all_independent (map fst pos) ->
  Forall (fun po => fst po <> []) pos ->
  set_path false d p a = Ok d1 -> pair_paths d1 pos l0 l1 = Ok D ->
  Forall (fun po => at_path d (fst po) <> None) pos ->
  forall b d0, set_path false d p b = Ok d0 ->
  exists D0, pair_paths d0 pos l0 l1 = Ok D0 /\ set_path false D p b = Ok D0.
Proof.
  revert d d1. induction pos as [|[q o] pos IH]; intros d d1 Ip I NE S P Ex b d0 S0; simpl in *.
  - injection P as <-. exists d0. split; [reflexivity|]. rewrite (set_set_same d p a b d1 S). exact S0.
  - inversion Ip as [|? ? Ip1 Ip2]; subst. inversion I as [|? ? I1 I2]; subst.
    inversion NE as [|? ? N1 N2]; subst. inversion Ex as [|? ? E1 E2]; subst. simpl in N1, E1.
    destruct (at_path d q) as [v|] eqn:Q; [|congruence].
    assert (Q1 : at_path d1 q = Some v) by (rewrite (set_read_other _ _ _ _ _ q S Ip1); exact Q).
    assert (Q0 : at_path d0 q = Some v) by (rewrite (set_read_other _ _ _ _ _ q S0 Ip1); exact Q).
    rewrite (pair_path_eq d1 q o l0 l1 v N1 Q1) in P.
    rewrite (pair_path_eq d0 q o l0 l1 v N1 Q0).
    assert (X : exists dq, set_path false d q (pair_dict l0 l1 v o) = Ok dq)
      by (apply set_ok_iff; [assumption|congruence]).
    destruct X as (dq & Sq).
    destruct (set_comm_paths d p q a (pair_dict l0 l1 v o) d1 dq Ip1 S Sq) as (w & W1 & W2).
    destruct (set_comm_paths d p q b (pair_dict l0 l1 v o) d0 dq Ip1 S0 Sq) as (w0 & W3 & W4).
    rewrite W1 in P. rewrite W3. simpl in P |- *.
    apply (IH dq w); auto.
    rewrite Forall_forall in *. intros x Hx.
    rewrite (set_read_other _ _ _ _ _ (fst x) Sq); [now apply E2|]. apply I1, in_map, Hx.
Qed.

Lemma pair_paths_reads pos d D p t l0 l1 : Forall (fun q => independent q p) (map fst pos) ->
  Forall (fun po => fst po <> []) pos -> all_independent (map fst pos) ->
  Forall (fun po => at_path d (fst po) <> None) pos ->
  pair_paths d pos l0 l1 = Ok D -> at_path d p = Some t -> at_path D p = Some t.
Proof.
  revert d. induction pos as [|[q o] pos IH]; intros d Ip NE I Ex P H; simpl in *.
  - now injection P as <-.
  - inversion Ip as [|? ? Ip1 Ip2]; subst. inversion NE as [|? ? N1 N2]; subst.
    inversion I as [|? ? I1 I2]; subst. inversion Ex as [|? ? E1 E2]; subst. simpl in *.
    destruct (at_path d q) as [v|] eqn:Q; [|congruence].
    rewrite (pair_path_eq d q o l0 l1 v N1 Q) in P.
    destruct (set_path false d q (pair_dict l0 l1 v o)) as [d1|] eqn:S; [|discriminate]. simpl in P.
    apply (IH d1); auto.
    + rewrite Forall_forall in *. intros x Hx. rewrite (set_read_other _ _ _ _ _ (fst x) S); [now apply E2|].
      apply I1, in_map, Hx.
    + rewrite (set_read_other _ _ _ _ _ p S); auto.
Qed.

Lemma pair_paths_total pos d l0 l1 : all_independent (map fst pos) -> Forall (fun po => fst po <> []) pos ->
  Forall (fun po => at_path d (fst po) <> None) pos -> exists D, pair_paths d pos l0 l1 = Ok D.
Proof.
  revert d. induction pos as [|[q o] pos IH]; intros d I NE Ex; simpl; [eauto|].
  inversion NE as [|? ? N1 N2]; subst.
  inversion I as [|? ? I1 I2]; subst. inversion Ex as [|? ? E1 E2]; subst. simpl in *.
  destruct (at_path d q) as [v|] eqn:Q; [|congruence].
  rewrite (pair_path_eq d q o l0 l1 v N1 Q).
  assert (X : exists dq, set_path false d q (pair_dict l0 l1 v o) = Ok dq)
    by (apply set_ok_iff; [assumption|congruence]).
  destruct X as (dq & Sq). rewrite Sq. simpl. apply IH; auto.
  rewrite Forall_forall in *. intros x Hx. rewrite (set_read_other _ _ _ _ _ (fst x) Sq); [now apply E2|].
  apply I1, in_map, Hx.
Qed.

Lemma no_leaf_after d2 p b d2' p' : set_path true d2 p b = Ok d2' -> independent p p' ->
  no_leaf_before d2 p' -> no_leaf_before d2' p'.
Proof.
  intros S (I1 & I2) L q r v Eq Nr H.
  destruct (prefix_dec p q) as [(s & ->)|Np].
  - apply I1. exists (s ++ r). now rewrite Eq, app_assoc.
  - destruct (prefix_dec q p) as [(s & Es)|Nq].
    + destruct s as [|x s].
      * apply Np. exists []. now rewrite Es, !app_nil_r.
      * destruct (set_above_dict _ _ _ _ _ q (x :: s) S Es) as (kvs & K); [discriminate|]. congruence.
    + rewrite (set_read_other _ _ _ _ _ q S (conj Np Nq)) in H. exact (L q r v Eq Nr H).
Qed.

Lemma unpair_pair_paths pos d d2 D l0 l1 : l0 <> l1 ->
  all_independent (map fst pos) -> Forall (fun po => fst po <> []) pos ->
  Forall (fun po => at_path d (fst po) <> None) pos ->
  Forall (fun po => no_leaf_before d2 (fst po)) pos ->
  pair_paths d pos l0 l1 = Ok D ->
  exists d2', unpair_paths D d2 (map fst pos) l0 l1 = Ok (d, d2') /\ set_paths true d2 pos = Ok d2'.
Proof.
  intros Nl. revert d d2 D. induction pos as [|[p o] pos IH]; intros d d2 D I NE Ex NL P; simpl in *.
  - injection P as <-. eauto.
  - inversion NE as [|? ? N1 N2]; subst. inversion NL as [|? ? L1 L2]; subst.
    inversion I as [|? ? I1 I2]; subst. inversion Ex as [|? ? E1 E2]; subst. simpl in *.
    destruct (at_path d p) as [v|] eqn:Q; [|congruence].
    rewrite (pair_path_eq d p o l0 l1 v N1 Q) in P.
    destruct (set_path false d p (pair_dict l0 l1 v o)) as [d1|] eqn:S; [|discriminate]. simpl in P.
    assert (Ex1 : Forall (fun po => at_path d1 (fst po) <> None) pos).
    { rewrite Forall_forall in *. intros x Hx. rewrite (set_read_other _ _ _ _ _ (fst x) S); [now apply E2|].
      apply I1, in_map, Hx. }
    assert (QD : at_path D p = Some (pair_dict l0 l1 v o)).
    { eapply pair_paths_reads with (d := d1); eauto.
      - eapply Forall_impl; [|exact I1]. intros q. apply independent_sym.
      - pose proof (set_read_same _ _ _ _ _ [] S) as R. now rewrite app_nil_r in R. }
    pose proof (set_same_id d p v N1 Q) as Sid.
    destruct (pair_paths_commute pos d p _ d1 D l0 l1 I1 I2 N2 S P E2 v d Sid) as (D0 & P0 & SD).
    destruct (set_allow_ok d2 p o N1 L1) as (d2' & S2).
    destruct (sub_get_pair l0 l1 v o Nl) as (G0 & G1).
    rewrite (unpair_path_eq D d2 p l0 l1 _ v o D0 d2' QD G0 G1 SD S2), S2. simpl.
    apply IH; auto.
    rewrite Forall_forall in *. intros x Hx. eapply no_leaf_after; [exact S2| |now apply L2].
    apply I1, in_map, Hx.
Qed.

Lemma set_paths_true_reads pos d d' : set_paths true d pos = Ok d' ->
  all_independent (map fst pos) ->
  Forall (fun po => at_path d' (fst po) = Some (snd po)) pos.
Proof.
  revert d. induction pos as [|[p o] pos IH]; intros d H I; simpl in *; [constructor|].
  inversion I as [|? ? I1 I2]; subst.
  destruct (set_path true d p o) as [d1|] eqn:E; [|discriminate]. simpl in H.
  constructor; [|eapply IH; eassumption]. simpl.
  pose proof (set_read_same _ _ _ _ _ [] E) as R. rewrite app_nil_r in R. simpl in R. rewrite <- R.
  eapply read_after_untouched.
  - apply (set_paths_read true pos d1 d' p H). rewrite Forall_forall in I1 |- *.
    intros x Hx r Nr Er. destruct (I1 (fst x)) as (A & B); [apply in_map, Hx|]. apply A. now exists r.
  - rewrite Forall_forall in I1 |- *. intros x Hx. destruct (I1 (fst x)) as (A & B); [apply in_map, Hx|]. exact B.
Qed.

Lemma set_paths_nothing_else pos d d' q t : set_paths true d pos = Ok d' -> at_path d' q = Some t ->
  at_path d q <> None \/ Exists (fun po => prefix_of (fst po) q \/ prefix_of q (fst po)) pos.
Proof.
  revert d. induction pos as [|[p o] pos IH]; intros d H A; simpl in *.
  - injection H as <-. left. congruence.
  - destruct (set_path true d p o) as [d1|] eqn:E; [|discriminate]. simpl in H.
    destruct (IH d1 H A) as [B|B]; [|right; now right].
    destruct (prefix_dec p q) as [P|NP]; [right; left; now left|].
    destruct (prefix_dec q p) as [Q|NQ]; [right; left; now right|].
    left. rewrite <- (set_read_other _ _ _ _ _ q E (conj NP NQ)). exact B.
Qed.

Lemma combine_fst {A B} (l : list A) (m : list B) : length l = length m -> map fst (combine l m) = l.
Proof. revert m. induction l as [|a l IH]; intros [|b m] H; simpl in *; try discriminate; [reflexivity|]. now rewrite IH by congruence. Qed.

Theorem pair_unpair d paths objs l0 l1 :
  l0 <> l1 -> length paths = length objs -> all_independent paths -> Forall (fun p => p <> []) paths ->
  Forall (fun p => at_path d p <> None) paths ->
  exists D d2, nested_pair d paths objs [l0; l1] = Ok D /\
    nested_unpair D paths [l0; l1] = Ok (d, d2) /\
    Forall (fun po => at_path d2 (fst po) = Some (snd po)) (combine paths objs) /\
    (forall q t, at_path d2 q = Some t -> q = [] \/ Exists (fun p => prefix_of p q \/ prefix_of q p) paths).
Proof.
  intros Nl L I NE Ex. unfold nested_pair, nested_unpair. rewrite L, Nat.eqb_refl. simpl negb. cbv iota.
  pose proof (combine_fst paths objs L) as C.
  assert (I' : all_independent (map fst (combine paths objs))) by now rewrite C.
  assert (NE' : Forall (fun po : path * tree V => fst po <> []) (combine paths objs))
    by (rewrite <- C in NE; rewrite Forall_map in NE; exact NE).
  assert (Ex' : Forall (fun po : path * tree V => at_path d (fst po) <> None) (combine paths objs))
    by (rewrite <- C in Ex; rewrite Forall_map in Ex; exact Ex).
  destruct (pair_paths_total _ d l0 l1 I' NE' Ex') as (D & P).
  destruct (unpair_pair_paths _ d (Dict []) D l0 l1 Nl I' NE' Ex') as (d2 & U & S); [|exact P|].
  { apply Forall_forall. intros x Hx q r v Eq Nr. destruct q; simpl; discriminate. }
  exists D, d2. split; [exact P|]. rewrite C in U. split; [exact U|]. split.
  - eapply set_paths_true_reads; eassumption.
  - intros q t A. destruct (set_paths_nothing_else _ _ _ _ _ S A) as [B|B].
    + left. destruct q; [reflexivity|]. exfalso. apply B. reflexivity.
    + right. rewrite <- C. rewrite Exists_exists in *. destruct B as (x & Hx & B).
      exists (fst x). split; [apply in_map, Hx|exact B].
Qed.

Lemma pair_frame d paths objs l0 l1 D q : nested_pair d paths objs [l0; l1] = Ok D ->
  Forall (fun p => independent p q) paths -> at_path D q = at_path d q.
Proof.
  unfold nested_pair. destruct (_ =? _) eqn:L; [|discriminate]. simpl. intros P F.
  apply Nat.eqb_eq in L. rewrite <- (combine_fst paths objs L) in F. clear L.
  revert d P. induction (combine paths objs) as [|[p o] pos IH]; intros d P; simpl in *.
  - now injection P as <-.
  - inversion F as [|? ? F1 F2]; subst. 
    destruct (pair_path d p o l0 l1) as [d1|] eqn:E; [|discriminate]. simpl in P.
    rewrite (IH F2 d1 P).
    assert (X : exists v, at_path d p = Some v /\ p <> []).
    { clear -E. revert d d1 E. induction p as [|k ks IH]; intros d d1 E; [discriminate|].
      destruct d as [x|kvs]; [discriminate|]. rewrite at_cons. simpl in E.
      destruct (assoc_get k kvs) as [t|]; [|discriminate]. destruct ks as [|k2 ks].
      - exists t. split; [reflexivity|discriminate].
      - apply rmap_ok in E. destruct E as (t' & E & _). destruct (IH t t' E) as (v & H & _).
        exists v. split; [exact H|discriminate]. }
    destruct X as (v & X & N). rewrite (pair_path_eq d p o l0 l1 v N X) in E.
    apply (set_read_other _ _ _ _ _ q E F1).
Qed.
End Tree.
