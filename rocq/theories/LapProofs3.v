(** Proofs about the order in which trees are raveled. *)
From Coq Require Import List Arith Lia Bool String Ascii Permutation Sorting.Sorted NArith.
From Verif Require Import Lib NestedModel NestedSpec NestedProofs NestedProofs2 FreezeModel FreezeSpec FreezeProofs LapModel LapSpec.
Import ListNotations.
Local Notation length := List.length.
Local Notation concat := List.concat.
Open Scope list_scope.

(** ---- string order ---- *)
Lemma ascii_compare_trans a b c : Ascii.compare a b = Lt -> Ascii.compare b c = Lt -> Ascii.compare a c = Lt.
Proof. unfold Ascii.compare. rewrite !N.compare_lt_iff. apply N.lt_trans. Qed.
Lemma str_lt_trans a : forall b c, String.compare a b = Lt -> String.compare b c = Lt -> String.compare a c = Lt.
Proof.
  induction a as [|x a IH]; intros [|y b] [|z c]; cbn; try discriminate; auto.
  destruct (Ascii.compare x y) eqn:E1; try discriminate; destruct (Ascii.compare y z) eqn:E2; try discriminate; intros H1 H2.
  - apply Ascii.compare_eq_iff in E1, E2. subst. unfold Ascii.compare. rewrite N.compare_refl. eauto.
  - apply Ascii.compare_eq_iff in E1. subst. now rewrite E2.
  - apply Ascii.compare_eq_iff in E2. subst. now rewrite E1.
  - now rewrite (ascii_compare_trans _ _ _ E1 E2).
Qed.
Lemma str_compare_refl a : String.compare a a = Eq.
Proof. induction a as [|x a IH]; cbn; [reflexivity|]. unfold Ascii.compare. now rewrite N.compare_refl. Qed.
Lemma str_gt a b : String.compare a b = Gt -> String.compare b a = Lt.
Proof. intros H. rewrite String.compare_antisym, H. reflexivity. Qed.

(** ---- sort_keys ---- *)
Definition key_lt {A} (p q : string * A) : Prop := String.compare (fst p) (fst q) = Lt.
Lemma insert_sorted {A} (p : string * A) l : ~ In (fst p) (map fst l) -> StronglySorted key_lt l -> StronglySorted key_lt (insert_key p l).
Proof.
  induction l as [|q l IH]; intros N S; cbn [insert_key]. repeat constructor. inversion S as [|? ? S1 S2]; subst. unfold string_leb. destruct (String.compare (fst p) (fst q)) eqn:E.
  - exfalso. apply N. left. symmetry. now apply String.compare_eq_iff.
  - constructor; [exact S|]. constructor; [exact E|]. apply Forall_forall. intros x Hx. rewrite Forall_forall in S2. exact (str_lt_trans _ _ _ E (S2 x Hx)).
  - constructor. apply IH; [intros X; apply N; now right|exact S1]. apply Forall_forall. intros x Hx. assert (P := Permutation_in x (Permutation_sym (insert_key_perm p l)) Hx). destruct P as [<-|P]. now apply str_gt. rewrite Forall_forall in S2. now apply S2.
Qed.
Lemma sort_sorted {A} (l : list (string * A)) : NoDup (map fst l) -> StronglySorted key_lt (sort_keys l).
Proof.
  unfold sort_keys. induction l as [|p l IH]; cbn [fold_right map]; intros N; [constructor|]. inversion N as [|? ? N1 N2]; subst. apply insert_sorted; [|now apply IH]. intros X. apply N1. apply (Permutation_in _ (Permutation_sym (Permutation_map fst (sort_keys_perm l)))). exact X.
Qed.
Lemma insert_map {A B} (g : A -> B) p l : insert_key (fst p, g (snd p)) (map (fun kv => (fst kv, g (snd kv))) l) = map (fun kv => (fst kv, g (snd kv))) (insert_key p l).
Proof. induction l as [|q l IH]; cbn [insert_key map fst snd]; [reflexivity|]. destruct (string_leb (fst p) (fst q)); cbn [map]; [reflexivity|]. now rewrite IH. Qed.
Lemma sort_map {A B} (g : A -> B) l : sort_keys (map (fun kv => (fst kv, g (snd kv))) l) = map (fun kv => (fst kv, g (snd kv))) (sort_keys l).
Proof. unfold sort_keys. induction l as [|p l IH]; cbn [fold_right map]; [reflexivity|]. rewrite IH. apply insert_map. Qed.

Section Ravel.
Context {V : Type}.
Lemma ravel_dict (kvs : list (string * tree (list V))) : ravel (Dict kvs) = concat (map (fun kv => ravel (snd kv)) (sort_keys kvs)).
Proof.
  cbn [ravel]. transitivity (concat (map snd (map (fun kv => (fst kv, ravel (snd kv))) (sort_keys kvs)))); [|now rewrite map_map]. rewrite <- (sort_map ravel). do 3 f_equal. induction kvs as [|[k v] kvs IH]; cbn [map fst snd]; [reflexivity|]. now rewrite IH.
Qed.
(** leaves in sorted order *)
Fixpoint sleaves (t : tree (list V)) : list (path * list V) :=
  match t with
  | Leaf v => [([], v)]
  | Dict kvs => concat (map snd (sort_keys ((fix go (kvs : list (string * tree (list V))) :=
      match kvs with [] => [] | (k, v) :: r => (k, map (fun pv => (k :: fst pv, snd pv)) (sleaves v)) :: go r end) kvs)))
  end.
Lemma insert_map2 {A B} (g : string -> A -> B) p l : insert_key (fst p, g (fst p) (snd p)) (map (fun kv => (fst kv, g (fst kv) (snd kv))) l) = map (fun kv => (fst kv, g (fst kv) (snd kv))) (insert_key p l).
Proof. induction l as [|q l IH]; cbn [insert_key map fst snd]; [reflexivity|]. destruct (string_leb (fst p) (fst q)); cbn [map]; [reflexivity|]. now rewrite IH. Qed.
Lemma sort_map2 {A B} (g : string -> A -> B) l : sort_keys (map (fun kv => (fst kv, g (fst kv) (snd kv))) l) = map (fun kv => (fst kv, g (fst kv) (snd kv))) (sort_keys l).
Proof. unfold sort_keys. induction l as [|p l IH]; cbn [fold_right map]; [reflexivity|]. rewrite IH. apply insert_map2. Qed.
Definition pre (k : string) (pv : path * list V) : path * list V := (k :: fst pv, snd pv).
Lemma sleaves_dict kvs : sleaves (Dict kvs) = concat (map (fun kv => map (pre (fst kv)) (sleaves (snd kv))) (sort_keys kvs)).
Proof.
  cbn [sleaves]. transitivity (concat (map snd (map (fun kv => (fst kv, map (pre (fst kv)) (sleaves (snd kv)))) (sort_keys kvs)))); [|now rewrite map_map]. rewrite <- (sort_map2 (fun k v => map (pre k) (sleaves v))). do 3 f_equal. induction kvs as [|[k v] kvs IH]; cbn [map fst snd]; [reflexivity|]. now rewrite IH.
Qed.
Lemma Permutation_concat {A} (l l' : list (list A)) : Permutation l l' -> Permutation (concat l) (concat l').
Proof. induction 1; cbn [concat]; [constructor|now apply Permutation_app_head| |etransitivity; eauto]. rewrite !app_assoc. apply Permutation_app_tail, Permutation_app_comm. Qed.
Lemma sleaves_perm t : Permutation (sleaves t) (leaves t).
Proof.
  induction t as [v|kvs IH] using tree_rect'; [reflexivity|]. rewrite sleaves_dict, leaves_dict. rewrite <- (Permutation_concat _ _ (Permutation_map _ (sort_keys_perm kvs))). induction IH as [|[k v] kvs H _ IHk]; cbn [map concat leaves_kvs fst snd]; [constructor|]. apply Permutation_app; [|exact IHk]. apply (Permutation_map (pre k)). exact H.
Qed.
Lemma ravel_sleaves t : ravel t = concat (map snd (sleaves t)).
Proof.
  induction t as [v|kvs IH] using tree_rect'. cbn. now rewrite app_nil_r. rewrite ravel_dict, sleaves_dict. assert (F : Forall (fun kv => ravel (snd kv) = concat (map snd (sleaves (snd kv)))) (sort_keys kvs)). { apply Forall_forall. intros x Hx. rewrite Forall_forall in IH. apply IH. apply (Permutation_in _ (Permutation_sym (sort_keys_perm kvs)) Hx). }
  clear IH. induction F as [|[k v] l H _ IHl]; cbn [map concat fst snd]; [reflexivity|]. rewrite IHl, map_app, concat_app. f_equal. cbn [snd] in H. rewrite H. rewrite map_map. reflexivity.
Qed.
Lemma sorted_concat (l : list (list path)) : (forall x, In x l -> StronglySorted path_lt x) ->
  (forall l1 a l2 b l3, l = l1 ++ a :: l2 ++ b :: l3 -> forall p q, In p a -> In q b -> path_lt p q) -> StronglySorted path_lt (concat l).
Proof.
  induction l as [|x l IH]; intros H B; cbn [concat]; [constructor|]. assert (Sx := H x (or_introl eq_refl)). assert (Sl : StronglySorted path_lt (concat l)). { apply IH. intros y Hy. apply H. now right. intros l1 a l2 b l3 E. apply (B (x :: l1) a l2 b l3). now rewrite E. }
  assert (X : forall p q, In p x -> In q (concat l) -> path_lt p q). { intros p q Hp Hq. apply in_concat in Hq. destruct Hq as (b & Hb & Hq). apply in_split in Hb. destruct Hb as (l2 & l3 & ->). exact (B [] x l2 b l3 eq_refl p q Hp Hq). }
  clear B H IH. induction Sx as [|p x Sx IHx F]; cbn [app]; [exact Sl|]. constructor. apply IHx. intros p' q Hp. apply X. now right. apply Forall_app. split; [exact F|]. apply Forall_forall. intros q Hq. apply X; [now left|exact Hq].
Qed.
Lemma sorted_split {A} (R : A -> A -> Prop) l1 a l2 b l3 : StronglySorted R (l1 ++ a :: l2 ++ b :: l3) -> R a b.
Proof. induction l1 as [|x l1 IH]; cbn [app]; intros S; inversion S as [|? ? S1 S2]; subst; [|now apply IH]. rewrite Forall_forall in S2. apply S2. apply in_or_app. right. now left. Qed.
Lemma sorted_cons k (m : list path) : StronglySorted path_lt m -> StronglySorted path_lt (map (cons k) m).
Proof.
  induction 1 as [|p l SS IHs FF]; cbn [map]; constructor; [exact IHs|]. apply Forall_forall. intros q Hq. apply in_map_iff in Hq. destruct Hq as (q' & <- & Hq). apply plt_tail. rewrite Forall_forall in FF. now apply FF.
Qed.
Lemma sleaves_sorted t : unique_keys t -> StronglySorted path_lt (map fst (sleaves t)).
Proof.
  induction t as [v|kvs IH] using tree_rect'; intros U. cbn. repeat constructor. apply unique_dict in U. destruct U as [ND F]. rewrite sleaves_dict. rewrite concat_map, map_map. assert (S := sort_sorted kvs ND). apply sorted_concat.
  - intros x Hx. apply in_map_iff in Hx. destruct Hx as ([k v] & <- & Hk). apply (Permutation_in _ (Permutation_sym (sort_keys_perm kvs))) in Hk. cbn [fst snd]. rewrite map_map. cbn [pre fst]. rewrite Forall_forall in IH, F. assert (SS := IH _ Hk (F _ Hk)). cbn [snd] in SS. rewrite <- (map_map fst (cons k)). exact (sorted_cons k _ SS).
  - intros l1 a l2 b l3 E p q Hp Hq. assert (exists m1 x m2 y m3, sort_keys kvs = m1 ++ x :: m2 ++ y :: m3 /\ a = map fst (map (pre (fst x)) (sleaves (snd x))) /\ b = map fst (map (pre (fst y)) (sleaves (snd y)))) as (m1 & x & m2 & y & m3 & E1 & -> & ->).
    { apply map_eq_app in E. destruct E as (m1 & r & E1 & _ & E). apply map_eq_cons in E. destruct E as (x & r' & -> & <- & E). apply map_eq_app in E. destruct E as (m2 & r'' & -> & _ & E). apply map_eq_cons in E. destruct E as (y & m3 & -> & <- & _). exists m1, x, m2, y, m3. auto. }
    rewrite E1 in S. apply sorted_split in S. rewrite map_map in Hp, Hq. apply in_map_iff in Hp, Hq. destruct Hp as (p' & <- & _). destruct Hq as (q' & <- & _). cbn [pre fst]. now apply plt_head.
Qed.
End Ravel.

Lemma plt_irrefl p : ~ path_lt p p.
Proof. induction p as [|k p IH]; intros H; inversion H; subst; [|now apply IH]. rewrite str_compare_refl in *. discriminate. Qed.
Lemma plt_trans p q r : path_lt p q -> path_lt q r -> path_lt p r.
Proof.
  intros H. revert r. induction H as [k q|k k' p q E|k p q H IH]; intros r Hr; inversion Hr; subst; first [constructor; solve [eauto using str_lt_trans] | apply plt_head; solve [eauto using str_lt_trans] | apply plt_tail; solve [eauto] | constructor].
Qed.
Lemma sorted_nodup l : StronglySorted path_lt l -> NoDup l.
Proof. induction 1 as [|p l S IH F]; constructor; [|exact IH]. intros I. rewrite Forall_forall in F. exact (plt_irrefl _ (F p I)). Qed.
Lemma sorted_unique l : StronglySorted path_lt l -> forall m, StronglySorted path_lt m -> Permutation l m -> l = m.
Proof.
  induction 1 as [|p l S IH F]; intros m Sm P. now apply Permutation_nil in P. destruct Sm as [|q m Sm Fm]. apply Permutation_sym, Permutation_nil in P. discriminate.
  assert (p = q). { assert (I : In p (q :: m)) by (apply (Permutation_in _ P); now left). assert (J : In q (p :: l)) by (apply (Permutation_in _ (Permutation_sym P)); now left). destruct I as [->|I]; [reflexivity|]. destruct J as [->|J]; [reflexivity|]. rewrite Forall_forall in F, Fm. exfalso. exact (plt_irrefl _ (plt_trans _ _ _ (F q J) (Fm p I))). }
  subst q. f_equal. apply IH; [exact Sm|]. now apply Permutation_cons_inv in P.
Qed.
Lemma ravel_paths_leaves {V} (t : tree (list V)) (ps : list (path * list V)) : (forall q v, In (q, v) ps -> q <> [] /\ at_path t q = Some (Leaf v)) -> ravel_paths t (map fst ps) = Ok (concat (map snd ps)).
Proof.
  intros H. unfold ravel_paths. assert (E : mapM (nested_get t) (map fst ps) = Ok (map (fun pv => Leaf (snd pv)) ps)). { induction ps as [|[q v] ps IH]; cbn [map mapM fst snd]; [reflexivity|]. destruct (H q v (or_introl eq_refl)) as [N A]. apply (proj2 (nested_get_spec t q (Leaf v) N)) in A. rewrite A. cbn [bind]. rewrite IH by (intros; apply H; now right). reflexivity. }
  rewrite E. cbn [rmap]. rewrite map_map. cbn [ravel]. reflexivity.
Qed.
(** training starts from the trainable parameters in sorted path order *)
Theorem ravel_trainable_order : forall (V : Type) (t : tree (list V)) sel, NoDup sel -> (forall p, In p sel -> p <> [] /\ exists v, leaf_at t p v) ->
  exists ps flat, Permutation ps sel /\ StronglySorted path_lt ps /\ ravel_trainable t sel = Ok flat /\ ravel_paths t ps = Ok flat.
Proof.
  intros V t sel ND L. assert (LP : leaf_paths t sel) by (split; [exact ND|apply Forall_forall; exact L]). destruct (extract_spec t sel LP) as (X & E & U & _ & A & _).
  exists (map fst (sleaves X)), (ravel X). assert (S := sleaves_sorted X U).
  assert (M : forall q v, In (q, v) (sleaves X) <-> In q sel /\ at_path t q = Some (Leaf v)). { intros q v. rewrite <- A, <- (leaves_at X U q v). split; apply Permutation_in; [|symmetry]; apply sleaves_perm. }
  split; [|split; [exact S|split]].
  - apply NoDup_Permutation; [now apply sorted_nodup|exact ND|]. intros q. rewrite in_map_iff. split.
    + intros ([q' v] & <- & H). apply M in H. apply H.
    + intros H. destruct (L q H) as (N & v & Hv). exists (q, v). split; [reflexivity|]. apply M. auto.
  - unfold ravel_trainable. now rewrite E.
  - rewrite ravel_sleaves. apply ravel_paths_leaves. intros q v H. apply M in H. destruct H as [H1 H2]. split; [apply (L q H1)|exact H2].
Qed.
Theorem ravel_trainable_sorted : forall (V : Type) (t : tree (list V)) sel, (forall p, In p sel -> p <> [] /\ exists v, leaf_at t p v) ->
  StronglySorted path_lt sel -> ravel_trainable t sel = ravel_paths t sel.
Proof.
  intros V t sel L S. destruct (ravel_trainable_order V t sel (sorted_nodup sel S) L) as (ps & flat & P & S' & E1 & E2). assert (Q := sorted_unique ps S' sel S P). subst ps. congruence.
Qed.
(** kernel before bias, as a dense layer creates them *)
Theorem ravel_trainable_refuted : exists (t : tree (list nat)) f paths a b, get_trainable_paths t (Some f) = Ok paths /\ ravel_trainable t paths = Ok a /\ ravel_paths t paths = Ok b /\ a <> b.
Proof.
  exists (Dict [("model", Dict [("params", Dict [("dense", Dict [("kernel", Leaf [1; 2]); ("bias", Leaf [3])])])])])%string, (fun _ _ => "trainable"%string). do 3 eexists. split; [vm_compute; reflexivity|]. split; [vm_compute; reflexivity|]. split; [vm_compute; reflexivity|]. discriminate.
Qed.
