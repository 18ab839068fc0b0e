From Coq Require Import List Arith Lia Bool String.
From Verif Require Import Lib NestedModel NestedSpec NestedProofs NestedProofs2 FreezeModel FreezeSpec.
Import ListNotations.
Open Scope list_scope.
Local Notation length := List.length.

Section Freeze.
Context {V : Type}.
Implicit Types (t u : tree V) (p q : path).

Fixpoint leaves_kvs (kvs : list (string * tree V)) : list (path * V) :=
  match kvs with
  | [] => []
  | (k, v) :: r => map (fun pv => (k :: fst pv, snd pv)) (leaves v) ++ leaves_kvs r
  end.
Lemma leaves_dict kvs : leaves (Dict kvs) = leaves_kvs kvs.
Proof. reflexivity. Qed.

Lemma leaves_at t : unique_keys t -> forall q v, In (q, v) (leaves t) <-> at_path t q = Some (Leaf v).
Proof.
  induction t as [x|kvs IH] using tree_rect'; intros U q v.
  - cbn. split.
    + intros [E|[]]. injection E as <- <-. reflexivity.
    + destruct q; [|discriminate]. cbn. intros E. injection E as <-. now left.
  - rewrite leaves_dict. apply unique_dict in U. destruct U as [ND F].
    induction kvs as [|[k w] kvs IHk].
    + cbn. split; [intros []|]. destruct q; cbn; discriminate.
    + cbn [leaves_kvs]. rewrite in_app_iff. inversion ND as [|? ? N1 N2]; subst.
      inversion F as [|? ? F1 F2]; subst. inversion IH as [|? ? I1 I2]; subst. cbn [snd] in *.
      rewrite (IHk I2 N2 F2). rewrite in_map_iff. split.
      * intros [[[p' v'] [E Hin]]|H].
        -- injection E as <- <-. cbn [fst snd] in *. rewrite at_cons. cbn [assoc_get]. rewrite String.eqb_refl.
           apply (I1 F1). exact Hin.
        -- destruct q as [|k' q]; [discriminate|]. rewrite at_cons in *. cbn [assoc_get].
           destruct (String.eqb k' k) eqn:E; [|exact H].
           apply String.eqb_eq in E. subst k'. apply get_none_notin in N1. rewrite N1 in H. discriminate.
      * destruct q as [|k' q]; [discriminate|]. rewrite !at_cons. cbn [assoc_get].
        destruct (String.eqb k' k) eqn:E; intros H; [|now right].
        apply String.eqb_eq in E. subst k'. left. exists (q, v). split; [reflexivity|]. now apply (I1 F1).
Qed.

Lemma leaves_nodup t : unique_keys t -> NoDup (map fst (leaves t)).
Proof.
  induction t as [x|kvs IH] using tree_rect'; intros U.
  - cbn. constructor; [intros []|constructor].
  - rewrite leaves_dict. apply unique_dict in U. destruct U as [ND F].
    induction kvs as [|[k w] kvs IHk]; [constructor|].
    cbn [leaves_kvs]. inversion ND as [|? ? N1 N2]; subst.
    inversion F as [|? ? F1 F2]; subst. inversion IH as [|? ? I1 I2]; subst. cbn [snd] in *.
    specialize (IHk I2 N2 F2). specialize (I1 F1). rewrite map_app, map_map. cbn [fst].
    assert (Hk : forall q, In q (map fst (leaves_kvs kvs)) -> exists k2 q2, q = k2 :: q2 /\ In k2 (map fst kvs)).
    { clear. induction kvs as [|[k2 w] kvs IH]; [intros q []|]. intros q. cbn [leaves_kvs]. rewrite map_app, in_app_iff.
      intros [H|H].
      - rewrite map_map in H. apply in_map_iff in H. destruct H as [[p v] [<- _]]. cbn. eauto.
      - destruct (IH q H) as (k3 & q3 & -> & Hin). exists k3, q3. split; [reflexivity|]. now right. }
    clear IH F ND. revert I1 IHk Hk. generalize (leaves_kvs kvs). intros rest I1 ND2 Hk.
    induction (leaves w) as [|[p v] lw IHl]; cbn [map app]; [exact ND2|].
    inversion I1; subst. constructor; [|now apply IHl].
    rewrite in_app_iff. intros [H|H].
    + apply in_map_iff in H. destruct H as [[p' v'] [E Hin]]. injection E as E. apply H1.
      apply in_map_iff. exists (p', v'). split; [cbn in *; congruence|exact Hin].
    + destruct (Hk _ H) as (k2 & q2 & E & Hin). injection E as <- <-. contradiction.
Qed.

(** two different leaves of a tree are at independent paths *)
Lemma leaf_independent t p q v w : at_path t p = Some (Leaf v) -> at_path t q = Some (Leaf w) -> p <> q -> independent p q.
Proof.
  intros Hp Hq N. split; intros [r E]; subst.
  - rewrite at_app, Hp in Hq. destruct r; [rewrite app_nil_r in N; congruence|discriminate].
  - rewrite at_app, Hq in Hp. destruct r; [rewrite app_nil_r in N; congruence|discriminate].
Qed.

Definition leaf_paths t (sel : list path) : Prop :=
  NoDup sel /\ Forall (fun p => p <> [] /\ exists v, at_path t p = Some (Leaf v)) sel.

Lemma leaf_paths_independent t sel : leaf_paths t sel -> all_independent sel.
Proof.
  intros [ND F]. induction sel as [|p sel IH]; constructor.
  - inversion ND as [|? ? N1 N2]; subst. inversion F as [|? ? [_ [v Hv]] F2]; subst.
    rewrite Forall_forall in *. intros q Hq. destruct (F2 q Hq) as [_ [w Hw]].
    eapply leaf_independent; eauto. intros ->. contradiction.
  - inversion ND; inversion F; subst. apply IH; assumption.
Qed.

Lemma set_paths_allow_ok (pos : list (path * tree V)) d : all_independent (map fst pos) ->
  Forall (fun po => fst po <> []) pos -> Forall (fun po => no_leaf_before d (fst po)) pos ->
  exists d', set_paths true d pos = Ok d'.
Proof.
  revert d. induction pos as [|[p o] pos IH]; intros d I N L; cbn [set_paths]; [eauto|].
  inversion I as [|? ? I1 I2]; inversion N as [|? ? N1 N2]; inversion L as [|? ? L1 L2]; subst. cbn [fst] in *.
  destruct (set_allow_ok d p o N1 L1) as [d1 E]. rewrite E. cbn [bind]. apply IH; auto.
  rewrite Forall_forall in *. intros x Hx. eapply no_leaf_after; [exact E| |now apply L2].
  apply I1, in_map, Hx.
Qed.

Lemma assoc_set_keys k (v : tree V) d : NoDup (map fst d) -> NoDup (map fst (assoc_set k v d)).
Proof.
  induction d as [|[k' v'] d IH]; intros ND; cbn.
  - constructor; [intros []|constructor].
  - inversion ND as [|? ? N1 N2]; subst. destruct (String.eqb k k') eqn:E; cbn.
    + apply String.eqb_eq in E. subst. constructor; assumption.
    + constructor; [|now apply IH]. intros H.
      apply N1. assert (G : assoc_get k' (assoc_set k v d) <> None) by (intros X; apply get_none_notin in X; contradiction).
      rewrite get_set_other in G by (apply String.eqb_neq in E; congruence).
      destruct (assoc_get k' d) eqn:X; [|congruence]. apply get_in in X. apply in_map_iff. eexists (_, _). split; [|exact X]. reflexivity.
Qed.
Lemma assoc_set_unique k (v : tree V) d : unique_keys (Dict d) -> unique_keys v -> unique_keys (Dict (assoc_set k v d)).
Proof.
  intros U Uv. apply unique_dict in U. destruct U as [ND F]. apply unique_dict. split; [now apply assoc_set_keys|].
  clear ND. induction d as [|[k' v'] d IH]; cbn; [repeat constructor; exact Uv|].
  inversion F; subst. destruct (String.eqb k k'); constructor; auto.
Qed.
Lemma set_path_unique allow (o : tree V) : unique_keys o -> forall p d d', unique_keys d -> set_path allow d p o = Ok d' -> unique_keys d'.
Proof.
  intros Uo p. induction p as [|k ks IH]; intros d d' U H; [discriminate|].
  destruct d as [x|kvs]; [discriminate|]. destruct ks as [|k2 ks].
  - rewrite set_one in H. destruct (assoc_get k kvs); [|destruct allow; [|discriminate]];
      injection H as <-; now apply assoc_set_unique.
  - rewrite set_cons in H. destruct (assoc_get k kvs) as [t|] eqn:G.
    + apply rmap_ok in H. destruct H as [t' [H ->]]. apply assoc_set_unique; [exact U|].
      eapply IH; [|exact H]. eapply unique_get; eassumption.
    + destruct allow; [|discriminate]. apply rmap_ok in H. destruct H as [t' [H ->]].
      apply assoc_set_unique; [exact U|]. eapply IH; [|exact H]. cbn. split; [constructor|exact I].
Qed.
Lemma set_paths_unique allow (pos : list (path * tree V)) : Forall (fun po => unique_keys (snd po)) pos ->
  forall d d', unique_keys d -> set_paths allow d pos = Ok d' -> unique_keys d'.
Proof.
  induction pos as [|[p o] pos IH]; intros F d d' U H; cbn [set_paths] in H; [injection H as <-; exact U|].
  inversion F; subst. cbn [snd] in *. destruct (set_path allow d p o) as [d1|] eqn:E; [|discriminate]. cbn [bind] in H.
  eapply IH; [assumption| |exact H]. eapply set_path_unique; [|exact U|exact E]; assumption.
Qed.

Lemma mapM_get t sel : leaf_paths t sel ->
  exists objs, mapM (nested_get t) sel = Ok objs /\ length objs = length sel /\
    Forall (fun po => at_path t (fst po) = Some (snd po)) (combine sel objs) /\
    Forall (fun o => exists v, o = Leaf v) objs.
Proof.
  intros [_ F]. induction sel as [|p sel IH].
  - exists []. repeat split; constructor.
  - inversion F as [|? ? [N [v Hv]] F2]; subst. destruct (IH F2) as (objs & E & L & A & B).
    exists (Leaf v :: objs). cbn [mapM]. rewrite (proj2 (nested_get_spec t p (Leaf v) N) Hv). cbn [bind].
    rewrite E. cbn. split; [reflexivity|]. split; [lia|]. split; constructor; eauto.
Qed.

Lemma set_paths_dict (pos : list (path * tree V)) kvs d' : set_paths true (Dict kvs) pos = Ok d' -> exists kvs', d' = Dict kvs'.
Proof.
  revert kvs. induction pos as [|[p o] pos IH]; intros kvs H; cbn [set_paths] in H; [injection H as <-; eauto|].
  destruct (set_path true (Dict kvs) p o) as [d1|] eqn:E; [|discriminate]. cbn [bind] in H.
  destruct p as [|k ks]; [discriminate|].
  destruct (set_above_dict _ _ _ _ _ [] (k :: ks) E eq_refl ltac:(discriminate)) as [kvs1 K]. cbn in K. injection K as ->.
  eapply IH; exact H.
Qed.

Lemma extract_spec t sel : leaf_paths t sel ->
  exists X, extract t sel = Ok X /\ unique_keys X /\ (exists kvs, X = Dict kvs) /\
    (forall q v, at_path X q = Some (Leaf v) <-> In q sel /\ at_path t q = Some (Leaf v)) /\
    (forall q, at_path X q <> None -> q = [] \/ exists p, In p sel /\ prefix_of q p).
Proof.
  intros L. destruct (mapM_get t sel L) as (objs & E & Ln & A & B).
  pose proof (leaf_paths_independent t sel L) as I. destruct L as [ND F].
  unfold extract. rewrite E. cbn [bind]. unfold nested_set. rewrite Ln, Nat.eqb_refl. cbn [negb].
  assert (Fst : map fst (combine sel objs) = sel) by (apply combine_fst; congruence).
  destruct (set_paths_allow_ok (combine sel objs) (Dict [])) as [X HX].
  - rewrite Fst. exact I.
  - apply Forall_forall. intros x Hx. rewrite Forall_forall in F. apply F. rewrite <- Fst. apply in_map. exact Hx.
  - apply Forall_forall. intros x _ q r v Eq Nr Hq. destruct q; [cbn in Hq; discriminate|]. cbn in Hq. discriminate.
  - exists X. split; [exact HX|].
    assert (Reads : forall p, In p sel -> forall v, at_path t p = Some (Leaf v) -> at_path X p = Some (Leaf v)).
    { intros p Hp v Hv. pose proof (set_paths_true_reads (combine sel objs) (Dict []) X HX) as R. rewrite Fst in R. specialize (R I).
      rewrite Forall_forall in R, A. rewrite <- Fst in Hp. apply in_map_iff in Hp. destruct Hp as [x [<- Hx]].
      rewrite (R x Hx). rewrite (A x Hx) in Hv. exact Hv. }
    destruct (set_paths_dict _ _ _ HX) as [kvs HD].
    assert (NE : forall q tt, at_path X q = Some tt -> q = [] \/ exists p, In p sel /\ (prefix_of p q \/ prefix_of q p)).
    { intros q tt Hq. destruct (set_paths_nothing_else _ _ _ _ _ HX Hq) as [H|H].
      - left. destruct q; [reflexivity|]. cbn in H. congruence.
      - right. apply Exists_exists in H. destruct H as [x [Hx Hp]]. exists (fst x). split; [|exact Hp].
        rewrite <- Fst. apply in_map. exact Hx. }
    assert (Lf : forall p, In p sel -> exists v, at_path t p = Some (Leaf v)).
    { intros p Hp. rewrite Forall_forall in F. now apply F. }
    split; [|split; [eauto|split]].
    + refine (set_paths_unique true (combine sel objs) _ (Dict []) X _ HX); [|cbn; split; [constructor|exact Logic.I]].
      apply Forall_forall. intros x Hx. rewrite Forall_forall in B.
      assert (In (snd x) objs). { destruct x. apply in_combine_r in Hx. exact Hx. }
      destruct (B _ H) as [v ->]. exact Logic.I.
    + intros q v. split.
      * intros Hq. destruct (NE q _ Hq) as [->|(p & Hp & Hpre)]; [subst X; cbn in Hq; discriminate|].
        destruct (Lf p Hp) as [w Hw]. pose proof (Reads p Hp w Hw) as HXp.
        destruct Hpre as [[r ->]|[r ->]].
        -- rewrite at_app, HXp in Hq. destruct r; [|discriminate]. rewrite app_nil_r. cbn in Hq. injection Hq as ->. auto.
        -- rewrite at_app, Hq in HXp. destruct r; [|discriminate]. rewrite app_nil_r in *. cbn in HXp. injection HXp as ->. auto.
      * intros [Hin Ht]. now apply Reads.
    + intros q Hq. destruct (at_path X q) as [tt|] eqn:EQ; [|congruence].
      destruct (NE q _ EQ) as [->|(p & Hp & Hpre)]; [now left|]. right. exists p. split; [exact Hp|].
      destruct Hpre as [[r ->]|Hpre]; [|exact Hpre]. destruct (Lf p Hp) as [w Hw]. pose proof (Reads p Hp w Hw) as HXp.
      rewrite at_app, HXp in EQ. destruct r; [|discriminate]. rewrite app_nil_r. exists []. now rewrite app_nil_r.
Qed.

Variable f : path -> V -> string.

Lemma combine_map_filter {A B} (g : A -> B) (c : B -> bool) (l : list A) :
  map snd (filter (fun cp => c (fst cp)) (combine (map g l) l)) = filter (fun x => c (g x)) l.
Proof. induction l as [|a l IH]; cbn; [reflexivity|]. destruct (c (g a)); cbn; rewrite IH; reflexivity. Qed.

Lemma paths_ok t label : (forall q v, leaf_at t q v -> f q v = "frozen"%string \/ f q v = "trainable"%string) -> unique_keys t ->
  get_paths_with_label t (Some f) label ["frozen"; "trainable"]%string
  = Ok (map fst (filter (fun pv => String.eqb (f (fst pv) (snd pv)) label) (leaves t))).
Proof.
  intros H U. unfold get_paths_with_label, all_values_in_labels.
  assert (E : forallb (fun v => existsb (String.eqb v) ["frozen"; "trainable"]%string)
               (map (fun pv => f (fst pv) (snd pv)) (leaves t)) = true).
  { apply forallb_forall. intros x Hx. apply in_map_iff in Hx. destruct Hx as [[q v] [<- Hin]].
    apply leaves_at in Hin; [|exact U]. cbn [fst snd]. destruct (H q v Hin) as [->| ->]; reflexivity. }
  rewrite E. cbn [bind]. apply (f_equal Ok).
  rewrite <- (combine_map_filter (fun pv => f (fst pv) (snd pv)) (fun c => String.eqb c label) (leaves t)), map_map. reflexivity.
Qed.

Lemma paths_bad t label : unique_keys t ->
  (exists q v, leaf_at t q v /\ f q v <> "frozen"%string /\ f q v <> "trainable"%string) ->
  get_paths_with_label t (Some f) label ["frozen"; "trainable"]%string = Err ValueError.
Proof.
  intros U (q & v & Hl & N1 & N2). unfold get_paths_with_label, all_values_in_labels.
  destruct (forallb _ _) eqn:E; [|reflexivity]. exfalso. rewrite forallb_forall in E.
  apply (leaves_at t U) in Hl. specialize (E (f q v)).
  rewrite in_map_iff in E. specialize (E (ex_intro _ (q, v) (conj eq_refl Hl))). cbn in E.
  apply String.eqb_neq in N1, N2. rewrite N1, N2 in E. discriminate.
Qed.

Lemma sel_leaf_paths t label : unique_keys t -> (exists kvs, t = Dict kvs) ->
  leaf_paths t (map fst (filter (fun pv => String.eqb (f (fst pv) (snd pv)) label) (leaves t))).
Proof.
  intros U [kvs HD]. split.
  - pose proof (leaves_nodup t U) as ND. induction (leaves t) as [|x l IH]; cbn; [constructor|].
    cbn in ND. inversion ND; subst. destruct (String.eqb _ _); cbn; [|now apply IH]. constructor; [|now apply IH].
    intros Hin. apply in_map_iff in Hin. destruct Hin as [y [E Hy]]. apply filter_In in Hy. destruct Hy as [Hy _].
    match goal with N : ~ In (fst x) _ |- _ => apply N end. rewrite <- E. apply in_map. exact Hy.
  - apply Forall_forall. intros p Hp. apply in_map_iff in Hp. destruct Hp as [[q v] [<- Hq]].
    apply filter_In in Hq. destruct Hq as [Hq _]. apply leaves_at in Hq; [|exact U]. cbn [fst]. split; [|eauto].
    intros ->. subst t. cbn in Hq. discriminate.
Qed.

Lemma sel_in t label q v : unique_keys t -> leaf_at t q v ->
  (In q (map fst (filter (fun pv => String.eqb (f (fst pv) (snd pv)) label) (leaves t))) <-> f q v = label).
Proof.
  intros U Hl. rewrite in_map_iff. split.
  - intros [[q' v'] [E Hin]]. cbn in E. subst q'. apply filter_In in Hin. destruct Hin as [Hin C]. cbn in C.
    apply leaves_at in Hin; [|exact U]. unfold leaf_at in Hl. rewrite Hin in Hl. injection Hl as ->. now apply String.eqb_eq.
  - intros E. exists (q, v). split; [reflexivity|]. apply filter_In. split; [apply leaves_at; assumption|].
    cbn. now apply String.eqb_eq.
Qed.

Lemma split_spec t fr tr : unique_keys t -> (exists kvs, t = Dict kvs) -> on_train_start t f = Ok (fr, tr) ->
  (forall q v, leaf_at t q v -> f q v = "frozen"%string \/ f q v = "trainable"%string) /\
  unique_keys fr /\ unique_keys tr /\ (exists kvs, fr = Dict kvs) /\ (exists kvs, tr = Dict kvs) /\
  (forall q v, leaf_at fr q v <-> leaf_at t q v /\ f q v = "frozen"%string) /\
  (forall q v, leaf_at tr q v <-> leaf_at t q v /\ f q v = "trainable"%string) /\
  (forall q v, leaf_at t q v -> f q v = "frozen"%string -> at_path tr q = None /\ forall p w, prefix_of p q -> at_path tr p <> Some (Leaf w)).
Proof.
  intros U D H.
  assert (Lab : forall q v, leaf_at t q v -> f q v = "frozen"%string \/ f q v = "trainable"%string).
  { intros q v Hl. destruct (string_dec (f q v) "frozen") as [E|N1]; [now left|].
    destruct (string_dec (f q v) "trainable") as [E|N2]; [now right|]. exfalso.
    unfold on_train_start, get_frozen_paths in H. rewrite paths_bad in H; [discriminate|exact U|eauto]. }
  split; [exact Lab|].
  unfold on_train_start, get_frozen_paths, get_trainable_paths in H. rewrite !paths_ok in H by assumption. cbn [bind] in H.
  destruct (extract_spec t _ (sel_leaf_paths t "frozen" U D)) as (F & EF & UF & DF & LF & NF).
  destruct (extract_spec t _ (sel_leaf_paths t "trainable" U D)) as (T & ET & UT & DT & LT & NT).
  rewrite EF, ET in H. cbn [bind] in H. injection H as <- <-.
  assert (LF' : forall q v, leaf_at F q v <-> leaf_at t q v /\ f q v = "frozen"%string).
  { intros q v. unfold leaf_at at 1. rewrite LF. split; intros [A B].
    - split; [exact B|]. exact (proj1 (sel_in t _ q v U B) A).
    - split; [|exact A]. exact (proj2 (sel_in t _ q v U A) B). }
  assert (LT' : forall q v, leaf_at T q v <-> leaf_at t q v /\ f q v = "trainable"%string).
  { intros q v. unfold leaf_at at 1. rewrite LT. split; intros [A B].
    - split; [exact B|]. exact (proj1 (sel_in t _ q v U B) A).
    - split; [|exact A]. exact (proj2 (sel_in t _ q v U A) B). }
  repeat (split; [assumption|]).
  intros q v Hl Hf. split.
  - destruct (at_path T q) as [x|] eqn:E; [|reflexivity]. exfalso.
    destruct (NT q) as [->|(p & Hp & Hpre)]; [congruence| |].
    + destruct D as [kvs ->]. cbn in Hl. discriminate.
    + destruct (sel_leaf_paths t "trainable" U D) as [_ FA]. rewrite Forall_forall in FA.
      destruct (FA p Hp) as [_ [w Hw]]. destruct Hpre as [r ->].
      rewrite at_app, Hl in Hw. destruct r; [|discriminate]. rewrite app_nil_r in Hp.
      eapply sel_in in Hp; [|exact U|exact Hl]. rewrite Hf in Hp. discriminate.
  - intros p w [r ->] Hp. apply LT' in Hp. destruct Hp as [Hp Hfp]. unfold leaf_at in *.
    rewrite at_app, Hp in Hl. destruct r; [|discriminate]. rewrite app_nil_r in Hf. cbn in Hl. injection Hl as ->. congruence.
Qed.

Theorem frozen_never_change t fr tr u : unique_keys t -> (exists kvs, t = Dict kvs) ->
  on_train_start t f = Ok (fr, tr) -> unique_keys u -> same_structure tr u ->
  let merged := get_all_params fr u in
  (forall q v, leaf_at t q v -> f q v = "frozen"%string -> leaf_at merged q v) /\
  (forall q v, leaf_at t q v -> f q v = "trainable"%string -> exists w, leaf_at u q w /\ leaf_at merged q w) /\
  (forall q, (exists v, leaf_at merged q v) <-> (exists v, leaf_at t q v)).
Proof.
  intros U D H Uu SS. destruct (split_spec t fr tr U D H) as (Lab & Ufr & Utr & Dfr & Dtr & LF & LT & NT).
  cbv zeta. unfold get_all_params, nested_update. cbn [fold_left].
  assert (A : forall q v, leaf_at t q v -> f q v = "frozen"%string -> leaf_at (update1 u fr) q v).
  { intros q v Hl Hf. unfold leaf_at. destruct (NT q v Hl Hf) as [N1 N2]. apply update1_keep.
    - exact Uu.
    - apply LF. auto.
    - specialize (SS q). rewrite N1 in SS. destruct (at_path u q) as [[?|?]|]; [contradiction|contradiction|reflexivity].
    - intros p w Hp Hx. specialize (SS p). rewrite Hx in SS.
      destruct (at_path tr p) as [[x|?]|] eqn:E; [|contradiction|contradiction]. exact (N2 p x Hp E). }
  assert (B : forall q v, leaf_at t q v -> f q v = "trainable"%string -> exists w, leaf_at u q w /\ leaf_at (update1 u fr) q w).
  { intros q v Hl Hf. assert (Ht : leaf_at tr q v) by (apply LT; auto). specialize (SS q). unfold leaf_at in *. rewrite Ht in SS.
    destruct (at_path u q) as [[w|?]|] eqn:E; [|contradiction|contradiction]. exists w. split; [reflexivity|]. now apply update1_leaf. }
  split; [exact A|]. split; [exact B|]. intros q. split.
  - intros [v Hv]. apply update1_source in Hv; [|exact Uu]. destruct Hv as [Hv|Hv].
    + specialize (SS q). rewrite Hv in SS. destruct (at_path tr q) as [[w|?]|] eqn:E; [|contradiction|contradiction].
      exists w. now apply LT in E.
    + apply LF in Hv. exists v. tauto.
  - intros [v Hv]. destruct (Lab q v Hv) as [E|E]; [eauto|]. destruct (B q v Hv E) as [w [_ Hw]]. eauto.
Qed.

Lemma same_structure_refl t : same_structure t t.
Proof. intros q. destruct (at_path t q) as [[?|?]|]; exact I. Qed.

Theorem split_merge_identity t fr tr : unique_keys t -> (exists kvs, t = Dict kvs) ->
  on_train_start t f = Ok (fr, tr) -> forall q v, leaf_at (get_all_params fr tr) q v <-> leaf_at t q v.
Proof.
  intros U D H q v. destruct (split_spec t fr tr U D H) as (Lab & Ufr & Utr & Dfr & Dtr & LF & LT & NT).
  destruct (frozen_never_change t fr tr tr U D H Utr (same_structure_refl tr)) as (A & B & C). split.
  - intros Hv. unfold get_all_params, nested_update in Hv. cbn [fold_left] in Hv.
    apply update1_source in Hv; [|exact Utr]. destruct Hv as [Hv|Hv]; [apply LT in Hv|apply LF in Hv]; tauto.
  - intros Hv. destruct (Lab q v Hv) as [E|E]; [now apply A|]. destruct (B q v Hv E) as [w [Hw1 Hw2]].
    apply LT in Hw1. destruct Hw1 as [Hw1 _]. unfold leaf_at in *. rewrite Hv in Hw1. injection Hw1 as <-. exact Hw2.
Qed.

Theorem split_total t : unique_keys t -> (exists kvs, t = Dict kvs) ->
  ((exists r, on_train_start t f = Ok r) <-> (forall q v, leaf_at t q v -> f q v = "frozen"%string \/ f q v = "trainable"%string)) /\
  ((exists q v, leaf_at t q v /\ f q v <> "frozen"%string /\ f q v <> "trainable"%string) -> on_train_start t f = Err ValueError).
Proof.
  intros U D. split.
  - split.
    + intros [[fr tr] H]. now apply (split_spec t fr tr U D) in H.
    + intros Lab. unfold on_train_start, get_frozen_paths, get_trainable_paths. rewrite !paths_ok by assumption. cbn [bind].
      destruct (extract_spec t _ (sel_leaf_paths t "frozen" U D)) as (F & EF & _).
      destruct (extract_spec t _ (sel_leaf_paths t "trainable" U D)) as (T & ET & _).
      rewrite EF, ET. cbn. eauto.
  - intros Hb. unfold on_train_start, get_frozen_paths. rewrite paths_bad; auto.
Qed.

Theorem split_partition t fr tr : unique_keys t -> (exists kvs, t = Dict kvs) -> on_train_start t f = Ok (fr, tr) ->
  (forall q v, leaf_at fr q v <-> leaf_at t q v /\ f q v = "frozen"%string) /\
  (forall q v, leaf_at tr q v <-> leaf_at t q v /\ f q v = "trainable"%string).
Proof. intros U D H. destruct (split_spec t fr tr U D H) as (_ & _ & _ & _ & _ & A & B & _). auto. Qed.

Lemma same_structure_trans t u w : same_structure t u -> same_structure u w -> same_structure t w.
Proof.
  intros A B q. specialize (A q). specialize (B q).
  destruct (at_path t q) as [[?|?]|], (at_path u q) as [[?|?]|], (at_path w q) as [[?|?]|]; tauto.
Qed.

Theorem fit_frozen t updates final : unique_keys t -> (exists kvs, t = Dict kvs) ->
  Forall (fun upd => forall x, unique_keys x -> unique_keys (upd x) /\ same_structure x (upd x)) updates ->
  fit_with_freeze t f updates = Ok final ->
  (forall q v, leaf_at t q v -> f q v = "frozen"%string -> leaf_at final q v) /\
  (forall q, (exists v, leaf_at final q v) <-> (exists v, leaf_at t q v)).
Proof.
  intros U D F H. unfold fit_with_freeze in H. destruct (on_train_start t f) as [[fr tr]|] eqn:E; [|discriminate].
  cbn [bind fst snd] in H. injection H as <-.
  destruct (split_spec t fr tr U D E) as (_ & _ & Utr & _).
  assert (G : unique_keys (fold_left (fun tr upd => upd tr) updates tr) /\ same_structure tr (fold_left (fun tr upd => upd tr) updates tr)).
  { clear E. revert tr Utr. induction F as [|upd l Hu F IH]; intros tr Utr; cbn [fold_left].
    - split; [exact Utr|apply same_structure_refl].
    - destruct (Hu tr Utr) as [U1 S1]. destruct (IH (upd tr) U1) as [U2 S2]. split; [exact U2|]. eapply same_structure_trans; eauto. }
  destruct G as [G1 G2]. destruct (frozen_never_change t fr tr _ U D E G1 G2) as (A & _ & C). auto.
Qed.

(** ---- starting point of an ensemble member ---- *)
Lemma mapM_get_any u sel : Forall (fun p => p <> [] /\ at_path u p <> None) sel ->
  exists objs, mapM (nested_get u) sel = Ok objs /\ length objs = length sel /\
    Forall (fun po => at_path u (fst po) = Some (snd po)) (combine sel objs).
Proof.
  induction sel as [|p sel IH]; intros F.
  - exists []. repeat split; constructor.
  - inversion F as [|? ? [N Hv] F2]; subst. destruct (IH F2) as (objs & E & L & A).
    destruct (at_path u p) as [o|] eqn:Ho; [|congruence].
    exists (o :: objs). cbn [mapM]. rewrite (proj2 (nested_get_spec u p o N) Ho). cbn [bind].
    rewrite E. cbn. split; [reflexivity|]. split; [lia|]. constructor; [exact Ho|exact A].
Qed.

Theorem member_init t random : unique_keys t -> (exists kvs, t = Dict kvs) -> same_structure t random ->
  (forall q v, leaf_at t q v -> f q v = "frozen"%string \/ f q v = "trainable"%string) ->
  exists start, init_member t random f = Ok start /\
    (forall q v, leaf_at t q v -> f q v = "frozen"%string -> leaf_at start q v) /\
    (forall q v, leaf_at t q v -> f q v = "trainable"%string -> exists w, leaf_at random q w /\ leaf_at start q w).
Proof.
  intros U D SS Lab. unfold init_member, get_trainable_paths. rewrite paths_ok by assumption. cbn [bind].
  pose proof (sel_leaf_paths t "trainable" U D) as L.
  set (sel := map fst (filter (fun pv => String.eqb (f (fst pv) (snd pv)) "trainable") (leaves t))) in *.
  pose proof (leaf_paths_independent t sel L) as I. destruct L as [ND F].
  destruct (mapM_get_any random sel) as (objs & E & Ln & A).
  { rewrite Forall_forall in *. intros p Hp. destruct (F p Hp) as [N [v Hv]]. split; [exact N|].
    specialize (SS p). rewrite Hv in SS. destruct (at_path random p); [discriminate|contradiction]. }
  rewrite E. cbn [bind].
  assert (Ok1 : exists d', nested_set t sel objs false = Ok d').
  { apply nested_set_ok; [congruence|exact I| |].
    - eapply Forall_impl; [|exact F]. intros p [N _]. exact N.
    - eapply Forall_impl; [|exact F]. intros p [_ [v Hv]]. congruence. }
  destruct Ok1 as [start HS]. exists start. split; [exact HS|].
  assert (Ind : forall q v p, leaf_at t q v -> In p sel -> p <> q -> independent p q).
  { intros q v p Hq Hp Npq. rewrite Forall_forall in F. destruct (F p Hp) as [_ [w Hw]]. eapply leaf_independent; eauto. }
  split.
  - intros q v Hq Hf. unfold leaf_at. rewrite (nested_set_other false sel objs t start q HS); [exact Hq|].
    apply Forall_forall. intros p Hp. eapply Ind; eauto. intros ->.
    apply (sel_in t "trainable" q v U Hq) in Hp. congruence.
  - intros q v Hq Hf. assert (Hin : In q sel) by (apply (sel_in t "trainable" q v U Hq); exact Hf).
    pose proof (SS q) as Sq. unfold leaf_at in Hq. rewrite Hq in Sq. destruct (at_path random q) as [[w|?]|] eqn:Er; [|contradiction|contradiction].
    exists w. split; [exact Er|].
    assert (Fst : map fst (combine sel objs) = sel) by (apply combine_fst; congruence).
    assert (Snd : map snd (combine sel objs) = objs).
    { clear - Ln. revert objs Ln. induction sel as [|a l IH]; intros [|b objs] H; cbn in *; try discriminate; [reflexivity|].
      f_equal. apply IH. congruence. }
    assert (In (q, Leaf w) (combine sel objs)).
    { rewrite <- Fst in Hin. apply in_map_iff in Hin. destruct Hin as [[q' o] [E' Hin]]. cbn in E'. subst q'.
      rewrite Forall_forall in A. pose proof (A _ Hin) as Ho. cbn in Ho. rewrite Er in Ho. injection Ho as <-. exact Hin. }
    apply in_split in H. destruct H as (pos1 & pos2 & Hsplit).
    apply (nested_set_last false pos1 q (Leaf w) pos2 t start).
    + rewrite <- Hsplit, Fst, Snd. exact HS.
    + apply Forall_forall. intros x Hx. eapply Ind; [exact Hq| |].
      * rewrite <- Fst, Hsplit. apply in_map, in_app_iff. right. right. exact Hx.
      * intros Ex. rewrite <- Fst, Hsplit, map_app in ND. cbn [map fst] in ND. apply NoDup_remove_2 in ND. apply ND.
        apply in_app_iff. right. rewrite <- Ex. apply in_map. exact Hx.
Qed.
End Freeze.

(** without a freeze function the "trainable paths" are not paths of the tree *)
Theorem no_freeze_fun_wrong : exists (t : tree nat) paths,
  unique_keys t /\ get_trainable_paths t None = Ok paths /\
  exists q v, leaf_at t q v /\ Forall (fun p => at_path t p = None) paths.
Proof.
  exists (Dict [("ab", Leaf 1)])%string. eexists. split; [|split; [reflexivity|]].
  - cbn. repeat split; constructor; [intros []|constructor].
  - exists ["ab"]%string, 1. split; [reflexivity|]. repeat constructor.
Qed.
