(** The theorems about SerModel.v *)
From Coq Require Import List Arith Lia Bool String Permutation.
From Verif Require Import Lib NestedModel NestedProofs NestedProofs2 FlatProofs SerModel SerSpec SerProofs SerProofs2.
Import ListNotations.
Local Notation length := List.length.
Local Open Scope string_scope.

Lemma restored_facts {A O} (opt_init : O -> pv A -> pv A) (s : state A O) o :
  (forall o v, proper v -> proper (opt_init o v)) -> whole_state s ->
  let t := restored_state opt_init o s in
  s_cls t = s_cls s /\ s_tx t = o
  /\ same_fields ("grad_accumulated" :: match o with Some _ => ["opt_state"] | None => [] end) s t
  /\ (forall v, field "grad_accumulated" t = Some v -> v = PNone)
  /\ (exists p, field "params" t = Some p /\ frozen_dict p
      /\ match o with Some o' => field "opt_state" t = Some (opt_init o' p) | None => True end)
  /\ (forall k v, In k (collections (s_cls s)) -> field k t = Some v -> v = PNone \/ frozen_dict v)
  /\ whole_state t.
Proof.
  intros PO W t. split; [reflexivity|]. split; [reflexivity|]. split; [apply restored_same|]. split; [|split; [|split]].
  - intros v F. unfold t in F. rewrite field_restored in F. destruct (field "grad_accumulated" s); [|discriminate]. now injection F as <-.
  - destruct (whole_params _ _ _ W) as (p & Fp & Dp). exists (frozen (to_state_dict p)). unfold t. rewrite !field_restored, Fp. split; [reflexivity|]. split.
    + destruct Dp as (f & kvs & ->). cbn. eexists. reflexivity.
    + destruct o as [o'|]; [|exact I]. destruct (whole_field s "opt_state" W) as (v & F); [apply base_in; cbn; tauto|]. rewrite F. cbn [option_map]. unfold restored.
      cbn [mem four existsb String.eqb Ascii.eqb Bool.eqb orb]. now rewrite Fp.
  - intros k v I F. unfold t in F. rewrite field_restored in F. destruct (whole_collections _ _ _ W k I) as (w & Fw & D). rewrite Fw in F. injection F as <-.
    unfold restored. replace (mem k four) with true.
    + destruct D as [->|(f & kvs & ->)]; [left; reflexivity|right; cbn; eexists; reflexivity].
    + symmetry. apply existsb_exists. exists k. split; [|apply String.eqb_refl]. destruct (s_cls s); cbn in I |- *; tauto.
  - now apply restored_whole.
Qed.

Lemma posterior_round_trip : forall A O (opt_init : O -> pv A -> pv A) (s : state A O) o,
  (forall o v, proper v -> proper (opt_init o v)) ->
  whole_state s -> named s -> posterior_class (s_cls s) ->
  exists t, posterior_restore opt_init (Checkpoint (save s)) o = Ok (Some t)
    /\ s_cls t = s_cls s /\ s_tx t = o
    /\ same_fields ("grad_accumulated" :: match o with Some _ => ["opt_state"] | None => [] end) s t
    /\ (forall v, field "grad_accumulated" t = Some v -> v = PNone)
    /\ (exists p, field "params" t = Some p /\ frozen_dict p
        /\ match o with Some o' => field "opt_state" t = Some (opt_init o' p) | None => True end)
    /\ (forall k v, In k (collections (s_cls s)) -> field k t = Some v -> v = PNone \/ frozen_dict v)
    /\ whole_state t /\ named t.
Proof.
  intros A O opt_init s o PO W N P. exists (restored_state opt_init o s). split; [now apply posterior_round|].
  destruct (restored_facts opt_init s o PO W) as (H1 & H2 & H3 & H4 & H5 & H6 & H7).
  repeat (split; [assumption|]). now apply restored_named.
Qed.

Lemma calib_round_trip : forall A O (opt_init : O -> pv A -> pv A) (s : state A O) o,
  (forall o v, proper v -> proper (opt_init o v)) ->
  whole_state s -> s_cls s = CalibC \/ s_cls s = OutputCalibC /\ (exists m, field "mutable" s = Some m /\ is_dict m) ->
  exists t, restore_as opt_init (s_cls s) (Checkpoint (save s)) o = Ok (Some t)
    /\ s_cls t = s_cls s /\ s_tx t = o
    /\ same_fields match o with Some _ => ["opt_state"] | None => [] end s t
    /\ (exists p, field "params" t = Some p /\ frozen_dict p
        /\ match o with Some o' => field "opt_state" t = Some (opt_init o' p) | None => True end)
    /\ (forall k v, In k (collections (s_cls s)) -> field k t = Some v -> v = PNone \/ frozen_dict v)
    /\ whole_state t.
Proof.
  intros A O opt_init s o PO W C. exists (restored_state opt_init o s).
  destruct (restored_facts opt_init s o PO W) as (H1 & H2 & H3 & H4 & H5 & H6 & H7).
  split.
  - unfold restore_as. destruct C as [E|[E M]].
    + apply from_dict_four; [exact W| |]; rewrite E; discriminate.
    + rewrite E. now apply from_dict_output.
  - repeat (split; [assumption|]). split; [|now repeat (split; [assumption|])].
    intros k N. destruct (String.eqb_spec k "grad_accumulated") as [->|NG].
    + assert (F : field "grad_accumulated" s = None).
      { destruct (field "grad_accumulated" s) as [v|] eqn:F; [|reflexivity]. exfalso. apply get_in in F. apply (in_map fst) in F. rewrite (whole_fields' _ W) in F.
        destruct C as [E|[E M]]; rewrite E in F; cbn in F; intuition discriminate. }
      rewrite field_restored, F. exact I.
    + apply H3. intros [E|J]; [now symmetry in E|contradiction].
Qed.

(** a probabilistic model's calibration resumes through the table of posteriors *)
Lemma output_by_name : forall A O (opt_init : O -> pv A -> pv A) (s : state A O) o,
  whole_state s -> named s -> s_cls s = OutputCalibC -> (exists m, field "mutable" s = Some m /\ is_dict m) ->
  posterior_restore opt_init (Checkpoint (save s)) o = restore_as opt_init OutputCalibC (Checkpoint (save s)) o.
Proof. intros A O opt_init s o W N E M. rewrite output_round by assumption. symmetry. now apply from_dict_output. Qed.

Lemma output_no_mutable : forall A O (opt_init : O -> pv A -> pv A) (s : state A O) o,
  whole_state s -> s_cls s = OutputCalibC -> field "mutable" s = Some PNone ->
  restore_as opt_init OutputCalibC (Checkpoint (save s)) o = Err TypeError.
Proof.
  intros A O opt_init s o W E F. destruct (whole_params _ _ _ W) as (p & Fp & Dp). unfold restore_as, init_from_dict.
  rewrite (item_save s _ _ Fp), (item_save s _ _ F) by discriminate. cbn [bind]. now rewrite (freeze_dict p Dp).
Qed.

Lemma no_checkpoint : forall A O (opt_init : O -> pv A -> pv A) (p : place A) o,
  p = Missing \/ p = NoCheckpoint ->
  posterior_restore opt_init p o = Err ValueError
  /\ (forall c, restore_as opt_init c p o = Err ValueError)
  /\ (forall names, restore opt_init names p o = Err ValueError)
  /\ load_check opt_init p = Err ValueError.
Proof. intros A O opt_init p o [-> | ->]; repeat split. Qed.

Lemma unknown_name : forall A O (opt_init : O -> pv A -> pv A) names d o v n,
  assoc_get "encoded_name" d = Some (to_state_dict v) -> name_stored n v -> ~ In n (map fst names) ->
  restore opt_init names (Checkpoint d) o = Err KeyError.
Proof.
  intros A O opt_init names d o v n F N NI. unfold restore, item. rewrite F. cbn [bind]. rewrite (name_decoded _ _ N). cbn [bind].
  destruct (assoc_get n names) as [c|] eqn:G; [|reflexivity]. exfalso. apply NI. apply get_in in G. now apply (in_map fst) in G.
Qed.

(** ---- the wrong reader ---- *)
Lemma calib_state_in_posterior : forall A O (opt_init : O -> pv A -> pv A) kw o o' (s : state A O),
  init opt_init CalibC o kw = Ok (Some s) -> assoc_get "encoded_name" kw = None ->
  posterior_restore opt_init (Checkpoint (save s)) o' = Err KeyError
  /\ load_check opt_init (Checkpoint (save s)) = Err KeyError
  /\ restore opt_init train_table (Checkpoint (save s)) o' = Ok None.
Proof.
  intros A O opt_init kw o o' s H NE.
  assert (F : field "encoded_name" s = Some (PSeq (map PNum (to_codes "TrainState")))).
  { unfold init in H. destruct (assoc_get "params" kw) as [p|]; [|discriminate].
    match type of H with bind ?x _ = _ => destruct x as [os|e]; [|discriminate] end. cbn [bind] in H. unfold construct in H.
    match type of H with rmap Some (if ?b then _ else _) = _ => destruct b; [|discriminate] end. cbn [rmap bind] in H. injection H as <-.
    unfold field. cbn [s_fields]. 
    assert (G : forall kw' : list (string * pv A), assoc_get "encoded_name" kw' = None ->
      assoc_get "encoded_name" (map (fun kv => (fst kv, get_or (fst kv) (snd kv) kw')) (@fields A CalibC)) = Some (PSeq (map PNum (to_codes "TrainState")))).
    { intros kw' N. rewrite (get_fun (fun k v => get_or k v kw')). unfold get_or. rewrite N. reflexivity. }
    apply G. cbn [assoc_get String.eqb Ascii.eqb Bool.eqb].
    assert (K : forall (f : string * pv A -> bool) l, assoc_get "encoded_name" l = None -> assoc_get "encoded_name" (filter f l) = None).
    { intros f l. induction l as [|[k v] l IH]; [reflexivity|]. cbn [assoc_get filter]. destruct (String.eqb "encoded_name" k) eqn:E; [discriminate|].
      intros N. destruct (f (k, v)); [cbn [assoc_get]; rewrite E|]; now apply IH. }
    apply K. unfold without. now apply K. }
  assert (D : forall names, restore opt_init names (Checkpoint (save s)) o' = match assoc_get "TrainState" names with None => Err KeyError | Some c => init_from_dict opt_init c (save s) o' end).
  { intros names. unfold restore. rewrite (item_save s _ _ F) by discriminate. cbn [bind]. rewrite (name_decoded "TrainState") by (left; reflexivity). reflexivity. }
  split; [|split].
  - unfold posterior_restore. now rewrite D.
  - unfold load_check, posterior_restore, restore. rewrite (item_save s _ _ F) by discriminate. cbn [bind]. rewrite (name_decoded "TrainState") by (left; reflexivity). reflexivity.
  - now rewrite D.
Qed.

Lemma posterior_in_output : forall A O (opt_init : O -> pv A -> pv A) (s : state A O) o,
  whole_state s -> posterior_class (s_cls s) -> restore_as opt_init OutputCalibC (Checkpoint (save s)) o = Err TypeError.
Proof.
  intros A O opt_init s o W P. destruct (whole_params _ _ _ W) as (p & Fp & Dp).
  assert (NC : collections (s_cls s) = ["mutable"; "calib_params"; "calib_mutable"]) by (destruct (s_cls s); try reflexivity; exfalso; apply P; cbn; tauto).
  destruct (whole_collections _ _ _ W "mutable") as (m & Fm & Dm); [rewrite NC; cbn; tauto|].
  destruct (whole_collections _ _ _ W "calib_params") as (cp & Fc & Dc); [rewrite NC; cbn; tauto|].
  unfold restore_as, init_from_dict. rewrite (item_save s _ _ Fp), (item_save s _ _ Fm) by discriminate. cbn [bind]. rewrite (freeze_dict p Dp). cbn [bind].
  destruct Dm as [->|Dm]; [reflexivity|]. rewrite (freeze_dict m Dm). cbn [bind]. unfold init. cbn [assoc_get String.eqb Ascii.eqb Bool.eqb].
  match goal with |- bind ?x _ = _ => assert (B : exists v, x = Ok v) by (destruct o; [eauto|]; match goal with |- context [match ?y with Some _ => _ | None => _ end] => destruct y; eauto end) end.
  destruct B as (v & ->). cbn [bind].
  unfold construct. match goal with |- rmap Some (if ?b then _ else _) = _ => replace b with false; [reflexivity|] end.
  symmetry. apply not_true_is_false. intros H. rewrite forallb_forall in H.
  assert (I : In ("calib_params", saved "calib_params" cp) (without ["params"; "mutable"; "optimizer"] (save s))).
  { apply get_in. rewrite get_without. cbn [mem existsb String.eqb Ascii.eqb Bool.eqb orb]. rewrite get_save, Fc. reflexivity. }
  assert (J : In ("calib_params", saved "calib_params" cp) (without ["opt_state"; "apply_fn"; "tx"; "step"] (without ["params"; "mutable"; "optimizer"] (save s)))).
  { unfold without at 1. apply filter_In. split; [exact I|reflexivity]. }
  specialize (H ("calib_params", saved "calib_params" cp)). cbn [fst] in H. discriminate H. right. right. right. right. exact J.
Qed.

Lemma output_in_calib : forall A O (opt_init : O -> pv A -> pv A) (s : state A O) o,
  whole_state s -> s_cls s = OutputCalibC -> restore_as opt_init CalibC (Checkpoint (save s)) o = Err KeyError.
Proof.
  intros A O opt_init s o W E. destruct (whole_params _ _ _ W) as (p & Fp & Dp).
  destruct (whole_collections _ _ _ W "mutable") as (m & Fm & Dm); [rewrite E; cbn; tauto|].
  unfold restore_as, init_from_dict. rewrite (item_save s _ _ Fp), (item_save s _ _ Fm) by discriminate. cbn [bind]. rewrite (freeze_dict p Dp). cbn [bind].
  rewrite (freeze_optional m Dm). cbn [bind]. unfold item. rewrite get_save.
  destruct (field "calib_params" s) as [v|] eqn:F; [|reflexivity]. exfalso. apply get_in in F. apply (in_map fst) in F. rewrite (whole_fields' _ W), E in F. cbn in F. intuition discriminate.
Qed.

(** ---- conversions ---- *)
Lemma conversion : forall A O (opt_init : O -> pv A -> pv A) (s : state A O) o c which p m cp cm,
  In c [SwagC; SghmcC; CyclicalC] ->
  field "params" s = Some p -> field "mutable" s = Some m -> field "calib_params" s = Some cp -> field "calib_mutable" s = Some cm ->
  exists t, convert opt_init c s o which = Ok (Some t) /\ s_cls t = c /\ s_tx t = Some o
    /\ field "params" t = Some p /\ field "mutable" t = Some m /\ field "calib_params" t = Some cp /\ field "calib_mutable" t = Some cm
    /\ field "opt_state" t = Some (opt_init o p) /\ field "step" t = Some (PNum 0)
    /\ field "encoded_name" t = Some (PSeq (map PNum (to_codes (class_name c))))
    /\ field "_encoded_which_params" t = Some (match which with Some w => w | None => PNone end)
    /\ (forall k v, In k ["dynamic_scale"; "frozen_params"; "grad_accumulated"; "mean"; "std"; "dev"] -> field k t = Some v -> v = PNone)
    /\ map fst (s_fields t) = map fst (@fields A c).
Proof.
  intros A O opt_init s o c which p m cp cm I F1 F2 F3 F4. unfold convert, attribute. rewrite F1, F2, F3, F4. cbn [bind].
  destruct I as [<-|[<-|[<-|[]]]]; destruct which as [w|]; cbn -[encode_name to_codes];
    (eexists; split; [reflexivity|]; repeat (split; [reflexivity|]); split; [|reflexivity]; intros k v I G; cbn in I;
     repeat (destruct I as [<-|I]; [cbn in G; congruence|]); destruct I).
Qed.
Lemma conversion_rejected : forall A O (opt_init : O -> pv A -> pv A) (s : state A O) o c which,
  (exists k, In k ["params"; "mutable"; "calib_params"; "calib_mutable"] /\ field k s = None) ->
  convert opt_init c s o which = Err AttributeError.
Proof.
  intros A O opt_init s o c which (k & I & F). unfold convert, attribute.
  destruct (field "params" s) eqn:F1; [|reflexivity]. cbn [bind]. destruct (field "mutable" s) eqn:F2; [|reflexivity]. cbn [bind].
  destruct (field "calib_params" s) eqn:F3; [|reflexivity]. cbn [bind]. destruct (field "calib_mutable" s) eqn:F4; [|reflexivity].
  exfalso. cbn in I. destruct I as [<-|[<-|[<-|[<-|[]]]]]; congruence.
Qed.
Lemma replaced : forall A O (s t : state A O) vs, map fst (s_fields s) = map fst (@fields A (s_cls s)) -> replace s vs = Ok t ->
  s_cls t = s_cls s /\ s_tx t = s_tx s /\ forall k, field k t = match assoc_get k vs with Some v => Some v | None => field k s end.
Proof.
  intros A O s t vs EF H. unfold replace in H. destruct (forallb _ vs) eqn:B; [|discriminate]. injection H as <-. split; [reflexivity|]. split; [reflexivity|].
  intros k. unfold field at 1. cbn [s_fields]. rewrite (get_fun (fun k v => get_or k v vs)). fold (field k s). unfold get_or.
  destruct (assoc_get k vs) as [v|] eqn:G; [|now destruct (field k s)].
  destruct (field k s) as [w|] eqn:F; [reflexivity|]. exfalso. rewrite forallb_forall in B. apply get_in in G. specialize (B _ G). cbn [fst] in B. apply has_field_in in B.
  rewrite <- EF in B. apply get_some in B. destruct B as (w & B). unfold field in F. congruence.
Qed.
Lemma replace_unknown : forall A O (s : state A O) vs k v, In (k, v) vs -> ~ In k (map fst (@fields A (s_cls s))) -> replace s vs = Err TypeError.
Proof.
  intros A O s vs k v I N. unfold replace. destruct (forallb _ vs) eqn:B; [|reflexivity]. rewrite forallb_forall in B. specialize (B _ I). cbn [fst] in B.
  apply has_field_in in B. contradiction.
Qed.

(** ---- building states ---- *)
Lemma init_without_optimizer : forall A O (opt_init : O -> pv A -> pv A) c kw p,
  posterior_class c \/ c = CalibC -> assoc_get "params" kw = Some p -> assoc_get "opt_state" kw = None ->
  init opt_init c None kw = Err AttributeError.
Proof. intros A O opt_init c kw p C P N. unfold init. rewrite P, N. destruct C as [C| ->]; [|reflexivity]. destruct c; try reflexivity; exfalso; apply C; cbn; tauto. Qed.
Lemma init_unknown : forall A O (opt_init : O -> pv A -> pv A) c kw p k v o,
  posterior_class c \/ c = OutputCalibC -> assoc_get "params" kw = Some p -> o <> None \/ assoc_get "opt_state" kw <> None ->
  In (k, v) kw -> ~ In k (map fst (@fields A c)) -> ~ In k ["apply_fn"; "tx"] -> init opt_init c o kw = Err TypeError.
Proof.
  intros A O opt_init c kw p k v o C P S I N NI. unfold init. rewrite P.
  assert (Z : exists x, (match o, assoc_get "opt_state" kw with None, Some v => Ok v | Some o, _ => Ok (opt_init o p) | None, None => match c with OutputCalibC => Ok PNone | _ => Err AttributeError end end) = Ok x).
  { destruct o; [eauto|]. destruct (assoc_get "opt_state" kw); [eauto|]. destruct S; congruence. }
  destruct Z as (x & Z). 
  assert (K : forall os, construct c (("opt_state", os) :: ("step", get_or "step" (PNum 0) kw) :: without ["opt_state"; "apply_fn"; "tx"; "step"] kw) o = Err TypeError).
  { intros os. unfold construct. destruct (forallb _ _) eqn:B; [|reflexivity]. rewrite forallb_forall in B. exfalso. apply N. apply has_field_in. apply (B (k, v)). right. right.
    apply filter_In. split; [exact I|]. cbn [fst]. apply negb_true_iff. apply not_true_is_false. intros M. apply existsb_exists in M. destruct M as (y & J & E). apply String.eqb_eq in E. subst y.
    cbn in J. destruct J as [<-|[<-|[<-|[<-|[]]]]]; [apply N; apply base_in; cbn; tauto|apply NI; cbn; tauto|apply NI; cbn; tauto|apply N; apply base_in; cbn; tauto]. }
  destruct C as [C| ->]; [|rewrite Z; cbn [bind]; now rewrite K]. destruct c; try (exfalso; apply C; cbn; tauto); rewrite Z; cbn [bind]; now rewrite K.
Qed.

(** ---- resuming repeatedly ---- *)
Lemma same_trans {A O} but but' (s t u : state A O) : (forall k, In k but -> In k but') -> same_fields but s t -> same_fields but' t u -> same_fields but' s u.
Proof.
  intros B H K k N. specialize (H k (fun I => N (B k I))). specialize (K k N). destruct (field k s), (field k t), (field k u); try contradiction; try exact I.
  eapply looks_trans; eassumption.
Qed.
Lemma same_weaken {A O} but but' (s t : state A O) : (forall k, In k but -> In k but') -> same_fields but s t -> same_fields but' s t.
Proof. intros B H k N. apply H. intros I. apply N. now apply B. Qed.

Lemma short_names : forall A O (opt_init : O -> pv A -> pv A) events (s : state A O),
  (forall o v, proper v -> proper (opt_init o v)) ->
  whole_state s -> named s -> posterior_class (s_cls s) -> String.length (class_name (s_cls s)) <= 10 ->
  exists t, live opt_init events s = Ok t /\ s_cls t = s_cls s /\ whole_state t /\ named t
    /\ same_fields ["grad_accumulated"; "opt_state"] s t
    /\ ((forall o, ~ In (Resume (Some o)) events) -> same_fields ["grad_accumulated"] s t)
    /\ (events = repeat Step (length events) -> same_fields [] s t).
Proof.
  intros A O opt_init events s PO. revert s. induction events as [|e events IH]; intros s W N P L.
  - exists s. cbn [live]. repeat (split; [reflexivity || assumption|]). 
    assert (R : forall but, same_fields but s s) by (intros but k _; destruct (field k s); [apply looks_refl|exact I]). auto.
  - destruct e as [|o]; cbn [live].
    + destruct (IH (jit s)) as (t & E & C & W' & N' & S1 & S2 & S3); [now apply jit_whole|now apply jit_named|exact P|exact L|].
      exists t. split; [exact E|]. split; [exact C|]. split; [exact W'|]. split; [exact N'|].
      pose proof (jit_same s W) as J. split; [|split].
      * eapply same_trans; [|exact J|exact S1]. intros k [].
      * intros NR. eapply same_trans; [|exact J|apply S2]; [intros k []|]. intros o I. apply (NR o). now right.
      * intros EQ. eapply same_trans; [|exact J|apply S3]; [intros k []|]. cbn in EQ. congruence.
    + rewrite posterior_round by assumption.
      destruct (restored_facts opt_init s o PO W) as (H1 & H2 & H3 & H4 & H5 & H6 & H7).
      destruct (IH (restored_state opt_init o s)) as (t & E & C & W' & N' & S1 & S2 & S3); [exact H7|now apply restored_named|exact P|exact L|].
      exists t. split; [exact E|]. split; [exact C|]. split; [exact W'|]. split; [exact N'|]. split; [|split].
      * eapply same_trans; [|exact H3|exact S1]. intros k I. destruct o; cbn in I |- *; tauto.
      * intros NR. destruct o as [o|]; [exfalso; apply (NR o); now left|]. eapply same_trans; [|exact H3|apply S2]; [intros k I; exact I|]. intros o I. apply (NR o). now right.
      * cbn. discriminate.
Qed.

Lemma steps_named {A O} (s : state A O) n :
  whole_state s -> field "encoded_name" s = Some (PSeq (map PNum (to_codes (class_name (s_cls s))))) ->
  whole_state (Nat.iter n jit s) /\ s_cls (Nat.iter n jit s) = s_cls s /\ field "encoded_name" (Nat.iter n jit s) = Some (PSeq (map PNum (to_codes (class_name (s_cls s)))))
  /\ same_fields [] s (Nat.iter n jit s).
Proof.
  intros W F. induction n as [|n (W' & C & F' & S)]; cbn [Nat.iter nat_rect].
  - repeat (split; [assumption || reflexivity|]). intros k _. destruct (field k s); [apply looks_refl|exact I].
  - split; [now apply jit_whole|]. split; [exact C|]. split.
    + rewrite field_jit. unfold Nat.iter in F'. rewrite F'. cbn [option_map]. now rewrite name_rebuild_tuple.
    + eapply same_trans; [|exact S|apply jit_same; exact W']. intros k I; exact I.
Qed.
Lemma live_steps {A O} (opt_init : O -> pv A -> pv A) n r (s : state A O) : live opt_init (repeat Step n ++ r)%list s = live opt_init r (Nat.iter n jit s).
Proof.
  revert s. induction n as [|n IH]; intros s; [reflexivity|]. cbn [repeat app live]. rewrite IH. f_equal.
  clear. induction n as [|n IH]; [reflexivity|]. cbn [Nat.iter nat_rect] in *. now f_equal.
Qed.
Lemma long_names_once : forall A O (opt_init : O -> pv A -> pv A) (s : state A O) n os,
  (forall o v, proper v -> proper (opt_init o v)) ->
  whole_state s -> posterior_class (s_cls s) -> field "encoded_name" s = Some (PSeq (map PNum (to_codes (class_name (s_cls s))))) ->
  exists t, live opt_init (repeat Step n ++ map Resume os)%list s = Ok t /\ s_cls t = s_cls s /\ same_fields ["grad_accumulated"; "opt_state"] s t.
Proof.
  intros A O opt_init s n os PO W P F. rewrite live_steps. destruct (steps_named s n W F) as (W' & C & F' & S).
  assert (G : forall os (s : state A O), whole_state s -> named s -> posterior_class (s_cls s) ->
    exists t, live opt_init (map Resume os) s = Ok t /\ s_cls t = s_cls s /\ same_fields ["grad_accumulated"; "opt_state"] s t).
  { clear - PO. induction os as [|o os IH]; intros s W N P.
    - exists s. split; [reflexivity|]. split; [reflexivity|]. intros k _. destruct (field k s); [apply looks_refl|exact I].
    - cbn [map live]. rewrite posterior_round by assumption. destruct (restored_facts opt_init s o PO W) as (H1 & H2 & H3 & H4 & H5 & H6 & H7).
      destruct (IH (restored_state opt_init o s)) as (t & E & C & S); [exact H7|now apply restored_named|exact P|].
      exists t. split; [exact E|]. split; [exact C|]. eapply same_trans; [|exact H3|exact S]. intros k I. destruct o; cbn in I |- *; tauto. }
  destruct (G os (Nat.iter n jit s)) as (t & E & C' & S'); [exact W'| |now rewrite C|].
  - eexists. split; [exact F'|]. rewrite C. left. reflexivity.
  - exists t. split; [exact E|]. split; [congruence|]. eapply same_trans; [|exact S|exact S']. intros k [].
Qed.

Lemma scrambled {A} c v : 10 < String.length (class_name c) -> name_stored (class_name c) v ->
  exists n, decode_name (to_state_dict (rebuild (@to_state_dict A v))) = Ok n /\ assoc_get n posterior_table = None.
Proof. intros L N. rewrite (name_sd _ _ N). clear N v. destruct c; cbn in L; try lia; eexists; (split; [reflexivity|reflexivity]). Qed.
Lemma long_names_lost : forall A O (opt_init : O -> pv A -> pv A) (s : state A O) o o',
  whole_state s -> named s -> 10 < String.length (class_name (s_cls s)) ->
  posterior_class (s_cls s) \/ s_cls s = OutputCalibC /\ (exists m, field "mutable" s = Some m /\ is_dict m) ->
  (exists t, live opt_init [Resume o] s = Ok t) /\ live opt_init [Resume o; Step; Resume o'] s = Err KeyError.
Proof.
  intros A O opt_init s o o' W N L C. cbn [live].
  assert (E : posterior_restore opt_init (Checkpoint (save s)) o = Ok (Some (restored_state opt_init o s))) by (destruct C as [C|[C M]]; [now apply posterior_round|now apply output_round]).
  rewrite E. split; [eauto|].
  destruct N as (v & F & N). destruct (scrambled (s_cls s) v L N) as (n & D & G).
  assert (H : posterior_restore opt_init (Checkpoint (save (jit (restored_state opt_init o s)))) o' = Err KeyError); [|now rewrite H].
  unfold posterior_restore, restore.
  assert (F' : field "encoded_name" (jit (restored_state opt_init o s)) = Some (rebuild (to_state_dict v))) by (rewrite field_jit, field_restored, F; reflexivity).
  rewrite (item_save _ _ _ F') by discriminate. cbn [bind]. rewrite D. cbn [bind]. now rewrite G.
Qed.

(** ---- mixed precision ---- *)
Lemma scale_kept_plain : forall A O (opt_init : O -> pv A -> pv A) events (s t : state A O),
  (forall o v, proper v -> proper (opt_init o v)) ->
  whole_state s -> named s -> posterior_class (s_cls s) -> String.length (class_name (s_cls s)) <= 10 ->
  field "dynamic_scale" s = Some PNone -> live opt_init events s = Ok t -> gradient_function t = Ok PlainGradient.
Proof.
  intros A O opt_init events s t PO W N P L F E. destruct (short_names A O opt_init events s PO W N P L) as (t' & E' & _ & _ & _ & S & _).
  rewrite E in E'. injection E' as <-. specialize (S "dynamic_scale"). rewrite F in S. unfold gradient_function, attribute.
  destruct (field "dynamic_scale" t) as [v|]; [|exfalso; apply S; cbn; intuition discriminate].
  assert (Q : looks_like PNone v) by (apply S; cbn; intuition discriminate). specialize (Q []). cbn [look top] in Q. destruct v; try discriminate. reflexivity.
Qed.
Lemma scale_broken : forall A O (opt_init : O -> pv A -> pv A) (s : state A O) o name kvs,
  whole_state s -> named s -> posterior_class (s_cls s) -> field "dynamic_scale" s = Some (PObj name kvs) ->
  gradient_function s = Ok ScaledGradient
  /\ exists t, live opt_init [Resume o] s = Ok t /\ gradient_function t = Err AttributeError.
Proof.
  intros A O opt_init s o name kvs W N P F. split; [unfold gradient_function, attribute; now rewrite F|].
  cbn [live]. rewrite posterior_round by assumption. eexists. split; [reflexivity|]. unfold gradient_function, attribute. rewrite field_restored, F. reflexivity.
Qed.

(** ---- what init makes ---- *)
Lemma get_filter_field {A} c (l : list (string * pv A)) k : In k (map fst (@fields A c)) ->
  assoc_get k (filter (fun kv => @has_field A c (fst kv)) l) = assoc_get k l.
Proof.
  intros I. apply has_field_in in I. induction l as [|[k' v] l IH]; [reflexivity|]. cbn [filter fst]. destruct (@has_field A c k') eqn:H; cbn [assoc_get].
  - now rewrite IH.
  - rewrite IH. destruct (String.eqb_spec k k') as [->|]; [congruence|reflexivity].
Qed.
Lemma init_makes : forall A O (opt_init : O -> pv A -> pv A) c kw p o,
  c <> TrainC -> assoc_get "params" kw = Some p -> o <> None \/ assoc_get "opt_state" kw <> None \/ c = OutputCalibC ->
  c = CalibC \/ (forall k, In k (map fst kw) -> In k (map fst (@fields A c)) \/ k = "apply_fn" \/ k = "tx") ->
  exists t, init opt_init c o kw = Ok (Some t) /\ s_cls t = c /\ s_tx t = o
    /\ field "opt_state" t = Some (match o with Some o => opt_init o p | None => get_or "opt_state" PNone kw end)
    /\ field "step" t = Some (get_or "step" (PNum 0) kw)
    /\ (forall k d, assoc_get k (@fields A c) = Some d -> k <> "opt_state" -> k <> "step" -> field k t = Some (get_or k d kw))
    /\ (forall k, ~ In k (map fst (@fields A c)) -> field k t = None).
Proof.
  intros A O opt_init c kw p o NT P OS K.
  set (os := match o with Some o => opt_init o p | None => get_or "opt_state" PNone kw end).
  assert (Z : (match o, assoc_get "opt_state" kw with None, Some v => Ok v | Some o, _ => Ok (opt_init o p) | None, None => match c with OutputCalibC => Ok PNone | _ => Err AttributeError end end) = Ok os).
  { unfold os, get_or. destruct o; [reflexivity|]. destruct (assoc_get "opt_state" kw); [reflexivity|]. destruct OS as [OS|[OS| ->]]; [congruence|congruence|reflexivity]. }
  set (rest := match c with CalibC => filter (fun kv => @has_field A c (fst kv)) (without ["opt_state"; "apply_fn"; "tx"; "step"] kw) | _ => without ["opt_state"; "apply_fn"; "tx"; "step"] kw end).
  assert (I : init opt_init c o kw = rmap Some (construct c (("opt_state", os) :: ("step", get_or "step" (PNum 0) kw) :: rest) o)).
  { unfold init. rewrite P. destruct c; try contradiction; rewrite Z; reflexivity. }
  assert (KR : forall k, In k (map fst rest) -> In k (map fst (@fields A c))).
  { intros k J. assert (J' : In k (map fst (without ["opt_state"; "apply_fn"; "tx"; "step"] kw)) \/ c = CalibC) by (unfold rest in J; destruct c; auto).
    destruct J' as [J'| ->].
    - destruct K as [-> |K].
      + unfold rest in J. apply in_map_iff in J. destruct J as (x & <- & J). apply filter_In in J. now apply has_field_in.
      + destruct (K k) as [H|H]; [now apply keys_without in J'|exact H|]. exfalso. apply in_map_iff in J'. destruct J' as (x & <- & J'). apply filter_In in J'. destruct J' as [_ J'].
        destruct H as [H|H]; rewrite H in J'; discriminate J'.
    - unfold rest in J. apply in_map_iff in J. destruct J as (x & <- & J). apply filter_In in J. now apply has_field_in. }
  rewrite I, construct_full.
  - cbn [rmap bind]. eexists. split; [reflexivity|]. cbn [s_cls s_tx]. split; [reflexivity|]. split; [reflexivity|].
    assert (FT : forall k, field k (mk_state c (map (fun kv => (fst kv, get_or (fst kv) (snd kv) (("opt_state", os) :: ("step", get_or "step" (PNum 0) kw) :: rest))) (fields c)) o)
      = option_map (fun v => get_or k v (("opt_state", os) :: ("step", get_or "step" (PNum 0) kw) :: rest)) (assoc_get k (@fields A c))).
    { intros k. unfold field. cbn [s_fields]. apply (get_fun (fun k v => get_or k v (("opt_state", os) :: ("step", get_or "step" (PNum 0) kw) :: rest))). }
    rewrite !FT. split; [now destruct c|]. split; [now destruct c|]. split.
    + intros k d D N1 N2. rewrite FT, D. cbn [option_map]. f_equal. unfold get_or at 1. cbn [assoc_get].
      destruct (String.eqb_spec k "opt_state"); [contradiction|]. destruct (String.eqb_spec k "step"); [contradiction|].
      assert (J : In k (map fst (@fields A c))) by (apply get_in in D; now apply (in_map fst) in D).
      assert (R : assoc_get k rest = assoc_get k kw).
      { assert (R1 : assoc_get k rest = assoc_get k (without ["opt_state"; "apply_fn"; "tx"; "step"] kw)) by (unfold rest; destruct c; try reflexivity; now apply get_filter_field).
        rewrite R1, get_without. replace (mem k _) with false; [reflexivity|]. symmetry. unfold mem. cbn [existsb].
        destruct (String.eqb_spec k "opt_state"); [contradiction|]. destruct (String.eqb_spec k "step"); [contradiction|].
        destruct (String.eqb_spec k "apply_fn") as [->|]; [exfalso; destruct c; cbn in J; intuition discriminate|].
        destruct (String.eqb_spec k "tx") as [->|]; [exfalso; destruct c; cbn in J; intuition discriminate|]. reflexivity. }
      now rewrite R.
    + intros k N. rewrite FT. destruct (assoc_get k (@fields A c)) eqn:D; [|reflexivity]. exfalso. apply N. apply get_in in D. now apply (in_map fst) in D.
  - intros k. cbn [map fst In]. intros [<-|[<-|J]]; [apply base_in; cbn; tauto|apply base_in; cbn; tauto|now apply KR].
Qed.

(** calibration models read the states of posteriors *)
Lemma posterior_in_calib : forall A O (opt_init : O -> pv A -> pv A) (s : state A O) o,
  whole_state s -> posterior_class (s_cls s) ->
  exists t, restore_as opt_init CalibC (Checkpoint (save s)) o = Ok (Some t) /\ s_cls t = CalibC
    /\ forall k, In k ["params"; "mutable"; "calib_params"; "calib_mutable"; "step"; "encoded_name"] ->
       exists v w, field k s = Some v /\ field k t = Some w /\ looks_like v w.
Proof.
  intros A O opt_init s o W P. destruct (whole_params _ _ _ W) as (p & Fp & Dp).
  assert (NC : collections (s_cls s) = ["mutable"; "calib_params"; "calib_mutable"]) by (destruct (s_cls s); try reflexivity; exfalso; apply P; cbn; tauto).
  assert (C : forall k, In k ["mutable"; "calib_params"; "calib_mutable"] -> exists v, field k s = Some v /\ (v = PNone \/ is_dict v)) by (intros k I; apply (whole_collections _ _ _ W); now rewrite NC).
  destruct (C "mutable") as (m & Fm & Dm); [cbn; tauto|]. destruct (C "calib_params") as (cp & Fc & Dc); [cbn; tauto|].
  destruct (C "calib_mutable") as (cm & Fd & Dd); [cbn; tauto|].
  destruct (whole_field s "opt_state" W) as (os & Fos); [apply base_in; cbn; tauto|]. destruct (whole_field s "step" W) as (st & Fst); [apply base_in; cbn; tauto|].
  destruct (whole_field s "encoded_name" W) as (en & Fen); [apply base_in; cbn; tauto|].
  set (tl := without ["params"; "mutable"; "optimizer"; "calib_params"; "calib_mutable"] (save s)).
  set (kw := ("params", frozen (to_state_dict p)) :: ("mutable", frozen (to_state_dict m)) :: ("calib_params", frozen (to_state_dict cp)) :: ("calib_mutable", frozen (to_state_dict cm)) :: tl).
  assert (E : restore_as opt_init CalibC (Checkpoint (save s)) o = init opt_init CalibC o kw).
  { unfold restore_as, init_from_dict. rewrite (item_save s _ _ Fp), (item_save s _ _ Fm), (item_save s _ _ Fc), (item_save s _ _ Fd) by discriminate.
    cbn [bind]. rewrite (freeze_dict p Dp). cbn [bind]. rewrite (freeze_optional m Dm). cbn [bind]. rewrite (freeze_optional cp Dc). cbn [bind].
    rewrite (freeze_optional cm Dd). reflexivity. }
  assert (T : forall k v, field k s = Some v -> mem k ["params"; "mutable"; "optimizer"; "calib_params"; "calib_mutable"] = false -> k <> "grad_accumulated" -> assoc_get k tl = Some (to_state_dict v)).
  { intros k v F M N. unfold tl. rewrite get_without, M, get_save, F. cbn [option_map]. unfold saved. destruct (String.eqb_spec k "grad_accumulated"); [contradiction|reflexivity]. }
  pose proof (T _ _ Fos eq_refl ltac:(discriminate)) as Tos. pose proof (T _ _ Fst eq_refl ltac:(discriminate)) as Tst. pose proof (T _ _ Fen eq_refl ltac:(discriminate)) as Ten.
  destruct (init_makes A O opt_init CalibC kw (frozen (to_state_dict p)) o) as (t & I & Ct & _ & _ & Ht & G & _); [discriminate|reflexivity| |left; reflexivity|].
  - right. left. unfold kw. cbn [assoc_get String.eqb Ascii.eqb Bool.eqb]. rewrite Tos. discriminate.
  - exists t. split; [now rewrite E|]. split; [exact Ct|]. intros k J. cbn in J.
    assert (LF : forall v : pv A, looks_like v (frozen (to_state_dict v))) by (intros v; eapply looks_trans; [apply look_sd|apply look_frozen]).
    destruct J as [<-|[<-|[<-|[<-|[<-|[<-|[]]]]]]].
    + exists p, (frozen (to_state_dict p)). split; [exact Fp|]. split; [|apply LF]. rewrite (G "params" PNone) by (reflexivity || discriminate). reflexivity.
    + exists m, (frozen (to_state_dict m)). split; [exact Fm|]. split; [|apply LF]. rewrite (G "mutable" PNone) by (reflexivity || discriminate). reflexivity.
    + exists cp, (frozen (to_state_dict cp)). split; [exact Fc|]. split; [|apply LF]. rewrite (G "calib_params" PNone) by (reflexivity || discriminate). reflexivity.
    + exists cm, (frozen (to_state_dict cm)). split; [exact Fd|]. split; [|apply LF]. rewrite (G "calib_mutable" PNone) by (reflexivity || discriminate). reflexivity.
    + exists st, (to_state_dict st). split; [exact Fst|]. split; [|apply look_sd]. rewrite Ht. unfold get_or, kw. cbn [assoc_get String.eqb Ascii.eqb Bool.eqb]. now rewrite Tst.
    + exists en, (to_state_dict en). split; [exact Fen|]. split; [|apply look_sd]. rewrite (G "encoded_name" (encode_name "TrainState")) by (reflexivity || discriminate).
      unfold get_or, kw. cbn [assoc_get String.eqb Ascii.eqb Bool.eqb]. now rewrite Ten.
Qed.

(** the same with the names of the fields written out *)
Lemma default_eq {A} c k d : assoc_get k (@fields A c) = Some d -> k <> "opt_state" -> d = default_value c k.
Proof.
  intros G N. apply get_in in G. unfold default_value.
  destruct c; cbn in G; repeat (destruct G as [G|G]; [injection G as <- <-; reflexivity|]); contradiction.
Qed.
Lemma conversion_names : forall A O (opt_init : O -> pv A -> pv A) (s : state A O) o c which p m cp cm,
  In c [SwagC; SghmcC; CyclicalC] ->
  field "params" s = Some p -> field "mutable" s = Some m -> field "calib_params" s = Some cp -> field "calib_mutable" s = Some cm ->
  exists t, convert opt_init c s o which = Ok (Some t) /\ s_cls t = c /\ s_tx t = Some o
    /\ field "params" t = Some p /\ field "mutable" t = Some m /\ field "calib_params" t = Some cp /\ field "calib_mutable" t = Some cm
    /\ field "opt_state" t = Some (opt_init o p) /\ field "step" t = Some (PNum 0)
    /\ field "encoded_name" t = Some (default_value c "encoded_name")
    /\ field "_encoded_which_params" t = Some (match which with Some w => w | None => PNone end)
    /\ (forall k v, In k ["dynamic_scale"; "frozen_params"; "grad_accumulated"; "mean"; "std"; "dev"] -> field k t = Some v -> v = PNone)
    /\ map fst (s_fields t) = field_names c.
Proof.
  intros A O opt_init s o c which p m cp cm I P M C D.
  destruct (conversion A O opt_init s o c which p m cp cm I P M C D) as (t & H1 & H2 & H3 & H4 & H5 & H6 & H7 & H8 & H9 & H10 & H11 & H12 & H13).
  exists t. rewrite <- (@names_eq A). repeat (split; [assumption|]). split; [|now repeat (split; [assumption|])].
  rewrite H10. destruct I as [<-|[<-|[<-|[]]]]; reflexivity.
Qed.
Lemma replaced_names : forall A O (s t : state A O) vs, map fst (s_fields s) = field_names (s_cls s) -> replace s vs = Ok t ->
  s_cls t = s_cls s /\ s_tx t = s_tx s /\ forall k, field k t = match assoc_get k vs with Some v => Some v | None => field k s end.
Proof. intros A O s t vs E. rewrite <- (@names_eq A) in E. now apply replaced. Qed.
Lemma replace_unknown_names : forall A O (s : state A O) vs k v, In (k, v) vs -> ~ In k (field_names (s_cls s)) -> replace s vs = Err TypeError.
Proof. intros A O s vs k v I N. rewrite <- (@names_eq A) in N. now apply (replace_unknown A O s vs k v). Qed.
Lemma replace_known_names : forall A O (s : state A O) vs, (forall k, In k (map fst vs) -> In k (field_names (s_cls s))) -> exists t, replace s vs = Ok t.
Proof.
  intros A O s vs H. unfold replace. replace (forallb _ vs) with true; [eexists; reflexivity|]. symmetry. apply forallb_forall. intros [k v] I.
  apply has_field_in. rewrite names_eq. apply H. now apply (in_map fst) in I.
Qed.
Lemma init_makes_names : forall A O (opt_init : O -> pv A -> pv A) c kw p o,
  c <> TrainC -> assoc_get "params" kw = Some p -> o <> None \/ assoc_get "opt_state" kw <> None \/ c = OutputCalibC ->
  c = CalibC \/ (forall k, In k (map fst kw) -> In k (field_names c) \/ k = "apply_fn" \/ k = "tx") ->
  exists t, init opt_init c o kw = Ok (Some t) /\ s_cls t = c /\ s_tx t = o
    /\ field "opt_state" t = Some (match o, assoc_get "opt_state" kw with Some o, _ => opt_init o p | None, Some v => v | None, None => PNone end)
    /\ field "step" t = Some (match assoc_get "step" kw with Some v => v | None => PNum 0 end)
    /\ (forall k, In k (field_names c) -> k <> "opt_state" -> k <> "step" ->
         field k t = Some (match assoc_get k kw with Some v => v | None => default_value c k end))
    /\ (forall k, ~ In k (field_names c) -> field k t = None).
Proof.
  intros A O opt_init c kw p o NT P Q K.
  destruct (init_makes A O opt_init c kw p o NT P Q) as (t & H1 & H2 & H3 & H4 & H5 & H6 & H7).
  { destruct K as [K|K]; [now left|right]. intros k I. rewrite names_eq. now apply K. }
  exists t. split; [exact H1|]. split; [exact H2|]. split; [exact H3|]. split; [rewrite H4; unfold get_or; destruct o; [|destruct (assoc_get "opt_state" kw)]; reflexivity|].
  split; [exact H5|]. split.
  - intros k I N1 N2. rewrite <- (@names_eq A) in I. apply get_some in I. destruct I as (d & G). rewrite (H6 k d G N1 N2), (default_eq c k d G N1). reflexivity.
  - intros k N. apply H7. now rewrite names_eq.
Qed.
Lemma init_unknown_names : forall A O (opt_init : O -> pv A -> pv A) c kw p k v o,
  posterior_class c \/ c = OutputCalibC -> assoc_get "params" kw = Some p -> o <> None \/ assoc_get "opt_state" kw <> None ->
  In (k, v) kw -> ~ In k (field_names c) -> ~ In k ["apply_fn"; "tx"] -> init opt_init c o kw = Err TypeError.
Proof. intros A O opt_init c kw p k v o C P Q I N M. rewrite <- (@names_eq A) in N. now apply (init_unknown A O opt_init c kw p k v o). Qed.
