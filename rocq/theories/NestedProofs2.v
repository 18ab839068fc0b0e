From Coq Require Import List Arith Lia Bool String Ascii Permutation Sorting.
From Coq Require DecimalString DecimalNat DecimalFacts.
From Verif Require Import Lib NestedModel NestedSpec NestedProofs.
Import ListNotations.
Open Scope list_scope.
Local Notation length := List.length.

(** ---- nested_update ---- *)
Section Update.
Context {V : Type}.
Implicit Types (d t u : tree V) (p q : path).

Definition merge1 (v : tree V) (old : option (tree V)) : tree V :=
  match old with
  | Some (Dict o) => match v with Dict _ => update1 v (Dict o) | Leaf _ => v end
  | _ => v
  end.

Fixpoint update_kvs (ukvs acc : list (string * tree V)) : list (string * tree V) :=
  match ukvs with
  | [] => acc
  | (k, v) :: r => update_kvs r (assoc_set k (merge1 v (assoc_get k acc)) acc)
  end.

Lemma update1_dict ukvs kvs : update1 (Dict ukvs) (Dict kvs) = Dict (update_kvs ukvs kvs).
Proof. reflexivity. Qed.

Lemma update_kvs_get ukvs acc k : NoDup (map fst ukvs) ->
  assoc_get k (update_kvs ukvs acc) =
  match assoc_get k ukvs with
  | Some v => Some (merge1 v (assoc_get k acc))
  | None => assoc_get k acc
  end.
Proof.
  revert acc. induction ukvs as [|[k1 v1] ukvs IH]; intros acc ND; [reflexivity|].
  simpl in ND. inversion ND as [|? ? N1 N2]; subst. simpl update_kvs. simpl assoc_get.
  rewrite IH by assumption. destruct (String.eqb k k1) eqn:E.
  - apply String.eqb_eq in E. subst k1.
    assert (G : assoc_get k ukvs = None) by now apply get_none_notin.
    now rewrite G, get_set_same.
  - apply String.eqb_neq in E. now rewrite get_set_other.
Qed.

Lemma unique_dict kvs : unique_keys (Dict (V:=V) kvs) <->
  NoDup (map fst kvs) /\ Forall (fun kv => unique_keys (snd kv)) kvs.
Proof.
  simpl. split; intros (H & F); (split; [exact H|]); clear H.
  - induction kvs as [|[k v] kvs IH]; constructor; simpl; tauto.
  - induction kvs as [|[k v] kvs IH]; [exact I|]. inversion F; subst. simpl in *. tauto.
Qed.

Lemma unique_get kvs k v : unique_keys (Dict (V:=V) kvs) -> assoc_get k kvs = Some v -> unique_keys v.
Proof.
  intros U G. apply unique_dict in U. destruct U as (_ & F). rewrite Forall_forall in F.
  apply get_in in G. exact (F _ G).
Qed.

Lemma update1_leaf u d q v : unique_keys u -> at_path u q = Some (Leaf v) ->
  at_path (update1 u d) q = Some (Leaf v).
Proof.
  revert u d. induction q as [|k ks IH]; intros u d U H.
  - simpl in H. injection H as ->. reflexivity.
  - destruct u as [x|ukvs]; [discriminate|]. destruct d as [y|kvs]; [exact H|].
    rewrite update1_dict, at_cons, update_kvs_get by (now apply unique_dict in U).
    rewrite at_cons in H. destruct (assoc_get k ukvs) as [w|] eqn:G; [|discriminate].
    pose proof (unique_get _ _ _ U G) as Uw. unfold merge1.
    destruct (assoc_get k kvs) as [[?|o]|]; [exact H| |exact H].
    destruct w as [?|wk]; [exact H|]. now apply IH.
Qed.

Lemma update1_keep u d q t : unique_keys u -> at_path d q = Some t -> at_path u q = None ->
  (forall p v, prefix_of p q -> at_path u p <> Some (Leaf v)) ->
  at_path (update1 u d) q = Some t.
Proof.
  revert u d. induction q as [|k ks IH]; intros u d U Hd Hu L; [discriminate|].
  destruct d as [y|kvs]; [discriminate|].
  destruct u as [x|ukvs]; [exfalso; apply (L [] x); [apply prefix_nil|reflexivity]|].
  rewrite update1_dict, at_cons, update_kvs_get by (now apply unique_dict in U).
  rewrite at_cons in Hu, Hd.
  destruct (assoc_get k ukvs) as [w|] eqn:G; [|exact Hd].
  pose proof (unique_get _ _ _ U G) as Uw.
  destruct (assoc_get k kvs) as [z|]; [|discriminate].
  destruct w as [x|wk].
  { exfalso. apply (L [k] x); [apply prefix_cons, prefix_nil|]. now rewrite at_cons, G. }
  destruct ks as [|k2 ks]; [discriminate|]. destruct z as [x|o]; [discriminate|].
  change (at_path (update1 (Dict wk) (Dict o)) (k2 :: ks) = Some t). apply IH; auto.
  intros p v P. specialize (L (k :: p) v). rewrite at_cons, G in L. apply L. now apply prefix_cons.
Qed.

Lemma update1_source u d q v : unique_keys u -> at_path (update1 u d) q = Some (Leaf v) ->
  at_path u q = Some (Leaf v) \/ at_path d q = Some (Leaf v).
Proof.
  revert u d. induction q as [|k ks IH]; intros u d U H.
  - destruct u as [x|ukvs]; [now left|]. destruct d as [y|kvs]; [now left|]. discriminate.
  - destruct u as [x|ukvs]; [discriminate|]. destruct d as [y|kvs]; [now left|].
    rewrite update1_dict, at_cons, update_kvs_get in H by (now apply unique_dict in U).
    rewrite !at_cons. destruct (assoc_get k ukvs) as [w|] eqn:G; [|now right].
    pose proof (unique_get _ _ _ U G) as Uw. unfold merge1 in H.
    destruct (assoc_get k kvs) as [[?|o]|]; [now left| |now left].
    destruct w as [?|wk]; [now left|]. now apply IH.
Qed.

Lemma update1_domain u d q : unique_keys u -> at_path (update1 u d) q <> None ->
  at_path u q <> None \/ at_path d q <> None.
Proof.
  revert u d. induction q as [|k ks IH]; intros u d U H; [left; discriminate|].
  destruct u as [x|ukvs]; [exfalso; now apply H|]. destruct d as [y|kvs]; [now left|].
  rewrite update1_dict, at_cons, update_kvs_get in H by (now apply unique_dict in U).
  rewrite !at_cons. destruct (assoc_get k ukvs) as [w|] eqn:G; [|now right].
  pose proof (unique_get _ _ _ U G) as Uw. unfold merge1 in H.
  destruct (assoc_get k kvs) as [[?|o]|]; [now left| |now left].
  destruct w as [?|wk]; [now left|]. now apply IH.
Qed.

Lemma nested_update_last d us u q v : unique_keys u -> at_path u q = Some (Leaf v) ->
  at_path (nested_update d (us ++ [u])) q = Some (Leaf v).
Proof. intros U H. unfold nested_update. rewrite fold_left_app. simpl. now apply update1_leaf. Qed.

Lemma nested_update_keep d us q t : Forall unique_keys us -> at_path d q = Some t ->
  Forall (fun u => at_path u q = None /\ forall p v, prefix_of p q -> at_path u p <> Some (Leaf v)) us ->
  at_path (nested_update d us) q = Some t.
Proof.
  revert d. induction us as [|u us IH]; intros d U H F; [exact H|].
  inversion U as [|? ? U1 U2]; subst. inversion F as [|? ? (F1 & F1') F2]; subst.
  simpl. apply IH; auto. now apply update1_keep.
Qed.

Lemma nested_update_source d us q v : Forall unique_keys us ->
  at_path (nested_update d us) q = Some (Leaf v) ->
  Exists (fun s => at_path s q = Some (Leaf v)) (us ++ [d]).
Proof.
  revert d. induction us as [|u us IH]; intros d U H; [now left|].
  inversion U as [|? ? U1 U2]; subst. simpl in H. apply IH in H; [|assumption].
  apply Exists_app in H. destruct H as [H|H]; [right; apply Exists_app; now left|].
  inversion H as [? ? H'|? ? H']; subst; [|inversion H'].
  apply update1_source in H'; [|assumption].
  destruct H' as [H'|H']; [now left|right; apply Exists_app; right; now left].
Qed.

Lemma nested_update_empty d : (exists kvs, d = Dict kvs) -> nested_update d [Dict []] = d.
Proof. intros (kvs & ->). reflexivity. Qed.

Lemma nested_update_seq d us1 us2 : nested_update d (us1 ++ us2) = nested_update (nested_update d us1) us2.
Proof. unfold nested_update. apply fold_left_app. Qed.

(** ---- find_one_path_to_key ---- *)
Fixpoint find_kvs (kvs : list (string * tree V)) (key : string) (keys : path) : path :=
  match kvs with
  | [] => keys
  | (k, v) :: r =>
      if String.eqb k key then keys ++ [k]
      else match v with
           | Dict _ => let tmp := find_path v key (keys ++ [k]) in
                       if existsb (String.eqb key) tmp then tmp else find_kvs r key keys
           | Leaf _ => find_kvs r key keys
           end
  end.

Lemma find_dict kvs key keys : find_path (Dict kvs) key keys = find_kvs kvs key keys.
Proof. induction kvs as [|[k v] r IH]; simpl; [reflexivity|]. simpl in IH. now rewrite <- IH. Qed.

Lemma tree_rect' (P : tree V -> Prop) :
  (forall v, P (Leaf v)) -> (forall kvs, Forall (fun kv => P (snd kv)) kvs -> P (Dict kvs)) -> forall t, P t.
Proof.
  intros H1 H2. fix F 1. intros [v|kvs]; [apply H1|]. apply H2.
  induction kvs as [|[k t] kvs IH]; constructor; [apply F|exact IH].
Qed.

Definition found (t : tree V) (key : string) (r : path) : Prop :=
  (r = [] /\ ~ key_occurs t key) \/
  (exists s v, r = s ++ [key] /\ ~ In key s /\ at_path t r = Some v).

Lemma found_occurs t key r : found t key r -> (r <> [] <-> key_occurs t key).
Proof.
  intros [(-> & H)|(s & v & -> & _ & H)].
  - split; [congruence|contradiction].
  - split; [intros _; exists s, v; exact H|]. intros _ E. apply app_eq_nil in E. destruct E. discriminate.
Qed.

Lemma existsb_in key l : existsb (String.eqb key) l = true <-> In key l.
Proof.
  rewrite existsb_exists. split.
  - intros (x & H & E). apply String.eqb_eq in E. now subst.
  - intros H. exists key. split; [assumption|apply String.eqb_refl].
Qed.

Lemma occurs_leaf v key : ~ key_occurs (Leaf (V:=V) v) key.
Proof. intros (q & t & H). destruct q; discriminate. Qed.

Lemma occurs_dict kvs key : NoDup (map fst kvs) ->
  (key_occurs (Dict (V:=V) kvs) key <-> Exists (fun kv => fst kv = key \/ key_occurs (snd kv) key) kvs).
Proof.
  intros ND. rewrite Exists_exists. split.
  - intros (q & t & H). destruct q as [|k q].
    + simpl app in H. rewrite at_cons in H. destruct (assoc_get key kvs) as [w|] eqn:G; [|discriminate].
      exists (key, w). split; [now apply get_in|now left].
    + rewrite <- app_comm_cons, at_cons in H. destruct (assoc_get k kvs) as [w|] eqn:G; [|discriminate].
      exists (k, w). split; [now apply get_in|]. right. now exists q, t.
  - intros ([k w] & Hin & [E|(q & t & H)]); simpl in *.
    + subst k. exists [], w. simpl app. rewrite at_cons. now rewrite (in_get _ _ _ ND Hin).
    + exists (k :: q), t. rewrite <- app_comm_cons, at_cons. now rewrite (in_get _ _ _ ND Hin).
Qed.

Lemma find_path_spec t key : unique_keys t -> forall keys, ~ In key keys ->
  exists r, find_path t key keys = keys ++ r /\ found t key r.
Proof.
  induction t as [v|kvs IH] using tree_rect'; intros U keys NI.
  - exists []. rewrite app_nil_r. split; [reflexivity|]. left. split; [reflexivity|apply occurs_leaf].
  - rewrite find_dict. apply unique_dict in U. destruct U as (ND & U).
    (* generalise over the suffix still to be searched *)
    assert (G : forall pre kvs', kvs = pre ++ kvs' ->
       Forall (fun kv => fst kv <> key /\ ~ key_occurs (snd kv) key) pre ->
       exists r, find_kvs kvs' key keys = keys ++ r /\ found (Dict kvs) key r).
    { intros pre kvs'. revert pre. induction kvs' as [|[k v] kvs' IHk]; intros pre E F.
      - exists []. rewrite app_nil_r in *. split; [reflexivity|]. left. split; [reflexivity|].
        rewrite occurs_dict by assumption. rewrite E. intros X. rewrite Exists_exists in X.
        destruct X as (x & Hx & X). rewrite Forall_forall in F. destruct (F x Hx). tauto.
      - assert (Hin : In (k, v) kvs) by (rewrite E; apply in_elt).
        simpl. destruct (String.eqb k key) eqn:Ek.
        + apply String.eqb_eq in Ek. subst k. exists [key]. split; [reflexivity|]. right.
          exists [], v. split; [reflexivity|]. split; [intros []|]. rewrite at_cons.
          now rewrite (in_get _ _ _ ND Hin).
        + apply String.eqb_neq in Ek.
          assert (Skip : ~ key_occurs v key -> exists r, find_kvs kvs' key keys = keys ++ r /\ found (Dict kvs) key r).
          { intros NO. apply (IHk (pre ++ [(k, v)])).
            - now rewrite <- app_assoc.
            - apply Forall_app. split; [exact F|]. constructor; [now split|constructor]. }
          destruct v as [x|vk] eqn:Ev; [apply Skip, occurs_leaf|].
          rewrite Forall_forall in IH, U.
          destruct (IH _ Hin (U _ Hin) (keys ++ [k])) as (r & R & Fr).
          { rewrite in_app_iff. intros [H|[H|[]]]; [tauto|congruence]. }
          simpl snd in R. cbv zeta. rewrite R.
          destruct Fr as [(-> & NO)|(s & w & -> & Ns & A)].
          * assert (X : existsb (String.eqb key) ((keys ++ [k]) ++ []) = false).
            { destruct (existsb _ _) eqn:X; [|reflexivity]. apply existsb_in in X.
              rewrite app_nil_r, in_app_iff in X. destruct X as [X|[X|[]]]; [tauto|congruence]. }
            rewrite X. now apply Skip.
          * assert (X : existsb (String.eqb key) ((keys ++ [k]) ++ s ++ [key]) = true).
            { apply existsb_in. rewrite !in_app_iff. right. right. now left. }
            rewrite X. exists (k :: s ++ [key]). split; [now rewrite <- app_assoc|]. right.
            exists (k :: s), w. split; [reflexivity|]. split; [intros [H|H]; [congruence|tauto]|].
            rewrite at_cons, (in_get _ _ _ ND Hin). exact A. }
    apply (G [] kvs); [reflexivity|constructor].
Qed.
End Update.

(** ---- strings ---- *)
Lemma of_to_codes s : of_codes (to_codes s) = s.
Proof.
  unfold of_codes, to_codes. rewrite map_map.
  rewrite (map_ext _ (fun x => x) ascii_nat_embedding), map_id. apply string_of_list_ascii_of_string.
Qed.

Lemma decode_encode a : decode (encode a) = a.
Proof.
  destruct a as [a|]; [|reflexivity]. simpl. f_equal. rewrite map_map.
  rewrite <- (map_id a) at 2. apply map_ext. intros p. rewrite map_map.
  rewrite <- (map_id p) at 2. apply map_ext, of_to_codes.
Qed.

Lemma sort_state_dict {A} (l : list A) : length l <= 10 ->
  sort_keys (list_to_state_dict l) = list_to_state_dict l.
Proof.
  intros H. do 11 (destruct l as [|? l]; [reflexivity|]). exfalso. simpl in H. lia.
Qed.

Lemma snd_state_dict {A} (l : list A) : map snd (list_to_state_dict l) = l.
Proof.
  unfold list_to_state_dict. assert (L : length (map decimal (seq 0 (length l))) = length l)
    by now rewrite map_length, seq_length.
  revert L. generalize (map decimal (seq 0 (length l))). intros ks. revert ks.
  induction l as [|a l IH]; intros [|k ks] L; simpl in *; try discriminate; [reflexivity|].
  now rewrite IH by congruence.
Qed.

Lemma map_snd_state_dict {A B} (f : A -> B) l : map (fun kv => f (snd kv)) (list_to_state_dict l) = map f l.
Proof. rewrite <- (snd_state_dict l) at 2. now rewrite map_map. Qed.

Lemma state_dict_values {A} (x : string * A) (l : list A) : In x (list_to_state_dict l) -> In (snd x) l.
Proof. destruct x. apply in_combine_r. Qed.

Lemma decode_checkpoint a : length a <= 10 -> Forall (fun p => length p <= 10) a ->
  decode (option_map via_checkpoint (encode (Some a))) = Some a.
Proof.
  intros L F. simpl. f_equal. rewrite sort_state_dict by (now rewrite !map_length).
  assert (E : forall x, In x (list_to_state_dict (map list_to_state_dict (map (map to_codes) a))) ->
     map (fun kv' => of_codes (snd kv')) (sort_keys (snd x)) = map (fun kv' => of_codes (snd kv')) (snd x)).
  { intros x Hx. apply state_dict_values in Hx. rewrite map_map in Hx. apply in_map_iff in Hx.
    destruct Hx as (p & <- & Hp). rewrite sort_state_dict; [reflexivity|].
    rewrite map_length. rewrite Forall_forall in F. now apply F. }
  rewrite (map_ext_in _ _ _ E). rewrite (map_snd_state_dict (fun v => map (fun kv' => of_codes (snd kv')) v)).
  rewrite !map_map. rewrite <- (map_id a) at 2. apply map_ext. intros p.
  rewrite map_snd_state_dict, map_map. rewrite <- (map_id p) at 2. apply map_ext, of_to_codes.
Qed.

(** in general the paths come back as a permutation, each path's keys permuted *)
Lemma insert_key_perm {A} (p : string * A) l : Permutation (p :: l) (insert_key p l).
Proof.
  induction l as [|q l IH]; simpl; [reflexivity|]. destruct (string_leb _ _); [reflexivity|].
  transitivity (q :: p :: l); [apply perm_swap|]. now apply perm_skip.
Qed.

Lemma sort_keys_perm {A} (l : list (string * A)) : Permutation l (sort_keys l).
Proof.
  induction l as [|p l IH]; simpl; [constructor|]. rewrite IH at 1. apply insert_key_perm.
Qed.

Lemma decode_checkpoint_perm a : exists b, decode (option_map via_checkpoint (encode (Some a))) = Some b /\
  exists c, Permutation a c /\ Forall2 (@Permutation string) c b.
Proof.
  simpl. eexists. split; [reflexivity|].
  set (D := list_to_state_dict (map list_to_state_dict (map (map to_codes) a))).
  exists (map (fun kv => map (fun kv' => of_codes (snd kv')) (snd kv)) (sort_keys D)). split.
  - rewrite <- (Permutation_map _ (sort_keys_perm D)). unfold D.
    rewrite (map_snd_state_dict (fun v => map (fun kv' => of_codes (snd kv')) v)).
    rewrite !map_map. rewrite <- (map_id a) at 1.
    erewrite map_ext; [reflexivity|]. intros p. cbv beta.
    rewrite map_snd_state_dict, map_map. rewrite <- (map_id p) at 1. apply map_ext. intros s. now rewrite of_to_codes.
  - induction (sort_keys D) as [|x l IH]; simpl; constructor; [|exact IH].
    apply Permutation_map, sort_keys_perm.
Qed.

Lemma decimal_inj n m : decimal n = decimal m -> n = m.
Proof.
  unfold decimal. intros H.
  assert (U : forall k, DecimalString.NilZero.uint_of_string (DecimalString.NilZero.string_of_uint (Nat.to_uint k)) = Some (Nat.to_uint k)).
  { intros k. apply DecimalString.NilZero.usu. intros E. rewrite <- (DecimalNat.Unsigned.of_to k), DecimalNat.Unsigned.to_of in E. exact (DecimalFacts.unorm_nonnil _ E). }
  assert (E : Some (Nat.to_uint n) = Some (Nat.to_uint m)) by (rewrite <- !U; now rewrite H).
  injection E as E. apply (f_equal Nat.of_uint) in E. now rewrite !DecimalNat.Unsigned.of_to in E.
Qed.

Lemma find_path_top {V} (t : tree V) key : unique_keys t ->
  (key_occurs t key ->
     exists s v, find_path t key [] = s ++ [key] /\ ~ In key s /\ at_path t (find_path t key []) = Some v) /\
  (~ key_occurs t key -> find_path t key [] = []).
Proof.
  intros U. destruct (find_path_spec t key U []) as (r & R & F); [intros []|].
  simpl in R. rewrite R. split.
  - intros O. destruct F as [(_ & N)|F]; [contradiction|exact F].
  - intros N. destruct F as [(E & _)|(s & v & E & _ & A)]; [exact E|]. exfalso. apply N. exists s, v.
    now rewrite <- E.
Qed.

Lemma nested_set_one {V} allow (d : tree V) p o : nested_set d [p] [o] allow = set_path allow d p o.
Proof. unfold nested_set. simpl. now destruct (set_path allow d p o). Qed.

Lemma nested_set_above {V} (d d' : tree V) p o q r :
  nested_set d [p] [o] false = Ok d' -> p = q ++ r -> r <> [] ->
  exists kvs kvs', at_path d q = Some (Dict kvs) /\ at_path d' q = Some (Dict kvs') /\
                   map fst kvs' = map fst kvs.
Proof. rewrite nested_set_one. apply set_read_above. Qed.

Lemma nested_set_create {V} (d : tree V) p o : p <> [] ->
  ((exists d', nested_set d [p] [o] true = Ok d') <->
   (forall q r v, p = q ++ r -> r <> [] -> at_path d q <> Some (Leaf v))).
Proof.
  intros N. rewrite nested_set_one. split.
  - intros (d' & H) q r v E Nr A. pose proof (set_allow_err d p o q r v E Nr A true) as X.
    rewrite H in X. discriminate.
  - now apply set_allow_ok.
Qed.

Lemma nested_set_keyerror {V} (d : tree V) p o : p <> [] -> at_path d p = None ->
  (forall q r v, p = q ++ r -> r <> [] -> at_path d q <> Some (Leaf v)) ->
  nested_set d [p] [o] false = Err KeyError.
Proof. rewrite nested_set_one. apply set_missing_keyerror. Qed.
