From Coq Require Import List Arith Lia Bool String Permutation Sorting.Sorted.
From Verif Require Import Lib NestedModel NestedSpec NestedProofs NestedProofs2 FreezeModel FreezeSpec FreezeProofs LapModel LapSpec LapProofs LapProofs3 FlatModel FlatSpec FlatProofs FlatProofs2 FlatProofs3.
Import ListNotations.
Open Scope list_scope.
Local Notation length := List.length.
Local Notation concat := List.concat.

Section Wrap.
Context {V : Type}.
Notation ptree := (tree (list V)).
Definition wkv (kv : string * ptree) : string * ptree := (fst kv, Dict [("params"%string, snd kv)]).
Definition parts (cs : list (string * ptree)) (l : list V) : list (string * ptree) := fst (thread (readers (sort_keys cs)) l).

Lemma cut_params (v : ptree) l : cut_tree (Dict [("params"%string, v)]) l = (Dict [("params"%string, fst (cut_tree v l))], snd (cut_tree v l)).
Proof. rewrite cut_dict. unfold readers. cbn [sort_keys fold_right insert_key map fst snd thread]. destruct (cut_tree v l). reflexivity. Qed.
Lemma thread_wrap L : forall l, thread (readers (map wkv L)) l = (map wkv (fst (thread (readers L) l)), snd (thread (readers L) l)).
Proof.
  induction L as [|[k v] L IH]; intros l; [reflexivity|]. cbn [map]. unfold wkv at 1. cbn [fst snd]. rewrite !thread_cons, cut_params. cbn [fst snd map]. rewrite IH. reflexivity.
Qed.
Lemma sort_wrap (cs : list (string * ptree)) : sort_keys (map wkv cs) = map wkv (sort_keys cs).
Proof. apply (sort_map (fun v : ptree => Dict [("params"%string, v)])). Qed.
Lemma cut_wrap (cs : list (string * ptree)) l : fst (cut_tree (wrap cs) l) = wrap (parts cs l).
Proof. unfold wrap. fold wkv. change (map (fun kv : string * ptree => (fst kv, Dict [("params"%string, snd kv)]))) with (map wkv). rewrite cut_dict, sort_wrap, thread_wrap. reflexivity. Qed.
Lemma ravel_wrap (cs : list (string * ptree)) : ravel (wrap cs) = ravel (Dict cs).
Proof.
  unfold wrap. change (map (fun kv : string * ptree => (fst kv, Dict [("params"%string, snd kv)]))) with (map wkv). rewrite !ravel_dict, sort_wrap, map_map. f_equal. apply map_ext. intros [k v].
  cbn [wkv fst snd]. rewrite ravel_dict. cbn [sort_keys fold_right insert_key map snd concat]. apply app_nil_r.
Qed.
Lemma unwrap_wrap (cs : list (string * ptree)) : unwrap (wrap cs) = Ok cs.
Proof. unfold wrap, unwrap. induction cs as [|[k v] cs IH]; [reflexivity|]. cbn [map mapM fst snd sub_get assoc_get String.eqb Ascii.eqb Bool.eqb rmap bind]. rewrite IH. reflexivity. Qed.
Lemma parts_dict (cs : list (string * ptree)) l : Dict (parts cs l) = fst (cut_tree (Dict cs) l).
Proof. rewrite cut_dict. reflexivity. Qed.
Lemma parts_keys (cs : list (string * ptree)) l : map fst (parts cs l) = map fst (sort_keys cs).
Proof. apply thread_keys. Qed.
Lemma unravel_wrap (cs : list (string * ptree)) l : length l = length (ravel (Dict cs)) -> unravel (wrap cs) l = Ok (wrap (parts cs l)).
Proof. intros H. rewrite unravel_ok by now rewrite ravel_wrap. now rewrite cut_wrap. Qed.
Lemma unique_wrap (cs : list (string * ptree)) : unique_keys (Dict cs) -> unique_keys (wrap cs).
Proof.
  intros U. apply unique_dict in U. destruct U as [ND F]. apply unique_dict. rewrite map_map. cbn [fst]. split; [exact ND|]. rewrite Forall_map. cbn [snd]. eapply Forall_impl; [|exact F].
  intros [k v] U. apply unique_dict. split; [repeat constructor; intros []|]. repeat constructor. exact U.
Qed.
Lemma ravel_parts (cs : list (string * ptree)) l : unique_keys (Dict cs) -> length l = length (ravel (Dict cs)) -> ravel (Dict (parts cs l)) = l.
Proof. intros U H. rewrite parts_dict. now apply ravel_cut. Qed.

(** the structure of a tree cut out of a vector *)
Lemma cut_cut (t : ptree) : unique_keys t -> forall l0 l, length (ravel t) <= length l0 -> cut_tree (fst (cut_tree t l0)) l = cut_tree t l.
Proof.
  induction t as [v|kvs IH] using tree_rect'; intros U l0 l H.
  - cbn [cut_tree fst ravel] in *. rewrite firstn_length, Nat.min_l by lia. reflexivity.
  - apply unique_dict in U. destruct U as [ND F]. rewrite (cut_dict kvs l0). cbn [fst]. rewrite !cut_dict. rewrite ravel_dict in H.
    assert (S := sort_sorted kvs ND).
    rewrite (sort_sorted_id (fst (thread (readers (sort_keys kvs)) l0))) by (apply (sorted_keys (sort_keys kvs)); [now rewrite thread_keys|exact S]).
    assert (A : Forall (fun kv : string * ptree => unique_keys (snd kv) /\ forall l0 l, length (ravel (snd kv)) <= length l0 -> cut_tree (fst (cut_tree (snd kv) l0)) l = cut_tree (snd kv) l) (sort_keys kvs)).
    { apply Forall_sort. rewrite Forall_forall in *. intros x Hx. split; [now apply F|]. apply IH; [exact Hx|now apply F]. }
    assert (E : thread (readers (fst (thread (readers (sort_keys kvs)) l0))) l = thread (readers (sort_keys kvs)) l).
    { clear IH ND F S. revert l0 l H. induction A as [|[k v] L [U Hv] _ IHL]; intros l0 l H; [reflexivity|]. rewrite (thread_cons k v L l0). cbn [fst snd map concat] in *. rewrite app_length in H.
      rewrite !thread_cons. rewrite (Hv l0 l) by lia. rewrite IHL; [reflexivity|].
      destruct (cut_tree_leaves v U l0) as [_ ->]. rewrite skipn_length, total_ravel. lia. }
    now rewrite E.
Qed.
Lemma unravel_cut (t : ptree) l0 l : unique_keys t -> length l0 = length (ravel t) -> unravel (fst (cut_tree t l0)) l = unravel t l.
Proof. intros U H. unfold unravel. rewrite (ravel_cut t l0 U H), H, cut_cut; [reflexivity|assumption|lia]. Qed.

Lemma pair_same (a b : list (string * ptree)) : map fst a = map fst b -> NoDup (map fst a) -> exists d, pair_components a b = Ok d /\ first_components d = a /\ second_components d = b.
Proof.
  intros E ND. unfold pair_components.
  assert (X : forall a b c : list (string * ptree), map fst a = map fst b -> (forall k v, In (k, v) b -> assoc_get k c = Some v) ->
    exists d, mapM (fun kv => match assoc_get (fst kv) c with Some h => Ok (fst kv, (snd kv, h)) | None => Err KeyError end) a = Ok d /\ first_components d = a /\ second_components d = b).
  { clear. induction a as [|[k v] a IH]; intros [|[k' w] b] c E H; cbn [map fst] in E; try discriminate; [exists []; auto|]. injection E as <- E.
    cbn [mapM fst snd]. rewrite (H k w (or_introl eq_refl)). cbn [bind]. destruct (IH b c E) as (d & -> & E1 & E2); [intros; apply H; now right|].
    exists ((k, (v, w)) :: d). cbn [bind rmap first_components second_components map fst snd]. split; [reflexivity|]. split; f_equal; assumption. }
  apply X; [exact E|]. intros k v H. apply in_get; [congruence|exact H].
Qed.
End Wrap.

(** C118, without freeze function *)
Lemma advi_plain : forall V (fwd : V -> V -> V -> V) (init : list (string * tree (list V))) mean log_std noise, unique_keys (Dict init) ->
  length mean = length (ravel (wrap init)) -> length log_std = length (ravel (wrap init)) -> length noise = length (ravel (wrap init)) ->
  exists state sample N, advi_state init mean log_std = Ok state /\
    same_structure (wrap init) (wrap (first_components state)) /\ ravel (wrap (first_components state)) = mean /\
    same_structure (wrap init) (wrap (second_components state)) /\ ravel (wrap (second_components state)) = log_std /\
    advi_sample fwd init state noise = Ok sample /\ same_structure (wrap init) sample /\ unravel (wrap init) noise = Ok N /\
    (forall q v, leaf_at sample q v -> exists m s u, leaf_at (wrap (first_components state)) q m /\ leaf_at (wrap (second_components state)) q s /\ leaf_at N q u /\ pointwise fwd m s u v) /\
    advi_sample fwd (advi_loaded_shape state) state noise = Ok sample.
Proof.
  intros V fwd init mean log_std noise U H1 H2 H3. rewrite ravel_wrap in *. pose proof (unique_wrap init U) as UW.
  assert (ND : NoDup (map fst (sort_keys init))). { apply unique_dict in U. apply (Permutation_NoDup (Permutation_map fst (sort_keys_perm init)) (proj1 U)). }
  destruct (pair_same (parts init mean) (parts init log_std)) as (state & E & E1 & E2); [now rewrite !parts_keys|now rewrite parts_keys|].
  assert (LF : length (forward fwd mean log_std noise) = length (ravel (Dict init))) by (rewrite forward_length; congruence).
  exists state, (wrap (parts init (forward fwd mean log_std noise))), (wrap (parts init noise)). rewrite E1, E2.
  assert (SS : forall l, length l = length (ravel (Dict init)) -> same_structure (wrap init) (wrap (parts init l))). { intros l _. rewrite <- cut_wrap. now apply cut_tree_structure. }
  assert (SA : advi_sample fwd init state noise = Ok (wrap (parts init (forward fwd mean log_std noise)))).
  { unfold advi_sample. rewrite E1, E2, !ravel_parts by assumption. now apply unravel_wrap. }
  split. { unfold advi_state. rewrite !unravel_wrap by assumption. cbn [bind]. rewrite !unwrap_wrap. cbn [bind]. exact E. }
  split; [now apply SS|]. split; [rewrite ravel_wrap; now apply ravel_parts|]. split; [now apply SS|]. split; [rewrite ravel_wrap; now apply ravel_parts|].
  split; [exact SA|]. split; [now apply SS|]. split; [now apply unravel_wrap|]. split.
  - intros q v Hq. apply (flat_arithmetic V fwd (wrap init) _ _ _ (wrap (parts init (forward fwd mean log_std noise))) mean log_std noise); auto; try congruence; now apply unravel_wrap.
  - rewrite <- SA. unfold advi_sample, advi_loaded_shape. rewrite E1, E2. rewrite <- (cut_wrap init mean). apply unravel_cut; [exact UW|now rewrite ravel_wrap].
Qed.

(** C119: SWAG with freeze function *)
Lemma swag_sorted : forall V (params T T' : tree (list V)) paths, Forall (fun p => p <> [] /\ exists v, leaf_at params p v) paths -> StronglySorted path_lt paths ->
  extract params paths = Ok T -> unique_keys T' -> same_sizes T T' ->
  exists sample, swag_sample_paths params paths (swag_flat T') = Ok sample /\
    (forall p v, In p paths -> (leaf_at sample p v <-> leaf_at T' p v)) /\ same_outside paths sample params.
Proof.
  intros V params T T' paths L SP E U' SZ. assert (ND := sorted_nodup _ SP).
  assert (LP : leaf_paths params paths) by (split; assumption). destruct (extract_spec params paths LP) as (X & E' & UX & _ & A & _). assert (X = T) by congruence. subst X.
  assert (K : map fst (sleaves T') = paths).
  { apply sorted_unique; [now apply sleaves_sorted|exact SP|]. apply NoDup_Permutation; [apply sorted_nodup; now apply sleaves_sorted|exact ND|]. intros p. rewrite in_map_iff. split.
    - intros ([q v] & <- & H). apply (sleaves_at T' q v U') in H. destruct (proj2 (SZ q (length v))) as (w & Hw & _); [now exists v|]. apply A in Hw. apply Hw.
    - intros H. rewrite Forall_forall in L. destruct (L p H) as [_ [v Hv]]. destruct (proj1 (SZ p (length v))) as (w & Hw & _); [exists v; split; [apply A; now split|reflexivity]|].
      exists (p, w). split; [reflexivity|]. now apply sleaves_at. }
  (* the arrays of params at these paths *)
  assert (AR : arrays_at params paths (map (fun pv => length (snd pv)) (sleaves T'))).
  { split; [exact ND|]. rewrite <- K. clear K. assert (G : Forall (fun pv => In (fst pv) paths /\ exists v, leaf_at params (fst pv) v /\ length v = length (snd pv)) (sleaves T')).
    { apply Forall_forall. intros [p w] H. apply (sleaves_at T' p w U') in H. destruct (proj2 (SZ p (length w))) as (v & Hv & Lv); [now exists w|]. apply A in Hv. cbn [fst snd]. split; [apply Hv|]. exists v. split; [apply Hv|exact Lv]. }
    induction G as [|[p w] s [I G] _ IH]; cbn [map fst snd] in *; constructor; [|exact IH]. rewrite Forall_forall in L. split; [apply (L p I)|exact G]. }
  destruct (arrays_reads _ _ _ AR) as (pos & KP & KS & R).
  assert (C : cut pos (concat (map snd (sleaves T'))) = sleaves T'). { rewrite (in_cut_sizes pos (sleaves T')); [apply cut_self|exact KS|]. rewrite KP. now symmetry. }
  assert (LT : length (swag_flat T') = total pos). { unfold swag_flat. rewrite <- total_ravel, !total_sizes, KS. reflexivity. }
  destruct (unravel_paths_ok params pos (swag_flat T') R LT) as (sample & ES & RS & OS & _).
  unfold swag_flat in RS. rewrite ravel_sleaves, C in RS. exists sample. rewrite KP in ES, OS. split; [exact ES|]. split; [|exact OS].
  intros p v I. destruct RS as [_ F]. rewrite Forall_forall in F. split; intros H.
  - rewrite <- K in I. apply in_map_iff in I. destruct I as ([q w] & <- & I). destruct (F _ I) as [_ B]. cbn [fst snd] in B, H |- *. assert (v = w) by (unfold leaf_at in *; congruence). subst w. now apply sleaves_at.
  - apply (sleaves_at T' p v U') in H. apply (F _ H).
Qed.

(** C120 *)
Lemma zip3_pointwise : forall V (f : V -> V -> V -> V) a b c, length b = length a -> length c = length a -> pointwise f a b c (zip3 f a b c).
Proof.
  intros V f a. unfold pointwise. induction a as [|x a IH]; intros [|y b] [|z c] H1 H2; try discriminate.
  - repeat split. intros [|i]; discriminate.
  - injection H1 as H1. injection H2 as H2. destruct (IH b c H1 H2) as (L & _ & _ & N). cbn [length zip3]. repeat split; try congruence. intros [|i] x0 y0 z0; cbn [nth_error]; [congruence|apply N].
Qed.

Lemma laplace_paths : forall V (draw : V -> V -> V -> V) (mean noise : tree (list V)) (hess : list (path * list V)) decoded, NoDup (map fst hess) ->
  Forall (fun ph => fst ph <> [] /\ exists m e, leaf_at mean (fst ph) m /\ leaf_at noise (fst ph) e /\ length m = length (snd ph) /\ length e = length (snd ph)) hess -> Permutation (map fst hess) decoded ->
  exists state sample, laplace_state_paths mean (map fst hess) (map (fun ph => Leaf (snd ph)) hess) = Ok state /\ laplace_sample_paths draw state decoded noise = Ok sample /\
    (forall p h m e, In (p, h) hess -> leaf_at mean p m -> leaf_at noise p e -> exists v, leaf_at sample p v /\ pointwise draw m h e v) /\
    same_outside (map fst hess) sample mean.
Proof.
  intros V draw mean noise hess decoded ND F P.
  assert (L : leaf_paths mean (map fst hess)). { split; [exact ND|]. rewrite Forall_map. eapply Forall_impl; [|exact F]. intros [p h] (N & m & e & A & _). split; [exact N|]. now exists m. }
  destruct (paired mean hess decoded "mean" "hess_lik_diag" ltac:(discriminate) L P) as (D & d2 & hess' & E & P' & K & U & R).
  assert (F' : Forall (fun ph => fst ph <> [] /\ exists m e, leaf_at mean (fst ph) m /\ leaf_at noise (fst ph) e /\ length m = length (snd ph) /\ length e = length (snd ph)) hess').
  { rewrite Forall_forall in *. intros x Hx. apply F. apply (Permutation_in _ (Permutation_sym P') Hx). }
  assert (X : exists pos, map fst pos = decoded /\ mapM (fun p => bind (nested_get mean p) (fun m => bind (nested_get d2 p) (fun h => bind (nested_get noise p) (fun e => tree_map3 draw m h e)))) decoded = Ok (map ltree pos) /\
     forall p h m e, In (p, h) hess' -> leaf_at mean p m -> leaf_at noise p e -> In (p, zip3 draw m h e) pos).
  { rewrite <- K. clear - F' R. destruct R as [_ R]. induction hess' as [|[p h] hs IH]; [exists []; repeat split; intros; contradiction|].
    inversion F' as [|? ? (N & m & e & A & B & _) F2]; inversion R as [|? ? [_ C] R2]; subst. cbn [fst snd] in *. destruct (IH R2 F2) as (pos & K & E & I).
    exists ((p, zip3 draw m h e) :: pos). cbn [map fst]. split; [now f_equal|]. split.
    - cbn [mapM]. rewrite (proj2 (nested_get_spec mean p (Leaf m) N) A), (proj2 (nested_get_spec d2 p (Leaf h) N) C), (proj2 (nested_get_spec noise p (Leaf e) N) B). cbn [bind tree_map3]. rewrite E. reflexivity.
    - intros p0 h0 m0 e0 [Q|Q] Hm He; [|right; now apply I]. injection Q as <- <-. left. unfold leaf_at in *. congruence. }
  destruct X as (pos & KP & EM & IN).
  assert (LP : leaf_paths mean (map fst pos)).
  { rewrite KP. destruct L as [_ FL]. split; [now apply (Permutation_NoDup P)|]. rewrite Forall_forall in *. intros x Hx. apply FL. apply (Permutation_in _ (Permutation_sym P) Hx). }
  destruct (set_leaves pos mean LP) as (sample & ES & RS & OS & _).
  exists D, sample. split; [exact E|]. split; [|split].
  - unfold laplace_sample_paths. rewrite U. cbn [bind fst snd]. rewrite EM. cbn [bind]. rewrite <- KP. exact ES.
  - intros p h m e H A B. exists (zip3 draw m h e). pose proof (Permutation_in _ P' H) as H'. split.
    + destruct RS as [_ RS]. rewrite Forall_forall in RS. apply (RS (p, zip3 draw m h e)). now apply IN.
    + rewrite Forall_forall in F. destruct (F _ H) as (_ & m' & e' & A' & B' & L1 & L2). cbn [fst snd] in *. assert (m' = m) by (unfold leaf_at in *; congruence). assert (e' = e) by (unfold leaf_at in *; congruence). subst. apply zip3_pointwise; congruence.
  - intros q w NI. apply OS. rewrite KP. intros H. apply NI. apply (Permutation_in _ (Permutation_sym P) H).
Qed.
