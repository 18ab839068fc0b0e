From Coq Require Import List Arith Bool String Reals Lra Lia.
From Verif Require Import Lib NestedModel NestedSpec NestedProofs NestedProofs2 TempModel TempSpec TempProofs3 PredSpec PredProofs4 LapModel LapSpec LapProofs2 SngpModel SngpSpec SngpProofs SngpProofs2.
Import ListNotations.
Local Notation length := List.length.
Open Scope R_scope.

(** ---- resetting the precision matrix ---- *)
Definition is_dict {V} (t : tree V) : bool := match t with Dict _ => true | Leaf _ => false end.
Lemma nest_dict {V} p (v : tree V) : p <> [] -> exists kvs, nest p v = Dict kvs.
Proof. destruct p; [congruence|]. intros _. eexists. reflexivity. Qed.
Lemma update_nest {V} p : forall (d : tree V) a b, at_path d p = Some (Leaf a) -> p <> [] -> set_path false d p (Leaf b) = Ok (update1 (nest p (Leaf b)) d).
Proof.
  induction p as [|k p IH]; intros d a b H N; [congruence|]. destruct d as [v|kvs]; [discriminate|].
  rewrite at_cons in H. destruct (assoc_get k kvs) as [t|] eqn:G; [|discriminate].
  destruct p as [|k2 p].
  - rewrite set_one, G. cbn in H. injection H as ->. cbn. rewrite G. reflexivity.
  - rewrite set_cons, G, (IH t a b H) by discriminate. cbn [rmap]. destruct t as [v|old]; [discriminate|].
    cbn [nest fold_right]. cbn [update1]. rewrite G. reflexivity.
Qed.
Lemma find_set {V} key k (s s' : tree V) : (forall keys, find_path s' key keys = find_path s key keys) -> is_dict s' = is_dict s ->
  forall kvs keys, assoc_get k kvs = Some s -> find_path (Dict (assoc_set k s' kvs)) key keys = find_path (Dict kvs) key keys.
Proof.
  intros F D kvs keys. induction kvs as [|[k2 v2] kvs IH]; intros G; [discriminate|].
  cbn [assoc_get assoc_set] in *. destruct (String.eqb_spec k k2) as [->|N].
  - injection G as ->. cbn [find_path]. destruct (String.eqb k2 key); [reflexivity|].
    destruct s as [v|o], s' as [v'|o']; try discriminate; [reflexivity|]. rewrite (F (keys ++ [k2])%list). reflexivity.
  - specialize (IH G). cbn [find_path] in *. rewrite IH. reflexivity.
Qed.
Lemma find_update {V} key p : forall (d : tree V) a b keys, at_path d p = Some (Leaf a) ->
  find_path (update1 (nest p (Leaf b)) d) key keys = find_path d key keys /\ is_dict (update1 (nest p (Leaf b)) d) = is_dict d.
Proof.
  induction p as [|k p IH]; intros d a b keys H.
  - cbn in H. injection H as ->. split; reflexivity.
  - destruct d as [v|kvs]; [discriminate|]. rewrite at_cons in H. destruct (assoc_get k kvs) as [t|] eqn:G; [|discriminate].
    assert (E : update1 (nest (k :: p) (Leaf b)) (Dict kvs) = Dict (assoc_set k (update1 (nest p (Leaf b)) t) kvs)).
    { cbn [nest fold_right update1]. rewrite G. destruct p as [|k2 p]; [cbn in H; injection H as ->; reflexivity|].
      destruct t as [v|old]; [discriminate|]. reflexivity. }
    rewrite E. split; [|reflexivity]. apply (find_set key k t); [|apply (IH t a b [] H)| exact G]. intros ks. apply (IH t a b ks H).
Qed.
Theorem reset_spec : forall mutable key ridge p a, find_path mutable key [] = p -> at_path mutable p = Some (Leaf a) -> p <> [] ->
  match reset_value ridge a with
  | Ok b => exists m, reset_covariance key ridge mutable = Ok m /\ at_path m p = Some (Leaf b) /\ find_path m key [] = p /\
      forall q v, q <> p -> (at_path m q = Some (Leaf v) <-> at_path mutable q = Some (Leaf v))
  | Err e => reset_covariance key ridge mutable = Err e
  end.
Proof.
  intros mu key ridge p a F A N. unfold reset_covariance. rewrite F.
  rewrite (proj2 (nested_get_spec mu p (Leaf a) N) A). cbn [bind].
  destruct (reset_value ridge a) as [b|e]; [|reflexivity]. cbn [bind]. eexists. split; [reflexivity|].
  unfold nested_update. cbn [fold_left]. pose proof (update_nest p mu a b A N) as S.
  split; [|split].
  - pose proof (set_read_same false mu p (Leaf b) _ [] S) as E. rewrite app_nil_r in E. exact E.
  - rewrite <- F at 2. apply (find_update key p mu a b [] A).
  - intros q v Q. destruct (prefix_dec p q) as [[r ->]|Pq].
    + assert (R : r <> []) by (intros ->; rewrite app_nil_r in Q; congruence).
      rewrite (set_read_same false mu p (Leaf b) _ r S), at_app, A. destruct r; [congruence|]. cbn. tauto.
    + destruct (prefix_dec q p) as [[r E]|Qp].
      * assert (R : r <> []) by (intros ->; rewrite app_nil_r in E; congruence).
        destruct (set_read_above mu p (Leaf b) _ q r S E R) as (k1 & k2 & E1 & E2 & _). rewrite E1, E2. split; discriminate.
      * rewrite (set_read_other false mu p (Leaf b) _ q S); [tauto|]. now split.
Qed.
Theorem reset_missing : forall mutable key ridge, unique_keys mutable -> ~ key_occurs mutable key -> reset_covariance key ridge mutable = Err ValueError.
Proof.
  intros mu key ridge U N. unfold reset_covariance. destruct (find_path_top mu key U) as [_ H]. rewrite (H N). reflexivity.
Qed.
Theorem check_state_spec : forall mutable, unique_keys mutable ->
  (key_occurs mutable "spectral_stats" -> check_spectral_state mutable = Ok tt) /\ (~ key_occurs mutable "spectral_stats" -> check_spectral_state mutable = Err ValueError).
Proof.
  intros mu U. unfold check_spectral_state. destruct (find_path_top mu "spectral_stats" U) as [H1 H2]. split.
  - intros K. destruct (H1 K) as (s & v & E & _). rewrite E. destruct s; reflexivity.
  - intros K. now rewrite (H2 K).
Qed.

Lemma run_resets_leaf key p : p <> [] -> forall ridges mutable r n m, find_path mutable key [] = p -> at_path mutable p = Some (Leaf (Mat n m)) ->
  exists mu, run_resets key (ridges ++ [r]) mutable = Ok mu /\ at_path mu p = Some (Leaf (Mat n (initial_precision r))) /\
    forall q v, q <> p -> (at_path mu q = Some (Leaf v) <-> at_path mutable q = Some (Leaf v)).
Proof.
  intros N. induction ridges as [|r0 ridges IH]; intros mutable r n m F A.
  - cbn [app run_resets]. pose proof (reset_spec mutable key r p _ F A N) as H. cbn in H. destruct H as (mu & E & H1 & _ & H2).
    rewrite E. cbn [bind]. exists mu. auto.
  - cbn [app run_resets]. pose proof (reset_spec mutable key r0 p _ F A N) as H. cbn in H. destruct H as (mu & E & H1 & F1 & H2).
    rewrite E. cbn [bind]. destruct (IH mu r n _ F1 H1) as (mu' & E' & H1' & H2'). exists mu'. split; [exact E'|]. split; [exact H1'|].
    intros q v Q. rewrite (H2' q v Q). apply H2, Q.
Qed.
Theorem last_callback_wins : forall mutable key callbacks ridge p n m, p <> [] -> find_path mutable key [] = p -> at_path mutable p = Some (Leaf (Mat n m)) ->
  exists mu, run_resets key (add_callback callbacks ridge) mutable = Ok mu /\ at_path mu p = Some (Leaf (Mat n (initial_precision ridge))) /\
    forall q v, q <> p -> (at_path mu q = Some (Leaf v) <-> at_path mutable q = Some (Leaf v)).
Proof.
  intros mutable key [cs|] ridge p n m N F A; unfold add_callback; [exact (run_resets_leaf key p N cs mutable ridge n m F A) | exact (run_resets_leaf key p N [] mutable ridge n m F A)].
Qed.

(** ---- mean-field logits ---- *)
Lemma confidence_anti zs s s' i : 0 < s <= s' -> (i < length zs)%nat -> (forall z, In z zs -> z <= nth i zs 0) ->
  nth i (softmax (map (fun z => z / s') zs)) 0 <= nth i (softmax (map (fun z => z / s) zs)) 0.
Proof.
  intros Hs Hi Mx. assert (Hs' : 0 < s') by lra.
  assert (NT : forall t, nth i (map (fun z => z / t) zs) 0 = nth i zs 0 / t).
  { intros t. rewrite <- (map_nth (fun z => z / t)). apply nth_indep. now rewrite map_length. }
  assert (NE : forall t, map (fun z => z / t) zs <> []) by (intros t H; apply map_eq_nil in H; subst; cbn in Hi; lia).
  rewrite !softmax_nth by (rewrite map_length; exact Hi). rewrite !NT. set (zi := nth i zs 0) in *.
  pose proof (rsum_exp_pos _ (NE s)) as P1. pose proof (rsum_exp_pos _ (NE s')) as P2.
  set (A := rsum (map exp (map (fun z => z / s) zs))) in *. set (B := rsum (map exp (map (fun z => z / s') zs))) in *.
  apply Rmult_le_reg_r with (A * B); [now apply Rmult_lt_0_compat|].
  replace (exp (zi / s') / B * (A * B)) with (exp (zi / s') * A) by (field; lra). replace (exp (zi / s) / A * (A * B)) with (exp (zi / s) * B) by (field; lra).
  assert (T : forall l, (forall z, In z l -> z <= zi) -> exp (zi / s') * rsum (map exp (map (fun z => z / s) l)) <= exp (zi / s) * rsum (map exp (map (fun z => z / s') l))).
  { induction l as [|z l IH]; intros H; [cbn; lra|].
    change (rsum (map exp (map (fun z => z / s) (z :: l)))) with (exp (z / s) + rsum (map exp (map (fun z => z / s) l))).
    change (rsum (map exp (map (fun z => z / s') (z :: l)))) with (exp (z / s') + rsum (map exp (map (fun z => z / s') l))).
    rewrite !Rmult_plus_distr_l. apply Rplus_le_compat; [|apply IH; intros; apply H; now right].
    rewrite <- !exp_plus. specialize (H z (or_introl eq_refl)).
    assert (zi / s' + z / s <= zi / s + z / s').
    { apply Rmult_le_reg_r with (s * s'); [now apply Rmult_lt_0_compat|].
      replace ((zi / s' + z / s) * (s * s')) with (zi * s + z * s') by (field; lra). replace ((zi / s + z / s') * (s * s')) with (zi * s' + z * s) by (field; lra). nra. }
    destruct H0 as [H0|H0]; [left; now apply exp_increasing | right; now rewrite H0]. }
  apply T. exact Mx.
Qed.
Theorem mean_field_spec : forall factor v logits, 0 <= v ->
  (factor < 0 -> mean_field_logits factor (Some v) logits = Err ValueError) /\
  (0 <= factor -> exists s, 1 <= s /\ s * s = 1 + v * factor /\ mean_field_logits factor (Some v) logits = Ok (map (fun z => z / s) logits)).
Proof.
  intros factor v logits V. unfold mean_field_logits. split; intros F; destruct (Rlt_dec factor 0); try lra; [reflexivity|].
  assert (0 <= v * factor) by (apply Rmult_le_pos; lra). exists (sqrt (1 + v * factor)). split; [|split; [apply sqrt_sqrt; lra | reflexivity]].
  rewrite <- sqrt_1 at 1. apply sqrt_le_1_alt. lra.
Qed.
Theorem mean_field_confidence : forall factor v v' logits o o' i, 0 <= v <= v' ->
  mean_field_logits factor (Some v) logits = Ok o -> mean_field_logits factor (Some v') logits = Ok o' ->
  (i < length logits)%nat -> (forall z, In z logits -> z <= nth i logits 0) ->
  nth i (softmax o') 0 <= nth i (softmax o) 0 <= nth i (softmax logits) 0 /\ (forall z, In z o' -> z <= nth i o' 0).
Proof.
  intros factor v v' logits o o' i V H H' Hi Mx. unfold mean_field_logits in *. destruct (Rlt_dec factor 0); [discriminate|].
  injection H as <-. injection H' as <-.
  assert (0 <= v * factor) by (apply Rmult_le_pos; lra). assert (v * factor <= v' * factor) by (apply Rmult_le_compat_r; lra).
  assert (S1 : 1 <= sqrt (1 + v * factor)) by (rewrite <- sqrt_1 at 1; apply sqrt_le_1_alt; lra).
  assert (S2 : sqrt (1 + v * factor) <= sqrt (1 + v' * factor)) by (apply sqrt_le_1_alt; lra).
  split; [split|].
  - apply confidence_anti; auto. lra.
  - replace logits with (map (fun z => z / 1) logits) at 2 by (rewrite <- (map_id logits) at 2; apply map_ext; intros; field). apply confidence_anti; auto. lra.
  - intros z Hz. apply in_map_iff in Hz as (x & <- & Hx).
    rewrite (nth_indep _ 0 ((fun z => z / sqrt (1 + v' * factor)) 0)) by now rewrite map_length. rewrite (map_nth (fun z => z / sqrt (1 + v' * factor))).
    apply Rmult_le_compat_r; [|now apply Mx]. left. apply Rinv_0_lt_compat. lra.
Qed.

(** ---- collections ---- *)
Section Collections.
Context {V F O : Type}.
Implicit Types m : list (string * V).
Lemma get_filter (b : string -> bool) k m : assoc_get k (filter (fun kv => b (fst kv)) m) = if b k then assoc_get k m else None.
Proof.
  induction m as [|[k' v] m IH]; [now destruct (b k)|]. cbn [filter fst assoc_get]. destruct (b k') eqn:E; cbn [assoc_get]; destruct (String.eqb_spec k k') as [->|N]; rewrite ?E; try reflexivity; try exact IH.
  - rewrite IH, E. reflexivity.
Qed.
Lemma get_update u : forall m k, NoDup (map fst u) -> assoc_get k (dict_update m u) = match assoc_get k u with Some v => Some v | None => assoc_get k m end.
Proof.
  induction u as [|[k' v] u IH]; intros m k ND; [reflexivity|]. unfold dict_update. cbn [fold_left fst snd]. fold (dict_update (assoc_set k' v m) u).
  inversion ND as [|x l NI ND']; subst. rewrite IH by exact ND'. cbn [assoc_get]. destruct (String.eqb_spec k k') as [->|N].
  - replace (assoc_get k' u) with (@None V); [apply get_set_same|]. symmetry. now apply get_none_notin.
  - rewrite get_set_other by exact N. reflexivity.
Qed.
Lemma is_gp_spec k : is_gp k = true <-> (k = "sngp_random_features" \/ k = "sngp_laplace_covariance")%string.
Proof. unfold is_gp. rewrite orb_true_iff, !String.eqb_eq. tauto. Qed.
End Collections.
Theorem apply_spec : forall (V F O : Type) (extract : list (string * V) -> F * list (string * V)) (gp_train : list (string * V) -> F -> O * list (string * V)) (gp_eval : list (string * V) -> F -> O) m,
  m <> [] -> exists ex gp,
  (forall k, (k = "sngp_random_features" \/ k = "sngp_laplace_covariance")%string -> assoc_get k ex = None /\ assoc_get k gp = assoc_get k m) /\
  (forall k, ~ (k = "sngp_random_features" \/ k = "sngp_laplace_covariance")%string -> assoc_get k ex = assoc_get k m /\ assoc_get k gp = None) /\
  sngp_apply extract gp_train gp_eval false m = Ok (gp_eval gp (fst (extract ex)), None) /\
  exists m', sngp_apply extract gp_train gp_eval true m = Ok (fst (gp_train gp (fst (extract ex))), Some m') /\
    (NoDup (map fst (snd (gp_train gp (fst (extract ex))))) ->
     forall k, assoc_get k m' = match assoc_get k (snd (gp_train gp (fst (extract ex)))) with Some v => Some v | None => assoc_get k (snd (extract ex)) end).
Proof.
  intros V F O extract gp_train gp_eval m N.
  exists (filter (fun kv => negb (is_gp (fst kv))) m), (filter (fun kv => is_gp (fst kv)) m).
  split; [|split].
  - intros k H. apply is_gp_spec in H. rewrite !(get_filter (fun k => negb (is_gp k))), !(get_filter is_gp), H. split; reflexivity.
  - intros k H. assert (E : is_gp k = false) by (destruct (is_gp k) eqn:E; [apply is_gp_spec in E; tauto | reflexivity]).
    rewrite !(get_filter (fun k => negb (is_gp k))), !(get_filter is_gp), E. split; reflexivity.
  - unfold sngp_apply. destruct m as [|kv m]; [congruence|]. set (m0 := kv :: m). destruct (extract (filter (fun kv => negb (is_gp (fst kv))) m0)) as [f ex'].
    cbn [fst snd]. split; [reflexivity|]. destruct (gp_train (filter (fun kv => is_gp (fst kv)) m0) f) as [o gp']. cbn [fst snd].
    eexists. split; [reflexivity|]. intros ND k. now apply get_update.
Qed.
Theorem apply_empty : forall (V F O : Type) (extract : list (string * V) -> F * list (string * V)) (gp_train : list (string * V) -> F -> O * list (string * V)) (gp_eval : list (string * V) -> F -> O) train,
  sngp_apply extract gp_train gp_eval train [] = Err UnboundLocalErr.
Proof. reflexivity. Qed.
Theorem training_layer : forall chol n ridge momentum feats prec,
  covariance_layer chol n ridge momentum false true feats prec = (update_precision momentum feats prec, None) /\
  covariance_layer chol n ridge momentum true true feats prec = (prec, None) /\
  covariance_layer chol n ridge momentum false false feats prec = (prec, Some (map (covariance_diag chol n ridge prec) feats)).
Proof. intros. repeat split. Qed.
Theorem reset_occurs : forall mutable key callbacks ridge, unique_keys mutable -> key_occurs mutable key ->
  (forall q v, at_path mutable (q ++ [key]) = Some v -> exists n m, v = Leaf (Mat n m)) ->
  exists q n m m' mu, at_path mutable (q ++ [key]) = Some (Leaf (Mat n m)) /\ run_resets key (add_callback callbacks ridge) mutable = Ok mu /\
    at_path mu (q ++ [key]) = Some (Leaf (Mat n m')) /\ (forall i j, m' i j = if (i =? j)%nat then ridge else 0) /\
    forall p v, p <> (q ++ [key])%list -> (at_path mu p = Some (Leaf v) <-> at_path mutable p = Some (Leaf v)).
Proof.
  intros mu key cs ridge U K L. destruct (proj1 (find_path_top mu key U) K) as (s & v & E & _ & A). rewrite E in A.
  destruct (L s v A) as (n & m & ->). assert (N : (s ++ [key])%list <> []) by (destruct s; discriminate).
  destruct (last_callback_wins mu key cs ridge _ n m N E A) as (mu' & R & A' & O).
  exists s, n, m, (initial_precision ridge), mu'. repeat split; auto; try apply O; auto.
  intros i j. unfold initial_precision, eye. destruct (i =? j)%nat; ring.
Qed.
