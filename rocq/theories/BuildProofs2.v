(** Proofs about the initialisation of the joint and the checks of the data loaders. *)
From Coq Require Import List Arith ZArith QArith Bool String Lia.
From Verif Require Import Lib SchedModel SchedProofs BuildModel BuildSpec BuildProofs.
Import ListNotations.
Local Notation length := List.length.
Local Notation concat := List.concat.
Open Scope nat_scope.

(** ---- states ---- *)
Lemma get_app {V} k (a b : list (string * V)) : get k (a ++ b) = match get k a with Some v => Some v | None => get k b end.
Proof. induction a as [|[k' v] r IH]; [reflexivity|]; cbn; destruct (String.eqb k k'); [reflexivity|exact IH]. Qed.
Lemma get_filter_params {V} k (v : variables V) : k <> "params"%string -> get k (filter not_params v) = get k v.
Proof.
  intro N; induction v as [|[k' x] r IH]; [reflexivity|]; cbn [filter]; unfold not_params at 1; cbn [fst].
  destruct (String.eqb_spec k' "params") as [->|N']; cbn [negb get].
  - destruct (String.eqb_spec k "params"); [congruence|exact IH].
  - destruct (String.eqb k k'); [reflexivity|exact IH].
Qed.
Lemma get_filter_none {V} (v : variables V) : get "params" (filter not_params v) = None.
Proof.
  induction v as [|[k' x] r IH]; [reflexivity|]; cbn [filter]; unfold not_params at 1; cbn [fst].
  destruct (String.eqb_spec k' "params") as [->|N']; cbn [negb get]; [exact IH|].
  destruct (String.eqb_spec "params" k'); [congruence|exact IH].
Qed.
Lemma get_dict_set {V} k (d : variables V) p : get k (dict_set d p) = if String.eqb k (fst p) then Some (snd p) else get k d.
Proof.
  destruct p as [k0 v0]; unfold dict_set; cbn [fst snd].
  destruct (existsb (fun q => String.eqb (fst q) k0) d) eqn:E.
  - induction d as [|[k' x] r IH]; [discriminate|]; cbn [existsb fst] in E. cbn [map fst snd].
    destruct (String.eqb_spec k' k0) as [->|N]; cbn [get].
    + destruct (String.eqb_spec k k0) as [->|N']; [reflexivity|].
      clear -N'. induction r as [|[k' x'] r IH]; [reflexivity|]; cbn [map fst snd]. destruct (String.eqb_spec k' k0) as [->|N]; cbn [get].
      * destruct (String.eqb_spec k k0); [congruence|exact IH].
      * destruct (String.eqb k k'); [reflexivity|exact IH].
    + cbn [orb] in E. destruct (String.eqb_spec k k') as [->|N'].
      * destruct (String.eqb_spec k' k0); [congruence|reflexivity].
      * now apply IH.
  - rewrite get_app. destruct (String.eqb_spec k k0) as [->|N].
    + assert (X : get k0 d = None).
      { clear -E. induction d as [|[k' x] r IH]; [reflexivity|]; cbn [existsb fst] in E; apply orb_false_elim in E; destruct E as [E1 E2]. cbn [get].
        rewrite String.eqb_sym, E1; now apply IH. }
      rewrite X; cbn [get]; now rewrite String.eqb_refl.
    + cbn [get]. destruct (String.eqb_spec k k0); [congruence|]. now destruct (get k d).
Qed.
Lemma get_fold_set {V} k (m : variables V) : NoDup (map fst m) -> forall d, get k (fold_left dict_set m d) = match get k m with Some v => Some v | None => get k d end.
Proof.
  induction m as [|[k' x] r IH]; intros ND d; [reflexivity|]. cbn [fold_left map fst] in *. inversion ND as [|? ? N ND']; subst. rewrite IH by exact ND'. rewrite get_dict_set; cbn [get fst snd].
  destruct (String.eqb_spec k k') as [->|Nk].
  - destruct (get k' r) eqn:E; [|reflexivity]. elim N. apply get_in in E. now apply (in_map fst) in E.
  - reflexivity.
Qed.
Lemma nodup_filter {V} (f : string * V -> bool) (v : variables V) : NoDup (map fst v) -> NoDup (map fst (filter f v)).
Proof.
  induction v as [|p r IH]; [constructor|]; cbn; intro H; inversion H as [|? ? N ND]; subst. destruct (f p); [|now apply IH]. cbn; constructor; [|now apply IH].
  intro I; apply N. apply in_map_iff in I; destruct I as [q [E J]]. apply filter_In in J. rewrite <- E; now apply in_map.
Qed.

(** what the network receives is what its init returned *)
Theorem variables_round_trip : forall V (v : variables V) s, NoDup (map fst v) ->
  mm_init_from_dict [("model"%string, v)] = Ok s ->
  exists u, class_variables s = Ok u /\ forall k, get k u = get k v.
Proof.
  intros V v s ND H. unfold mm_init_from_dict in H; cbn [mapM fst snd] in H. unfold get_or in H.
  destruct (get "params" v) as [p|] eqn:E; [|discriminate]. cbn in H. injection H as <-.
  unfold class_variables; cbn [ms_params ms_mutable]. unfold get_or; cbn [get String.eqb Ascii.eqb Bool.eqb bind].
  destruct (length (filter not_params v) =? 0) eqn:Z; cbn.
  - eexists; split; [reflexivity|]. intro k; cbn [get]. apply Nat.eqb_eq, length_zero_iff_nil in Z.
    destruct (String.eqb_spec k "params") as [->|N]; [now rewrite E|]. rewrite <- get_filter_params, Z by exact N; reflexivity.
  - eexists; split; [reflexivity|]. intro k. rewrite get_fold_set by now apply nodup_filter.
    destruct (String.eqb_spec k "params") as [->|N].
    + rewrite get_filter_none; cbn [get]. now rewrite String.eqb_refl, E.
    + rewrite get_filter_params by exact N. destruct (get k v) eqn:G; [reflexivity|]. cbn [get]. destruct (String.eqb_spec k "params"); [congruence|reflexivity].
Qed.

Lemma mapM_err {A B} (f : A -> result B) e l : (forall x, In x l -> (exists y, f x = Ok y) \/ f x = Err e) -> (exists x, In x l /\ f x = Err e) -> mapM f l = Err e.
Proof.
  induction l as [|x r IH]; intros H [z [I E]]; [destruct I|]. cbn. destruct (H x (or_introl eq_refl)) as [[y Hy]|Hx]; [rewrite Hy|now rewrite Hx].
  cbn. rewrite IH; [reflexivity|intros w J; apply H; now right|]. exists z; split; [|exact E]. destruct I as [->|I]; [congruence|exact I].
Qed.
Theorem no_params_raises : forall V (d : list (string * variables V)), (exists k v, In (k, v) d /\ get "params" v = None) ->
  mm_init_from_dict d = Err KeyError.
Proof.
  intros V d [k [v [I N]]]. unfold mm_init_from_dict.
  rewrite (mapM_err _ KeyError); [reflexivity| |].
  - intros [k' v'] _; cbn; unfold get_or; destruct (get "params" v'); cbn; [left; now eexists|now right].
  - exists (k, v); split; [exact I|]. cbn; unfold get_or; now rewrite N.
Qed.

Lemma filter_length_zero {A} (f : A -> bool) l : (length (filter f l) =? 0) = true <-> forall x, In x l -> f x = false.
Proof.
  rewrite Nat.eqb_eq, length_zero_iff_nil. split.
  - intros H x I; destruct (f x) eqn:E; [|reflexivity]. assert (X : In x (filter f l)) by (apply filter_In; now split). rewrite H in X; destruct X.
  - intro H; induction l as [|x r IH]; [reflexivity|]; cbn. rewrite (H x (or_introl eq_refl)). apply IH; intros y I; apply H; now right.
Qed.
Lemma only_params_filter {V} (v : variables V) : only_params v <-> filter not_params v = [].
Proof.
  unfold only_params; split.
  - intro H. induction v as [|[k x] r IH]; [reflexivity|]; cbn [filter]; unfold not_params at 1; cbn [fst].
    rewrite (H k x (or_introl eq_refl)); cbn. apply IH; intros k' x' I; apply (H k' x'); now right.
  - intros H k x I. destruct (String.eqb_spec k "params") as [->|N]; [reflexivity|].
    assert (X : In (k, x) (filter not_params v)) by (apply filter_In; split; [exact I|]; unfold not_params; cbn; apply negb_true_iff, String.eqb_neq; exact N).
    rewrite H in X; destruct X.
Qed.
Theorem mutable_none_iff : forall V (d : list (string * variables V)) s, mm_init_from_dict d = Ok s ->
  (ms_mutable s = None <-> forall k v, In (k, v) d -> only_params v).
Proof.
  intros V d s H. unfold mm_init_from_dict in H. match type of H with bind ?x _ = _ => destruct x as [ps|e]; [|discriminate] end. cbn in H; injection H as <-. cbn [ms_mutable].
  set (mu := map (fun p => (fst p, filter not_params (snd p))) d).
  assert (X : (length (filter (fun p => negb (length (snd p) =? 0)) mu) =? 0) = true <-> forall k v, In (k, v) d -> only_params v).
  { rewrite filter_length_zero. split.
    - intros G k v I. apply only_params_filter. specialize (G (k, filter not_params v)). cbn in G.
      assert (J : In (k, filter not_params v) mu) by (unfold mu; apply (in_map (fun p => (fst p, filter not_params (snd p))) d (k, v)); exact I).
      apply G in J. apply negb_false_iff, Nat.eqb_eq, length_zero_iff_nil in J; exact J.
    - intros G p I. unfold mu in I; apply in_map_iff in I; destruct I as [[k v] [<- I]]. cbn. rewrite (proj1 (only_params_filter v) (G k v I)); reflexivity. }
  destruct (length (filter (fun p => negb (length (snd p) =? 0)) mu) =? 0); split; intro G; try reflexivity; try discriminate.
  - now apply X.
  - apply X in G; discriminate.
Qed.

(** ---- the joint ---- *)
(** keys of the network and of the calibrator *)
Theorem init_keys : forall (g : key),
  let k1 := Child g 0 in let k2 := Child k1 0 in
  NoDup [fst (class_rngs k1); snd (class_rngs k1); fst (class_rngs k2); snd (class_rngs k2)].
Proof.
  intro g; cbn. assert (X : forall k i, k <> Child k i) by (intros k; induction k as [n|k IH j]; intros i E; [discriminate|injection E as E _; now apply (IH j)]).
  repeat (apply NoDup_cons; [cbn; intro H; repeat (destruct H as [H|H]; [try discriminate; injection H as H; symmetry in H; now apply X in H|]); exact H|]); apply NoDup_nil.
Qed.
Theorem variance_dropout_key_refuted : forall V (net_init var_init : key * key -> list nat -> variables V) s k, exists k1 k2 k3,
  NoDup [k1; k2; k3] /\
  reg_init net_init var_init (TupleShape s) k = Ok [("model"%string, net_init (k1, k2) (1 :: s)); ("lik_log_var"%string, var_init (k3, k3) (1 :: s))].
Proof.
  intros V net_init var_init s k; do 3 eexists; split; [|reflexivity]. repeat (apply NoDup_cons; [cbn; intuition discriminate|]); apply NoDup_nil.
Qed.

Theorem joint_init_classification : forall V (net_init : key * key -> list nat -> variables V) apply calibrator s g z v oms o d,
  zeros_shape s = Ok z -> v = net_init (Child (Child g 0) 1, Child (Child g 0) 2) z ->
  mm_init_from_dict [("model"%string, v)] = Ok oms ->
  apply oms (get_inputs_from_shape s) = Ok o -> out_dim o = Ok d ->
  match calibrator with None => True | Some f => makes_params f end ->
  exists js, joint_init (class_init net_init) apply calibrator s g = (Child (Child g 0) 0, Ok js) /\
    js_params js = ms_params oms /\ js_mutable js = ms_mutable oms /\
    match calibrator with
    | None => js_calib_params js = [("output_calibrator"%string, None)] /\ js_calib_mutable js = [("output_calibrator"%string, None)]
    | Some f =>
        let c := f (Child (Child (Child g 0) 0) 1, Child (Child (Child g 0) 0) 2) [1; d] in
        js_calib_params js = [("output_calibrator"%string, get "params" c)] /\
        exists m, js_calib_mutable js = [("output_calibrator"%string, m)] /\
          (m = None <-> only_params c) /\
          (forall k, k <> "params"%string -> match m with Some l => get k l | None => None end = get k c)
    end.
Proof.
  intros V net_init apply calibrator s g z v oms o d Hz Hv Ho Ha Hd HC.
  unfold joint_init, class_init, class_rngs; cbn [rng_get]. rewrite Hz; cbn [bind]. rewrite <- Hv, Ho; cbn [bind]. rewrite Ha; cbn [bind]. rewrite Hd; cbn [bind].
  unfold ocm_init, class_rngs. destruct calibrator as [f|].
  - set (c := f _ [1; d]). destruct (HC (Child (Child (Child g 0) 0) 1, Child (Child (Child g 0) 0) 2) [1; d]) as [p Hp]. fold c in Hp.
    unfold ocm_init_from_dict; cbn [mapM fst snd map]. destruct c as [|x r] eqn:Ec; [discriminate|]. rewrite <- Ec in *.
    unfold get_or; rewrite Hp; cbn [bind]. eexists; split; [reflexivity|]. cbn [js_params js_mutable js_calib_params js_calib_mutable os_params os_mutable map fst snd].
    split; [reflexivity|split; [reflexivity|split; [reflexivity|]]]. eexists; split; [reflexivity|]. split.
    + rewrite only_params_filter. destruct (filter not_params c) as [|y l]; cbn; split; intro; try reflexivity; discriminate.
    + intros k Hk. rewrite <- (get_filter_params k c Hk). destruct (filter not_params c) as [|y l]; reflexivity.
  - eexists; split; [reflexivity|]. cbn. repeat split.
Qed.
Theorem shapes_one_row : forall x : ishape,
  get_inputs_from_shape (get_input_shape x) =
  match x with
  | TupleShape s => TupleShape (1 :: tl s)
  | DictShape d => DictShape (map (fun p => (fst p, 1 :: tl (snd p))) d)
  end.
Proof. intros [s|d]; [reflexivity|]. cbn; f_equal; rewrite map_map; apply map_ext; reflexivity. Qed.

(** ---- classification check ---- *)
Lemma unique_in l x : In x (unique l) <-> In x l.
Proof.
  induction l as [|y r IH]; [reflexivity|]; cbn [unique]. destruct (existsb (Z.eqb y) r) eqn:E.
  - rewrite IH; cbn; split; [now right|]. intros [->|I]; [|exact I]. apply existsb_exists in E; destruct E as [z [I Ez]]; apply Z.eqb_eq in Ez; now subst.
  - cbn; rewrite IH; reflexivity.
Qed.
Lemma unique_nodup l : NoDup (unique l).
Proof.
  induction l as [|y r IH]; [constructor|]; cbn [unique]. destruct (existsb (Z.eqb y) r) eqn:E; [exact IH|]. constructor; [|exact IH].
  rewrite unique_in; intro I. assert (X : existsb (Z.eqb y) r = true) by (apply existsb_exists; exists y; split; [exact I|apply Z.eqb_refl]). congruence.
Qed.
Lemma distinct_count_unique l n : distinct_count l n <-> length (unique l) = n.
Proof.
  split.
  - intros [u [ND [H <-]]]. apply Nat.le_antisymm; apply NoDup_incl_length; try (apply unique_nodup || exact ND); intros x I; [apply H, unique_in|apply unique_in, H]; exact I.
  - intros <-; exists (unique l); split; [apply unique_nodup|split; [apply unique_in|reflexivity]].
Qed.
Lemma size_gen : forall bs c, (forall x y, In (x, y) bs -> exists s, x = TupleShape (length y :: s)) ->
  fold_left (fun acc (b : ishape * list Z) => bind acc (fun c => bind (batch_rows (fst b)) (fun n => Ok (c + n)))) bs (Ok c) = Ok (c + length (concat (map snd bs))).
Proof.
  induction bs as [|[x y] r IH]; intros c H; cbn [fold_left map concat]; [cbn; f_equal; lia|].
  destruct (H x y (or_introl eq_refl)) as [s ->]. cbn [batch_rows fst first_dim bind]. rewrite IH; [|intros x' y' I; apply H; now right].
  cbn [snd]; rewrite app_length; f_equal; lia.
Qed.
Lemma array_size l : array_loader l -> loader_size l = Ok (length (labels_of l)).
Proof. intros [_ H]; unfold loader_size, labels_of. now rewrite size_gen. Qed.

(** a network with [d] outputs *)
Theorem class_check_iff : forall V (net_init : key * key -> list nat -> variables V) calibrator d l g,
  makes_params net_init -> match calibrator with None => True | Some f => makes_params f end -> array_loader l ->
  snd (class_check (class_init net_init) (fun _ _ => Ok (ArrayOut [1; d])) calibrator l g) =
    (match labels_of l with [] => Err ValueError | _ => if length (unique (labels_of l)) =? d then Ok tt else Err ValueError end) /\
  (snd (class_check (class_init net_init) (fun _ _ => Ok (ArrayOut [1; d])) calibrator l g) = Ok tt <-> labels_of l <> [] /\ distinct_count (labels_of l) d).
Proof.
  intros V net_init calibrator d l g MP MC AL.
  assert (E : snd (class_check (class_init net_init) (fun _ _ => Ok (ArrayOut [1; d])) calibrator l g) =
    (match labels_of l with [] => Err ValueError | _ => if length (unique (labels_of l)) =? d then Ok tt else Err ValueError end)).
  { unfold class_check. rewrite (array_size l AL). destruct (labels_of l) as [|a r] eqn:EL; [reflexivity|]. cbn [length].
    destruct (ld_batches l) as [|[x y] bs] eqn:EB; [unfold labels_of in EL; rewrite EB in EL; discriminate|].
    destruct AL as [AC AB]. destruct (AB x y) as [s ->]; [rewrite EB; now left|]. cbn [get_input_shape tl].
    destruct (MP (Child (Child g 0) 1, Child (Child g 0) 2) (1 :: s)) as [p Hp].
    set (v := net_init (Child (Child g 0) 1, Child (Child g 0) 2) (1 :: s)) in *.
    assert (HO : exists oms, mm_init_from_dict [("model"%string, v)] = Ok oms).
    { unfold mm_init_from_dict; cbn [mapM fst snd]. unfold get_or; rewrite Hp; cbn [bind]. now eexists. }
    destruct HO as [oms HO].
    destruct (joint_init_classification V net_init (fun _ _ => Ok (ArrayOut [1; d])) calibrator (TupleShape s) g (1 :: s) v oms (ArrayOut [1; d]) d eq_refl eq_refl HO eq_refl eq_refl MC) as [js [HJ _]].
    rewrite HJ. cbn [snd bind out_dim last_dim rev app]. unfold num_unique_labels. rewrite AC. change (concat (map snd (ld_batches l))) with (labels_of l). rewrite EL.
    rewrite Nat.eqb_sym; reflexivity. }
  split; [exact E|]. rewrite E, distinct_count_unique. destruct (labels_of l) as [|a r]; [split; [discriminate|now intros [[] _]]|].
  destruct (Nat.eqb_spec (length (unique (a :: r))) d) as [H|H]; split; intro G; try reflexivity; try discriminate.
  - split; [discriminate|exact H].
  - now destruct G as [_ G].
Qed.

(** labels in range but not all of them present *)
Theorem missing_class_refuted : forall V (net_init : key * key -> list nat -> variables V) calibrator d l g missing,
  makes_params net_init -> match calibrator with None => True | Some f => makes_params f end -> array_loader l ->
  (forall y, In y (labels_of l) -> (0 <= y < Z.of_nat d)%Z) -> (0 <= missing < Z.of_nat d)%Z -> ~ In missing (labels_of l) ->
  snd (class_check (class_init net_init) (fun _ _ => Ok (ArrayOut [1; d])) calibrator l g) = Err ValueError.
Proof.
  intros V net_init calibrator d l g missing MP MC AL R HM NM. destruct (class_check_iff V net_init calibrator d l g MP MC AL) as [-> _].
  destruct (labels_of l) as [|a r] eqn:EL; [reflexivity|]. rewrite <- EL in *.
  destruct (Nat.eqb_spec (length (unique (labels_of l))) d) as [H|H]; [|reflexivity]. exfalso.
  assert (L : length (missing :: unique (labels_of l)) <= length (map Z.of_nat (seq 0 d))).
  { apply NoDup_incl_length; [constructor; [rewrite unique_in; exact NM|apply unique_nodup]|].
    intros x I. assert (X : (0 <= x < Z.of_nat d)%Z) by (destruct I as [<-|I]; [exact HM|apply R, unique_in, I]).
    apply in_map_iff; exists (Z.to_nat x); split; [lia|]. apply in_seq; lia. }
  rewrite map_length, seq_length in L; cbn in L; lia.
Qed.
Theorem dict_inputs_raise : forall V (net_init : key * key -> list nat -> variables V) apply calibrator l g n d y r,
  ld_batches l = (DictShape d, y) :: r -> loader_size l = Ok (S n) ->
  class_check (class_init net_init) apply calibrator l g = (Child g 0, Err TypeError).
Proof. intros V net_init apply calibrator l g n d y r EB ES; unfold class_check; rewrite ES, EB; reflexivity. Qed.
(** the generator after a check *)
Theorem class_check_keys : forall V init apply (calibrator : option (key * key -> list nat -> variables V)) l g g' r,
  class_check init apply calibrator l g = (g', r) ->
  (g' = g \/ g' = Child g 0 \/ g' = Child (Child g 0) 0) /\ (r = Ok tt -> g' = Child (Child g 0) 0).
Proof.
  intros V init apply calibrator l g g' r H. unfold class_check in H.
  destruct (loader_size l) as [[|n]|e]; try (injection H as <- <-; split; [now left|discriminate]).
  destruct (ld_batches l) as [|[x y] bs]; [injection H as <- <-; split; [now left|discriminate]|].
  unfold joint_init in H; cbn [rng_get] in H. destruct (bind _ _) as [[oms d]|e] in H; injection H as <- <-.
  - split; [now right; right|reflexivity].
  - split; [now right; left|discriminate].
Qed.
