(** Proofs about the utilities of ApiModel.v. *)
From Coq Require Import List Arith ZArith Lia Bool String Ascii Permutation.
From Verif Require Import Lib NestedModel ApiModel ApiSpec.
Import ListNotations.
Local Notation length := List.length.
Open Scope list_scope.

Lemma public_prefix : forall k, public k = negb (String.prefix "_" k).
Proof.
  intros [|c r]; [reflexivity|]. cbn [String.prefix public].
  destruct (ascii_dec "_" c) as [<-|N]; [destruct r; reflexivity|].
  destruct c as [[] [] [] [] [] [] [] []]; try reflexivity. exfalso. apply N. reflexivity.
Qed.

Section Hashable.
Context {C V H : Type} (sub : C -> C -> bool) (veq : V -> V -> bool) (vhash : V -> H) (thash : list H -> H).
Notation obj := (obj C V).

Lemma public_visible : forall o : obj, public_attrs o = visible (attrs o).
Proof. intros o. unfold public_attrs, visible. apply filter_ext. intros kv. apply public_prefix. Qed.

Lemma assoc_in : forall (l : list (string * V)) k v, NoDup (map fst l) -> In (k, v) l -> assoc_get k l = Some v.
Proof.
  induction l as [|[k' v'] l IH]; intros k v N I; [destruct I|]. cbn [assoc_get map fst] in *. inversion N as [|? ? N1 N2]; subst.
  destruct I as [E|I].
  - injection E as -> ->. now rewrite String.eqb_refl.
  - destruct (String.eqb k k') eqn:E; [|now apply IH]. apply String.eqb_eq in E. subst k'. exfalso. apply N1. apply (in_map fst) in I. exact I.
Qed.

Lemma agree_forallb : forall (la lb la0 lb0 : list (string * V)),
  NoDup (map fst la0) -> NoDup (map fst lb0) -> incl la la0 -> incl lb lb0 -> map fst la = map fst lb ->
  forallb (fun k => match assoc_get k la0, assoc_get k lb0 with Some x, Some y => veq x y | _, _ => false end) (map fst la) = true
  <-> Forall2 (fun p q => fst p = fst q /\ veq (snd p) (snd q) = true) la lb.
Proof.
  induction la as [|[k x] la IH]; intros [|[k' y] lb] la0 lb0 Na Nb Ia Ib E; cbn [map fst] in E; try discriminate.
  - split; [constructor|reflexivity].
  - injection E as <- E. cbn [map fst forallb]. rewrite andb_true_iff.
    rewrite (assoc_in la0 k x) by (try assumption; apply Ia; now left).
    rewrite (assoc_in lb0 k y) by (try assumption; apply Ib; now left).
    rewrite (IH lb la0 lb0) by (try assumption; try (intros z Hz; (apply Ia || apply Ib); now right)).
    split.
    + intros [A B]. constructor; [split; [reflexivity|exact A]|exact B].
    + intros A. inversion A as [|? ? ? ? [_ A1] A2]; subst. now split.
Qed.

Lemma forall2_keys : forall (l m : list (string * V)),
  Forall2 (fun p q => fst p = fst q /\ veq (snd p) (snd q) = true) l m -> map fst l = map fst m.
Proof. induction 1 as [|p q l m [E _] F IH]; [reflexivity|]. cbn [map]. now rewrite E, IH. Qed.

Lemma visible_incl : forall l : list (string * V), incl (visible l) l.
Proof. intros l x I. now apply filter_In in I. Qed.

Lemma py_eq_agree : class_order sub -> forall a b : obj, NoDup (map fst (attrs a)) -> NoDup (map fst (attrs b)) ->
  (py_eq sub veq a b = true <-> cls a = cls b /\ agree veq (attrs a) (attrs b)).
Proof.
  intros [R A] a b Na Nb. unfold py_eq, agree.
  destruct (sub (cls b) (cls a)) eqn:S1, (sub (cls a) (cls b)) eqn:S2; cbn [andb negb].
  - unfold eq_method. rewrite S1, andb_true_r, !public_visible.
    assert (E : cls a = cls b) by now apply A.
    unfold keys_eqb. destruct (list_eq_dec string_dec (map fst (visible (attrs a))) (map fst (visible (attrs b)))) as [K|K].
    + rewrite (agree_forallb (visible (attrs a)) (visible (attrs b))) by (try assumption; apply visible_incl).
      split; [intros F; now split|intros [_ F]; exact F].
    + split; [discriminate|]. intros [_ F]. exfalso. apply K. now apply forall2_keys.
  - unfold eq_method. rewrite S2, andb_false_r. split; [discriminate|].
    intros [E _]. rewrite E, R in S2. discriminate.
  - unfold eq_method. rewrite S1, andb_false_r. split; [discriminate|].
    intros [E _]. rewrite E, R in S1. discriminate.
  - unfold eq_method. rewrite S1, andb_false_r. split; [discriminate|].
    intros [E _]. rewrite E, R in S1. discriminate.
Qed.

Lemma insert_agree : forall (p q : string * V) l m,
  fst p = fst q /\ vhash (snd p) = vhash (snd q) ->
  Forall2 (fun p q => fst p = fst q /\ vhash (snd p) = vhash (snd q)) l m ->
  Forall2 (fun p q => fst p = fst q /\ vhash (snd p) = vhash (snd q)) (insert_key p l) (insert_key q m).
Proof.
  intros p q l m E F. induction F as [|x y l m Ex F IH]; cbn [insert_key]; [now repeat constructor|].
  destruct E as [E1 E2], Ex as [Ex1 Ex2]. rewrite E1, Ex1. destruct (string_leb (fst q) (fst y)); repeat (constructor; auto).
Qed.

Lemma hash_agree : (forall x y, veq x y = true -> vhash x = vhash y) -> forall a b : obj,
  agree veq (attrs a) (attrs b) -> hash vhash thash a = hash vhash thash b.
Proof.
  intros K a b F. unfold hash, agree in *. rewrite !public_visible. f_equal.
  assert (G : Forall2 (fun p q => fst p = fst q /\ vhash (snd p) = vhash (snd q)) (sort_keys (visible (attrs a))) (sort_keys (visible (attrs b)))).
  { unfold sort_keys. induction F as [|p q l m [E1 E2] F IH]; cbn [fold_right]; [constructor|]. apply insert_agree; [split; [exact E1|now apply K]|exact IH]. }
  induction G as [|p q l m [_ E] G IH]; [reflexivity|]. cbn [map]. now rewrite E, IH.
Qed.

Lemma agree_refl : (forall x, veq x x = true) -> forall l, agree veq l l.
Proof. intros R l. unfold agree. induction (visible l) as [|p m IH]; constructor; auto. Qed.
Lemma agree_sym : (forall x y, veq x y = veq y x) -> forall l m, agree veq l m -> agree veq m l.
Proof. intros S l m F. unfold agree in *. induction F as [|p q l' m' [E1 E2] F IH]; constructor; [split; [auto|now rewrite S]|assumption]. Qed.
Lemma agree_trans : (forall x y z, veq x y = true -> veq y z = true -> veq x z = true) -> forall l m n,
  agree veq l m -> agree veq m n -> agree veq l n.
Proof.
  intros T l m n. unfold agree. generalize (visible l) (visible m) (visible n). intros l' m' n' F. revert n'.
  induction F as [|p q l' m' [E1 E2] F IH]; intros n' G; inversion G as [|? r ? ? [G1 G2] G']; subst; constructor.
  - split; [congruence|]. now apply (T _ (snd q)).
  - now apply IH.
Qed.

Theorem eq_contract : class_order sub ->
  (forall x, veq x x = true) -> (forall x y, veq x y = veq y x) -> (forall x y z, veq x y = true -> veq y z = true -> veq x z = true) ->
  (forall x y, veq x y = true -> vhash x = vhash y) ->
  forall a b c : obj, NoDup (map fst (attrs a)) -> NoDup (map fst (attrs b)) -> NoDup (map fst (attrs c)) ->
  py_eq sub veq a a = true
  /\ py_eq sub veq a b = py_eq sub veq b a
  /\ (py_eq sub veq a b = true -> py_eq sub veq b c = true -> py_eq sub veq a c = true)
  /\ (py_eq sub veq a b = true -> hash vhash thash a = hash vhash thash b).
Proof.
  intros O R S T K a b c Na Nb Nc. repeat split.
  - apply py_eq_agree; auto. split; [reflexivity|]. now apply agree_refl.
  - apply eq_true_iff_eq. rewrite !py_eq_agree by assumption.
    split; intros [E F]; (split; [now symmetry|now apply agree_sym]).
  - rewrite !py_eq_agree by assumption. intros [E1 F1] [E2 F2]. split; [congruence|]. now apply (agree_trans T _ (attrs b)).
  - rewrite py_eq_agree by assumption. intros [_ F]. now apply hash_agree.
Qed.

Theorem private_ignored : class_order sub -> (forall x, veq x x = true) -> forall a b : obj,
  NoDup (map fst (attrs a)) -> NoDup (map fst (attrs b)) -> cls a = cls b -> visible (attrs a) = visible (attrs b) ->
  py_eq sub veq a b = true /\ hash vhash thash a = hash vhash thash b.
Proof.
  intros O R a b Na Nb E F. split.
  - apply py_eq_agree; auto. split; [exact E|]. unfold agree. rewrite F. apply agree_refl. exact R.
  - unfold hash. rewrite !public_visible, F. reflexivity.
Qed.

Theorem plain_raises : forall a : obj, py_eq_value sub veq a (Plain) = Err TypeError.
Proof. reflexivity. Qed.

Context {P : Type} (heqb : H -> H -> bool) (trace : obj -> P).

Theorem jit_transparent : class_order sub ->
  (forall a b : obj, cls a = cls b -> agree veq (attrs a) (attrs b) -> trace a = trace b) ->
  forall os, Forall (fun o => NoDup (map fst (attrs o))) os ->
  jit_calls sub veq vhash thash heqb trace [] os = map trace os.
Proof.
  intros O T os N.
  assert (G : forall os c, Forall (fun o => NoDup (map fst (attrs o))) os ->
    Forall (fun e => NoDup (map fst (attrs (fst e))) /\ snd e = trace (fst e)) c ->
    jit_calls sub veq vhash thash heqb trace c os = map trace os).
  { clear os N. induction os as [|o os IH]; intros c N Fc; [reflexivity|]. inversion N as [|? ? N1 N2]; subst.
    cbn [jit_calls map]. unfold jit_call, jit_lookup.
    destruct (find _ c) as [[o' p]|] eqn:Ef.
    - cbn [fst snd]. apply find_some in Ef. destruct Ef as [I E]. cbn [fst] in E.
      rewrite Forall_forall in Fc. destruct (Fc _ I) as [N' E']. cbn [fst snd] in *. apply andb_true_iff in E. destruct E as [_ E].
      apply py_eq_agree in E; auto. destruct E as [E1 E2]. rewrite E', (T o' o) by assumption. f_equal. apply IH; [assumption|]. now apply Forall_forall.
    - f_equal. apply IH; [assumption|]. apply Forall_app. split; [assumption|]. repeat constructor. exact N1. }
  apply G; [exact N|constructor].
Qed.

Theorem jit_reuses : class_order sub -> (forall h, heqb h h = true) -> (forall x y, veq x y = true -> vhash x = vhash y) ->
  (forall x y z, veq x y = true -> veq y z = true -> veq x z = true) ->
  forall (c : cache C V P) (a b : obj), Forall (fun e => NoDup (map fst (attrs (fst e)))) c ->
  NoDup (map fst (attrs a)) -> NoDup (map fst (attrs b)) -> py_eq sub veq a b = true ->
  let c' := snd (jit_call sub veq vhash thash heqb trace c a) in
  snd (jit_call sub veq vhash thash heqb trace c' b) = c'.
Proof.
  intros O Hh K T c a b Nc Na Nb E. cbv zeta. apply py_eq_agree in E; auto. destruct E as [E1 E2].
  assert (G : forall e (c' : cache C V P), In e c' -> NoDup (map fst (attrs (fst e))) -> cls (fst e) = cls b ->
    agree veq (attrs (fst e)) (attrs b) -> snd (jit_call sub veq vhash thash heqb trace c' b) = c').
  { intros e c' I Ne X Y. unfold jit_call, jit_lookup.
    destruct (find (fun e => heqb (hash vhash thash (fst e)) (hash vhash thash b) && py_eq sub veq (fst e) b) c') as [[o p]|] eqn:Eb; [reflexivity|].
    exfalso. assert (Z := find_none _ _ Eb e I). cbv beta in Z. rewrite (hash_agree K (fst e) b Y), Hh in Z. cbn [andb] in Z.
    assert (W : py_eq sub veq (fst e) b = true) by (apply py_eq_agree; auto). congruence. }
  unfold jit_call at 2 3. unfold jit_lookup.
  destruct (find (fun e => heqb (hash vhash thash (fst e)) (hash vhash thash a) && py_eq sub veq (fst e) a) c) as [[o p]|] eqn:Ea; cbn [fst snd].
  - apply find_some in Ea. destruct Ea as [I X]. apply andb_true_iff in X. destruct X as [_ X]. cbn [fst] in X.
    rewrite Forall_forall in Nc. assert (No := Nc _ I). apply py_eq_agree in X; auto. destruct X as [X1 X2].
    apply (G (o, p)); auto; cbn [fst]; [congruence|]. now apply (agree_trans T _ (attrs a)).
  - apply (G (a, trace a)); auto. apply in_or_app. right. now left.
Qed.
End Hashable.

(** ---- refutations: classes are booleans ([true] a subclass of [false]) and values numbers ---- *)
Definition bool_sub (c d : bool) : bool := implb d c.
Lemma bool_sub_order : class_order bool_sub.
Proof. split; [now intros []|now intros [] []]. Qed.

Theorem method_asymmetric : exists (sub : bool -> bool -> bool) (a b : obj bool nat), class_order sub
  /\ NoDup (map fst (attrs a)) /\ NoDup (map fst (attrs b))
  /\ eq_method sub Nat.eqb a (Obj b) = Ok true /\ eq_method sub Nat.eqb b (Obj a) = Ok false.
Proof.
  exists bool_sub, (mk_obj false [("x"%string, 1)]), (mk_obj true [("x"%string, 1)]).
  split; [apply bool_sub_order|]. repeat split; repeat constructor; cbn; intuition.
Qed.

Theorem order_matters : exists (sub : bool -> bool -> bool) (a b : obj bool nat), class_order sub
  /\ NoDup (map fst (attrs a)) /\ NoDup (map fst (attrs b)) /\ cls a = cls b
  /\ Permutation (attrs a) (attrs b) /\ py_eq sub Nat.eqb a b = false
  /\ forall (H : Type) (vhash : nat -> H) thash, hash vhash thash a = hash vhash thash b.
Proof.
  exists bool_sub, (mk_obj false [("x"%string, 1); ("y"%string, 2)]), (mk_obj false [("y"%string, 2); ("x"%string, 1)]).
  split; [apply bool_sub_order|].
  split; [cbn; repeat constructor; cbn; intuition discriminate|].
  split; [cbn; repeat constructor; cbn; intuition discriminate|].
  split; [reflexivity|]. split; [apply perm_swap|]. split; reflexivity.
Qed.

Theorem jit_stale : exists (sub : bool -> bool -> bool) (trace : obj bool nat -> option nat) (a b : obj bool nat), class_order sub
  /\ NoDup (map fst (attrs a)) /\ NoDup (map fst (attrs b))
  /\ forall (H : Type) (vhash : nat -> H) thash heqb, (forall h, heqb h h = true) ->
     jit_calls sub Nat.eqb vhash thash heqb trace [] [a; b] = [trace a; trace a] /\ trace a <> trace b.
Proof.
  exists bool_sub, (fun o => assoc_get "_rank" (attrs o)),
    (mk_obj false [("x"%string, 1); ("_rank"%string, 2)]), (mk_obj false [("x"%string, 1); ("_rank"%string, 3)]).
  split; [apply bool_sub_order|].
  split; [cbn; repeat constructor; cbn; intuition discriminate|].
  split; [cbn; repeat constructor; cbn; intuition discriminate|].
  intros H vhash thash heqb R. split; [|discriminate]. cbn. unfold jit_call, jit_lookup. cbn. rewrite R. reflexivity.
Qed.

(** ---- devices ---- *)
Theorem trainer_choice : forall devices platforms disable_jit,
  select_trainer devices platforms disable_jit =
    if (devices =? 0)%Z then Ok (if disable_jit then BaseTrainer else JittedTrainer)
    else if (devices =? -1)%Z then Ok (if in_dec string_dec "gpu"%string platforms then MultiDeviceTrainer else JittedTrainer)
    else Err NotImplementedErr.
Proof.
  intros d ps j. unfold select_trainer. destruct (d =? 0)%Z eqn:E0.
  - apply Z.eqb_eq in E0. subst d. now destruct j.
  - destruct (d =? -1)%Z eqn:E1; [|reflexivity]. cbn [orb negb]. do 2 f_equal.
    destruct (in_dec string_dec "gpu"%string ps) as [I|N].
    + destruct (filter (fun p => String.eqb p "gpu") ps) as [|x l] eqn:F; [|reflexivity].
      assert (X : In "gpu"%string (filter (fun p => String.eqb p "gpu") ps)) by (apply filter_In; now split). rewrite F in X. destruct X.
    + destruct (filter (fun p => String.eqb p "gpu") ps) as [|x l] eqn:F; [reflexivity|].
      exfalso. assert (X : In x (filter (fun p => String.eqb p "gpu") ps)) by (rewrite F; now left).
      apply filter_In in X. destruct X as [X Y]. apply String.eqb_eq in Y. subst x. now apply N.
Qed.

Theorem jit_disabled_only_on_cpu : forall devices platforms disable_jit,
  select_trainer devices platforms disable_jit = Ok BaseTrainer <-> devices = 0%Z /\ disable_jit = true.
Proof.
  intros d ps j. rewrite trainer_choice. destruct (d =? 0)%Z eqn:E0.
  - apply Z.eqb_eq in E0. subst d. destruct j; [now split|]. split; [discriminate|intros [_ X]; discriminate].
  - destruct (d =? -1)%Z; [destruct (in_dec _ _ _)|]; split; try discriminate; intros [X _]; subst d; discriminate.
Qed.

Theorem several_devices_need_gpu : forall devices platforms disable_jit,
  select_trainer devices platforms disable_jit = Ok MultiDeviceTrainer <-> devices = (-1)%Z /\ In "gpu"%string platforms.
Proof.
  intros d ps j. rewrite trainer_choice. destruct (d =? 0)%Z eqn:E0.
  - apply Z.eqb_eq in E0. subst d. destruct j; split; try discriminate; intros [X _]; discriminate.
  - destruct (d =? -1)%Z eqn:E1.
    + apply Z.eqb_eq in E1. subst d. destruct (in_dec string_dec "gpu"%string ps) as [I|N]; [split; [now split|reflexivity]|split; [discriminate|intros [_ X]; contradiction]].
    + split; [discriminate|]. intros [X _]. subst d. discriminate.
Qed.

Theorem dynamic_scale_half : forall d, uses_dynamic_scale d = true <-> d = Some Float16 \/ d = Some BFloat16.
Proof. intros [[]|]; cbn; intuition discriminate. Qed.

(** ---- sagemaker ---- *)
Lemma app_empty : forall s, (s ++ "" = s)%string.
Proof. induction s as [|c s IH]; cbn; [reflexivity|now rewrite IH]. Qed.
Lemma app_assoc_s : forall a b c, ((a ++ b) ++ c = a ++ (b ++ c))%string.
Proof. induction a as [|x a IH]; intros b c; cbn; [reflexivity|now rewrite IH]. Qed.

Lemma list_app_s : forall a b, list_ascii_of_string (a ++ b) = (list_ascii_of_string a ++ list_ascii_of_string b)%list.
Proof. induction a as [|c a IH]; intros b; cbn; [reflexivity|now rewrite IH]. Qed.
Lemma ends_with_slash_spec : forall s, ends_with_slash s = true <-> exists p, s = (p ++ "/")%string.
Proof.
  intros s. unfold ends_with_slash. split.
  - destruct (rev (list_ascii_of_string s)) as [|c r] eqn:E; [discriminate|]. intros H.
    assert (C : c = "/"%char) by (destruct c as [[] [] [] [] [] [] [] []]; first [reflexivity|discriminate]). subst c.
    exists (string_of_list_ascii (rev r)). rewrite <- (string_of_list_ascii_of_string s), <- (string_of_list_ascii_of_string (_ ++ "/")%string).
    f_equal. rewrite list_app_s, list_ascii_of_string_of_list_ascii. rewrite <- (rev_involutive (list_ascii_of_string s)), E. reflexivity.
  - intros [p ->]. rewrite list_app_s, rev_app_distr. reflexivity.
Qed.
Lemma with_slash_eq : forall base root, with_slash base root -> (if ends_with_slash base then base else (base ++ "/")%string) = root.
Proof.
  intros base root [[H ->]|[H ->]].
  - apply ends_with_slash_spec in H. now rewrite H.
  - destruct (ends_with_slash base) eqn:E; [|reflexivity]. apply ends_with_slash_spec in E as [p E]. now apply H in E.
Qed.
Theorem with_slash_total : forall base, exists root, with_slash base root.
Proof.
  intros base. destruct (ends_with_slash base) eqn:E.
  - exists base. left. split; [now apply ends_with_slash_spec|reflexivity].
  - exists (base ++ "/")%string. right. split; [|reflexivity]. intros p ->. rewrite (proj2 (ends_with_slash_spec _)) in E; [discriminate|eauto].
Qed.

Theorem channels_spec : forall base root train test validation, with_slash base root ->
  let path p := match p with Some r => (root ++ r)%string | None => root end in
  let given p := exists r, p = Some r /\ r <> ""%string in
  assoc_get "train" (create_input_channels base train test validation) = Some (path train)
  /\ (forall name p, (name = "test" /\ p = test \/ name = "validation" /\ p = validation)%string ->
       (given p -> assoc_get name (create_input_channels base train test validation) = Some (path p))
       /\ (~ given p -> assoc_get name (create_input_channels base train test validation) = None))
  /\ (forall name d, assoc_get name (create_input_channels base train test validation) = Some d ->
       (name = "train" \/ name = "test" \/ name = "validation")%string).
Proof.
  intros base root train test validation W path given. apply with_slash_eq in W.
  assert (RS : forall p, relative p = None /\ ~ given p /\ path p = root \/ exists r, p = Some r /\ r <> ""%string /\ relative p = Some r).
  { intros [[|c s]|].
    - left. split; [reflexivity|]. split; [intros [r [E N]]; injection E as <-; now apply N|]. unfold path. apply app_empty.
    - right. exists (String c s). repeat split; discriminate.
    - left. split; [reflexivity|]. split; [intros [r [E _]]; discriminate|]. reflexivity. }
  assert (G : create_input_channels base train test validation
    = ([("train", path train)] ++ (match relative test with Some p => [("test", (root ++ p)%string)] | None => [] end)
      ++ (match relative validation with Some p => [("validation", (root ++ p)%string)] | None => [] end))%list%string).
  { unfold create_input_channels. cbv zeta. rewrite W.
    assert (T : match relative train with Some p => [("train", (root ++ p)%string)] | None => [("train", root)] end%string = [("train", path train)]%string).
    { destruct (RS train) as [[A [_ A']]|[r [A [A' A'']]]]; [now rewrite A, A'|]. rewrite A''. now subst train. }
    rewrite T. destruct (relative test), (relative validation); reflexivity. }
  rewrite G. split; [reflexivity|]. split.
  - intros name p [[-> ->]|[-> ->]].
    + destruct (RS test) as [[B [B' _]]|[r' [B [B' B'']]]].
      * rewrite B. split; [intros X; contradiction|]. intros _. destruct (relative validation); reflexivity.
      * rewrite B''. subst test. split; [reflexivity|]. intros X. exfalso. apply X. now exists r'.
    + destruct (RS validation) as [[B [B' _]]|[r' [B [B' B'']]]].
      * rewrite B. split; [intros X; contradiction|]. intros _. destruct (relative test); reflexivity.
      * rewrite B''. subst validation. split; [destruct (relative test); reflexivity|]. intros X. exfalso. apply X. now exists r'.
  - intros name d. cbn [app assoc_get]. destruct (String.eqb name "train") eqn:E1; [apply String.eqb_eq in E1; auto|].
    destruct (relative test); cbn [app assoc_get].
    + destruct (String.eqb name "test") eqn:E2; [apply String.eqb_eq in E2; auto|].
      destruct (relative validation); cbn [app assoc_get]; [|discriminate]. destruct (String.eqb name "validation") eqn:E3; [apply String.eqb_eq in E3; auto|discriminate].
    + destruct (relative validation); cbn [app assoc_get]; [|discriminate]. destruct (String.eqb name "validation") eqn:E3; [apply String.eqb_eq in E3; auto|discriminate].
Qed.

Lemma dashes_app : forall a b, dashes (a ++ b)%string = (dashes a ++ dashes b)%string.
Proof. induction a as [|c a IH]; intros b; cbn; [reflexivity|now rewrite IH]. Qed.
Lemma dashes_no_underscore : forall s, ~ occurs "_"%char (dashes s).
Proof.
  induction s as [|c s IH]; [intros []|]. intros [E|I]; [|now apply IH].
  destruct (Ascii.eqb c "_") eqn:Ec; [discriminate|]. subst c. discriminate.
Qed.
Lemma dashes_id : forall s, ~ occurs "_"%char s -> dashes s = s.
Proof.
  induction s as [|c s IH]; intros N; [reflexivity|]. cbn [dashes]. rewrite IH by (intros I; apply N; now right).
  destruct (Ascii.eqb c "_") eqn:E; [|reflexivity]. apply Ascii.eqb_eq in E. subst c. exfalso. apply N. now left.
Qed.
Lemma dashes_length : forall s, String.length (dashes s) = String.length s.
Proof. induction s as [|c s IH]; cbn; [reflexivity|now rewrite IH]. Qed.

Theorem job_name : forall task method model suffix,
  ~ occurs "_"%char (get_base_job_name task method model suffix)
  /\ starts_with "fortuna-" (get_base_job_name task method model suffix)
  /\ (~ occurs "_"%char (task ++ method ++ model) -> suffix = None ->
      get_base_job_name task method model suffix = "fortuna-" ++ task ++ "-" ++ method ++ "-" ++ model)%string.
Proof.
  intros task method model suffix.
  assert (G : exists s, get_base_job_name task method model suffix = dashes ("fortuna-" ++ s)%string).
  { unfold get_base_job_name. cbv zeta. destruct suffix as [s|]; [|now eexists].
    exists ((task ++ "-" ++ method ++ "-" ++ model) ++ "-" ++ s)%string. now rewrite <- dashes_app, app_assoc_s. }
  destruct G as [s G]. split; [rewrite G; apply dashes_no_underscore|]. split.
  - rewrite G, dashes_app. now eexists.
  - intros N ->. unfold get_base_job_name. cbv zeta. apply dashes_id. clear G s. intros I. apply N.
    assert (A : forall a b, list_ascii_of_string (a ++ b)%string = (list_ascii_of_string a ++ list_ascii_of_string b)%list).
    { induction a as [|c a IH]; intros b; cbn; [reflexivity|now rewrite IH]. }
    unfold occurs in *. rewrite !A in I. rewrite !A. rewrite !in_app_iff in *. cbn in I. intuition discriminate.
Qed.

Lemma existsb_keys {A} : forall (a b : list (string * A)),
  existsb (fun k => existsb (String.eqb k) (map fst a)) (map fst b) = false <-> (forall k, In k (map fst a) -> ~ In k (map fst b)).
Proof.
  intros a b. rewrite <- not_true_iff_false, existsb_exists. split.
  - intros N k Ia Ib. apply N. exists k. split; [exact Ib|]. apply existsb_exists. exists k. split; [exact Ia|apply String.eqb_refl].
  - intros N [k [Ib E]]. apply existsb_exists in E. destruct E as [k' [Ia E]]. apply String.eqb_eq in E. subst k'. now apply (N k).
Qed.

Lemma assoc_app {A} : forall k (a b : list (string * A)), assoc_get k (a ++ b) = match assoc_get k a with Some v => Some v | None => assoc_get k b end.
Proof. intros k a b. induction a as [|[k' v] a IH]; cbn [app assoc_get]; [reflexivity|]. now destruct (String.eqb k k'). Qed.
Lemma assoc_none {A} : forall k (a : list (string * A)), ~ In k (map fst a) -> assoc_get k a = None.
Proof.
  intros k a. induction a as [|[k' v] a IH]; intros N; [reflexivity|]. cbn [assoc_get map fst] in *.
  destruct (String.eqb k k') eqn:E; [apply String.eqb_eq in E; subst k'; exfalso; apply N; now left|]. apply IH. intros I. apply N. now right.
Qed.

Theorem hparams_spec {A} : forall task model method : list (string * A),
  (get_hparams task model method = Err TypeError
   \/ exists d, get_hparams task model method = Ok d
        /\ Permutation d (task ++ model ++ method)
        /\ forall src k v, In src [task; model; method] -> assoc_get k src = Some v -> assoc_get k d = Some v)
  /\ (get_hparams task model method = Err TypeError <-> exists k,
        In k (map fst task) /\ In k (map fst model) \/ In k (map fst task) /\ In k (map fst method) \/ In k (map fst model) /\ In k (map fst method)).
Proof.
  intros task model method. unfold get_hparams, merge_kwargs.
  destruct (existsb (fun k => existsb (String.eqb k) (map fst task)) (map fst model)) eqn:E1; cbn [bind].
  - split; [now left|]. split; [intros _|reflexivity]. apply existsb_exists in E1. destruct E1 as [k [I X]].
    apply existsb_exists in X. destruct X as [k' [I' X]]. apply String.eqb_eq in X. subst k'. exists k. left. now split.
  - rewrite existsb_keys in E1.
    destruct (existsb (fun k => existsb (String.eqb k) (map fst (task ++ model))) (map fst method)) eqn:E2.
    + split; [now left|]. split; [intros _|reflexivity]. apply existsb_exists in E2. destruct E2 as [k [I X]].
      apply existsb_exists in X. destruct X as [k' [I' X]]. apply String.eqb_eq in X. subst k'. exists k.
      rewrite map_app, in_app_iff in I'. right. destruct I' as [I'|I']; [left|right]; now split.
    + rewrite existsb_keys in E2. rewrite map_app in E2. split.
      * right. exists ((task ++ model) ++ method). split; [reflexivity|]. split; [now rewrite app_assoc|].
        assert (J : forall k v (l : list (string * A)), assoc_get k l = Some v -> In k (map fst l)).
        { intros k v l X. destruct (in_dec string_dec k (map fst l)) as [I|N]; [exact I|]. rewrite assoc_none in X by exact N. discriminate. }
        intros src k v [<-|[<-|[<-|[]]]] X; assert (I := J _ _ _ X); rewrite !assoc_app.
        -- now rewrite X.
        -- rewrite (assoc_none k task), X; [reflexivity|]. intros I'. exact (E1 k I' I).
        -- rewrite (assoc_none k task), (assoc_none k model), X; [reflexivity| |]; intros I'; apply (E2 k); try exact I; apply in_or_app; auto.
      * split; [discriminate|]. intros [k [[I1 I2]|[[I1 I2]|[I1 I2]]]]; exfalso.
        -- exact (E1 k I1 I2).
        -- apply (E2 k); [apply in_or_app; now left|exact I2].
        -- apply (E2 k); [apply in_or_app; now right|exact I2].
Qed.
