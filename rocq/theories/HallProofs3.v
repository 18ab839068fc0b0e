(** Proofs about the hallucination multicalibrator. *)
From Coq Require Import List Arith ZArith QArith Bool Reals Lia Lqa.
From Verif Require Import Lib QuantModel QuantProofs ConfRegModel ConfClassModel ConfClassProofs2 MultiModel MultiSpec MultiProofs MultiProofs2 MultiProofs3 TextModel TextProofs HallModel HallSpec HallProofs2.
Import ListNotations.
Local Notation length := List.length.
Local Notation concat := List.concat.
Open Scope Q_scope.
Open Scope list_scope.

Lemma mapM_map {A B} (f : A -> result B) g l : (forall x, In x l -> f x = Ok (g x)) -> mapM f l = Ok (map g l).
Proof. induction l as [|x l IH]; intros H; [reflexivity|]. cbn [mapM map]. rewrite (H x (or_introl eq_refl)), IH by (intros; apply H; now right). reflexivity. Qed.
Lemma combine_app {A B} (a a' : list A) (b b' : list B) : length a = length b -> combine (a ++ a') (b ++ b') = combine a b ++ combine a' b'.
Proof. revert b. induction a as [|x a IH]; intros [|y b] H; try discriminate; [reflexivity|]. cbn [app combine]. rewrite IH; [reflexivity|]. now injection H. Qed.
Lemma combine_concat {A B} (bs : list (list A * list B)) : Forall (fun p => length (fst p) = length (snd p)) bs ->
  combine (concat (map fst bs)) (concat (map snd bs)) = concat (map (fun b => combine (fst b) (snd b)) bs).
Proof. induction 1 as [|b bs H _ IH]; [reflexivity|]. cbn [map concat]. rewrite combine_app by assumption. now rewrite IH. Qed.

Section Flow.
Context {Rd G E T C : Type}.
Variable score : list T -> list C -> result (list (Q * E)).
Variable reduce_fit : Rd -> list E -> result (Rd * list E).
Variable reduce : Rd -> list E -> result (list E).
Variable group_fit : list (E * Q) -> result G.
Variable group_proba : G -> list (E * Q) -> list (list Q).
Variable clusters : G -> nat.
Variable cfg : config.
Variable calibrate : list Q -> list Z -> list (list bool) -> result (list (key * Q)).
Notation fit := (hm_fit score reduce_fit group_fit group_proba clusters cfg calibrate).
Notation proba := (hm_predict_proba score reduce group_proba).
Notation predict := (hm_predict score reduce group_proba).
Notation scores := (compute_scores score).

Lemma unfitted_proba red texts contexts b c : proba (hobject0 red) texts contexts b c = Err ValueError.
Proof. reflexivity. Qed.
Lemma unfitted_predict red texts contexts b c : predict (hobject0 red) texts contexts b c None = Err ValueError.
Proof. reflexivity. Qed.
Lemma label_of ps i p : nth_error ps i = Some p -> nth_error (map (fun x => if Qle_bool (1 # 2) x then 1%nat else 0%nat) ps) i = Some (if Qlt_le_dec p (1 # 2) then 0%nat else 1%nat).
Proof.
  intros H. rewrite (map_nth_error _ _ _ H). f_equal. destruct (Qlt_le_dec p (1 # 2)).
  - destruct (Qle_bool _ _) eqn:D; [|reflexivity]. apply Qle_bool_iff in D. lra.
  - now rewrite (proj2 (Qle_bool_iff _ _)).
Qed.
Lemma predict_given h texts contexts b c ps : exists ys, predict h texts contexts b c (Some ps) = Ok ys /\ length ys = length ps /\
  forall i p, nth_error ps i = Some p -> nth_error ys i = Some (if Qlt_le_dec p (1 # 2) then 0%nat else 1%nat).
Proof. eexists. split; [reflexivity|]. split; [apply map_length|]. apply label_of. Qed.
Lemma predict_same h texts contexts b c : predict h texts contexts b c None = bind (proba h texts contexts b c) (fun ps => predict h texts contexts b c (Some ps)).
Proof. unfold hm_predict. destruct (proba h texts contexts b c); reflexivity. Qed.

Lemma uncalibrated h texts contexts b : h_cal h <> None -> proba h texts contexts b false = rmap (map fst) (scores texts contexts b).
Proof. intros N. unfold hm_predict_proba. destruct (h_cal h) as [[c ps]|]; [|easy]. now destruct (scores texts contexts b). Qed.

Lemma proba_unit h texts contexts b c out :
  (forall ts cs r, score ts cs = Ok r -> Forall (fun p => unit_q (fst p)) r) ->
  (forall r es es', reduce r es = Ok es' -> length es' = length es) -> (forall g es, length (group_proba g es) = length es) ->
  proba h texts contexts b c = Ok out -> Forall unit_q out /\ exists se, scores texts contexts b = Ok se /\ length out = length se.
Proof.
  intros U RL GL H. unfold hm_predict_proba in H. destruct (h_cal h) as [[cf ps]|]; [|discriminate].
  destruct (scores texts contexts b) as [se|] eqn:S; [|discriminate]. cbn [bind] in H.
  assert (F : Forall unit_q (map fst se)).
  { unfold compute_scores in S. destruct (b =? 0)%nat; [discriminate|]. destruct (hbatch texts contexts b) as [bs|]; [|discriminate]. cbn [bind] in S.
    destruct (mapM _ bs) as [rs|] eqn:M; [|discriminate]. cbn [bind] in S. assert (X : se = concat rs) by (destruct rs; [discriminate|]; now injection S). subst se. clear S.
    revert rs M H. induction bs as [|x bs IH]; intros rs M H. injection M as <-. constructor.
    cbn [mapM bind] in M. destruct (score (fst x) (snd x)) as [r|] eqn:Sx; [|discriminate]. cbn [bind] in M. destruct (mapM _ bs) as [rs'|] eqn:M'; [|discriminate]. injection M as <-.
    cbn [concat]. rewrite map_app, Forall_app. split; [apply Forall_map, (U _ _ _ Sx)|]. clear H. clear IH Sx. revert rs' M'.
    induction bs as [|y bs IH]; intros rs' M'. injection M' as <-. constructor. cbn [mapM bind] in M'. destruct (score (fst y) (snd y)) as [ry|] eqn:Sy; [|discriminate]. cbn [bind] in M'.
    destruct (mapM _ bs) as [rs''|]; [|discriminate]. injection M' as <-. cbn [concat]. rewrite map_app, Forall_app. split; [apply Forall_map, (U _ _ _ Sy)|]. now apply IH. }
  destruct c; cbn [negb] in H.
  - destruct (reduce (h_red h) (map snd se)) as [emb|] eqn:R; [|discriminate]. cbn [bind] in H.
    destruct (h_group h) as [[g|]|]; destruct (h_quant h) as [q|]; try discriminate. injection H as <-.
    assert (L : length (get_groups q (group_proba g (combine emb (map fst se)))) = length (map fst se)).
    { unfold get_groups. rewrite map_length, GL, combine_length, (RL _ _ _ R), !map_length. lia. }
    split.
    + apply (scalar_unit multicalibrator); auto. left. reflexivity.
    + exists se. split; [reflexivity|]. unfold apply_patches. fold (apply_patches multicalibrator cf ps (get_groups q (group_proba g (combine emb (map fst se)))) (map fst se)).
      rewrite scalar_lengths by assumption. apply map_length.
  - injection H as <-. split; [assumption|]. exists se. split; [reflexivity|]. apply map_length.
Qed.

(** a scorer that looks at each text and context by itself *)
Lemma scores_pointwise (f : T -> C -> Q * E) texts contexts b :
  (forall ts cs, length ts = length cs -> score ts cs = Ok (map (fun p => f (fst p) (snd p)) (combine ts cs))) ->
  (1 <= b)%nat -> length texts = length contexts -> texts <> [] ->
  scores texts contexts b = Ok (map (fun p => f (fst p) (snd p)) (combine texts contexts)).
Proof.
  intros P B L N. unfold compute_scores. replace (b =? 0)%nat with false by (symmetry; apply Nat.eqb_neq; lia).
  destruct (hbatch_spec texts contexts b B L) as (bs & -> & CT & CC & F). cbn [bind].
  rewrite (mapM_map _ (fun x => map (fun p => f (fst p) (snd p)) (combine (fst x) (snd x)))).
  - cbn [bind]. assert (NB : bs <> []) by (intros ->; cbn in CT; now rewrite <- CT in N).
    replace (concat _) with (map (fun p => f (fst p) (snd p)) (combine texts contexts)). destruct bs; [easy|reflexivity].
    rewrite <- CT, <- CC, combine_concat, concat_map, map_map; [reflexivity|]. eapply Forall_impl; [|exact F]. now intros ? [].
  - intros x Hx. apply P. rewrite Forall_forall in F. now apply F.
Qed.
Lemma nth_error_combine {A B} (a : list A) (b : list B) i x y : nth_error a i = Some x -> nth_error b i = Some y -> nth_error (combine a b) i = Some (x, y).
Proof. revert b i. induction a as [|u a IH]; intros [|v b] [|i]; try discriminate. intros H K. injection H as ->. injection K as ->. reflexivity. cbn [combine nth_error]. apply IH. Qed.
Lemma proba_pointwise h texts contexts b b' c i t x (f : T -> C -> Q * E) (r : Rd -> E -> E) (g : G -> E * Q -> list Q) :
  (forall ts cs, length ts = length cs -> score ts cs = Ok (map (fun p => f (fst p) (snd p)) (combine ts cs))) ->
  (forall rd es, reduce rd es = Ok (map (r rd) es)) -> (forall gr es, group_proba gr es = map (g gr) es) ->
  (1 <= b)%nat -> (1 <= b')%nat -> length texts = length contexts -> nth_error texts i = Some t -> nth_error contexts i = Some x ->
  match proba h texts contexts b c, proba h [t] [x] b' c with
  | Ok out, Ok out1 => exists p, nth_error out i = Some p /\ out1 = [p]
  | Err e, Err e' => e = e'
  | _, _ => False
  end.
Proof.
  intros PS PR PG B B' L Ht Hx. assert (N : texts <> []) by (intros ->; destruct i; discriminate).
  unfold hm_predict_proba. destruct (h_cal h) as [[cf ps]|]; [|reflexivity].
  rewrite (scores_pointwise f) by assumption. rewrite (scores_pointwise f [t] [x]) by (auto; discriminate). cbn [bind combine map fst snd].
  set (se := map (fun p => f (fst p) (snd p)) (combine texts contexts)).
  assert (Hse : nth_error se i = Some (f t x)). { unfold se. now rewrite (map_nth_error _ _ _ (nth_error_combine _ _ _ _ _ Ht Hx)). }
  destruct c; cbn [negb].
  - rewrite !PR. cbn [bind map]. destruct (h_group h) as [[gr|]|]; destruct (h_quant h) as [q|]; try reflexivity. rewrite !PG.
    set (groups := get_groups q (map (g gr) (combine (map (r (h_red h)) (map snd se)) (map fst se)))).
    assert (LG : length groups = length (map fst se)). { unfold groups, get_groups. rewrite !map_length, combine_length, !map_length. lia. }
    assert (Hv : nth_error (map fst se) i = Some (fst (f t x))) by now rewrite (map_nth_error _ _ _ Hse).
    assert (Hg : nth_error groups i = nth_error (get_groups q [g gr (r (h_red h) (snd (f t x)), fst (f t x))]) 0).
    { apply groups_pointwise. apply map_nth_error, nth_error_combine; [|assumption]. apply map_nth_error, map_nth_error, Hse. }
    cbn [get_groups map nth_error] in Hg.
    assert (X := replay_pointwise Q multicalibrator cf ps groups (map fst se) i _ _ Hg Hv LG).
    cbn [combine map get_groups]. change (fst (r (h_red h) (snd (f t x)), fst (f t x))) with (r (h_red h) (snd (f t x))) in *.
    set (row := zip_with _ _ _ ++ [true]) in *.
    assert (LL := scalar_lengths multicalibrator cf ps [row] [fst (f t x)] eq_refl).
    destruct (apply_patches multicalibrator cf ps [row] [fst (f t x)]) as [|p [|p2 l]]; try discriminate LL. exists p. split; [exact X|reflexivity].
  - exists (fst (f t x)). split; [|reflexivity]. now rewrite (map_nth_error _ _ _ Hse).
Qed.

(** ---- fit ---- *)
Lemma fit_then_predict h texts contexts targets b t h' se red emb :
  fit h texts contexts targets b t = (h', Ok tt) -> scores texts contexts b = Ok se ->
  reduce_fit (h_red h) (map snd se) = Ok (red, emb) -> reduce red (map snd se) = Ok emb ->
  exists groups patches, calibrate (map fst se) targets groups = Ok patches /\
    (forall row, In row groups -> last row false = true) /\
    (exists g, group_fit (combine emb (map fst se)) = Ok g /\
       groups = get_groups (compute_quantile (clusters g) (group_proba g (combine emb (map fst se))) t) (group_proba g (combine emb (map fst se)))) /\
    proba h' texts contexts b true = Ok (apply_patches multicalibrator cfg patches groups (map fst se)) /\
    proba h' texts contexts b false = Ok (map fst se).
Proof.
  intros F S RF R. unfold hm_fit in F. rewrite S, RF in F.
  destruct (group_fit (combine emb (map fst se))) as [g|] eqn:GF; [|discriminate].
  destruct (Qlt_bool t 0 || Qlt_bool 1 t); [discriminate|].
  destruct (check_binary_targets targets) as [[]|]; [|discriminate]. cbn [bind] in F.
  destruct (calibrate _ _ _) as [ps|] eqn:CA; [|discriminate]. injection F as <-.
  eexists. exists ps. split; [exact CA|]. split.
  - unfold get_groups. intros row I. apply in_map_iff in I as (r0 & <- & _). apply last_last.
  - split; [now exists g|]. unfold hm_predict_proba. cbn [h_cal h_red h_group h_quant]. rewrite S. cbn [bind negb]. rewrite R. split; reflexivity.
Qed.
Lemma failed_fit h texts contexts targets b t h' e : fit h texts contexts targets b t = (h', Err e) -> h_cal h' = h_cal h \/ h_cal h' = Some (cfg, []).
Proof.
  unfold hm_fit. destruct (scores texts contexts b) as [se|]; [|intros X; injection X as <- _; now left].
  destruct (reduce_fit (h_red h) (map snd se)) as [[red emb]|]; [|intros X; injection X as <- _; now left].
  destruct (group_fit _) as [g|]; [|intros X; injection X as <- _; now left].
  destruct (Qlt_bool t 0 || Qlt_bool 1 t); [intros X; injection X as <- _; now left|].
  destruct (bind _ _) as [ps|]; intros X; [discriminate|]. injection X as <- _. now right.
Qed.
Lemma failed_calibration h texts contexts targets b t se red emb g : scores texts contexts b = Ok se -> reduce_fit (h_red h) (map snd se) = Ok (red, emb) ->
  group_fit (combine emb (map fst se)) = Ok g -> 0 <= t -> t <= 1 -> (forall y, In y targets -> y = 1%Z) ->
  exists h', fit h texts contexts targets b t = (h', Err ValueError) /\
    forall texts' contexts' b' se', scores texts' contexts' b' = Ok se' -> (exists emb', reduce red (map snd se') = Ok emb') ->
      proba h' texts' contexts' b' true = Ok (map fst se').
Proof.
  intros S RF GF T0 T1 Y. unfold hm_fit. rewrite S, RF, GF.
  replace (Qlt_bool t 0 || Qlt_bool 1 t) with false.
  2:{ symmetry. apply orb_false_iff. split; apply not_true_is_false; intros D; apply Qltb_true in D; lra. }
  replace (check_binary_targets targets) with (@Err unit ValueError).
  2:{ unfold check_binary_targets. replace (existsb (fun y => (y =? 0)%Z) targets) with false. now rewrite andb_false_r. symmetry. apply not_true_is_false. intros D. apply existsb_exists in D as (y & I & D). apply Z.eqb_eq in D. rewrite (Y y I) in D. discriminate. }
  cbn [bind]. eexists. split; [reflexivity|]. intros texts' contexts' b' se' S' (emb' & R'). unfold hm_predict_proba. cbn [h_cal h_red h_group h_quant]. rewrite S'. cbn [bind negb]. now rewrite R'.
Qed.
Lemma refit_reduces_only h texts contexts targets b t h' e : fit h texts contexts targets b t = (h', Err e) -> h_cal h = None ->
  (forall texts' contexts' b' c, proba h' texts' contexts' b' c = Err ValueError) \/ h_cal h' = Some (cfg, []).
Proof.
  intros F N. destruct (failed_fit _ _ _ _ _ _ _ _ F) as [E0|E0]; [left|now right]. intros. unfold hm_predict_proba. now rewrite E0, N.
Qed.
Lemma save_load h h0 : hm_load (hm_save h) h0 = h :> hobject Rd G.
Proof. destruct h. reflexivity. Qed.
Lemma loaded_predicts h h0 texts contexts b c : proba (hm_load (hm_save h) h0) texts contexts b c = proba h texts contexts b c.
Proof. now rewrite save_load. Qed.
End Flow.

(** the same with all parameters written out *)
Lemma unfitted_proba' : forall Rd G E T C (score : list T -> list C -> result (list (Q * E))) (reduce : Rd -> list E -> result (list E)) (group_proba : G -> list (E * Q) -> list (list Q)) red texts contexts b c,
  hm_predict_proba score reduce group_proba (hobject0 red) texts contexts b c = Err ValueError.
Proof. intros Rd G E T C. apply unfitted_proba. Qed.
Lemma unfitted_predict' : forall Rd G E T C (score : list T -> list C -> result (list (Q * E))) (reduce : Rd -> list E -> result (list E)) (group_proba : G -> list (E * Q) -> list (list Q)) red texts contexts b c,
  hm_predict score reduce group_proba (hobject0 red) texts contexts b c None = Err ValueError.
Proof. intros Rd G E T C. apply unfitted_predict. Qed.
Lemma predict_given' : forall Rd G E T C (score : list T -> list C -> result (list (Q * E))) (reduce : Rd -> list E -> result (list E)) (group_proba : G -> list (E * Q) -> list (list Q)) h texts contexts b c ps,
  exists ys, hm_predict score reduce group_proba h texts contexts b c (Some ps) = Ok ys /\ length ys = length ps /\
  forall i p, nth_error ps i = Some p -> nth_error ys i = Some (if Qlt_le_dec p (1 # 2) then 0%nat else 1%nat).
Proof. intros Rd G E T C. apply predict_given. Qed.
Lemma predict_same' : forall Rd G E T C (score : list T -> list C -> result (list (Q * E))) (reduce : Rd -> list E -> result (list E)) (group_proba : G -> list (E * Q) -> list (list Q)) h texts contexts b c,
  hm_predict score reduce group_proba h texts contexts b c None = bind (hm_predict_proba score reduce group_proba h texts contexts b c) (fun ps => hm_predict score reduce group_proba h texts contexts b c (Some ps)).
Proof. intros Rd G E T C. apply predict_same. Qed.
Lemma uncalibrated' : forall Rd G E T C (score : list T -> list C -> result (list (Q * E))) (reduce : Rd -> list E -> result (list E)) (group_proba : G -> list (E * Q) -> list (list Q)) h texts contexts b,
  h_cal h <> None -> hm_predict_proba score reduce group_proba h texts contexts b false = rmap (map fst) (compute_scores score texts contexts b).
Proof. intros Rd G E T C. apply uncalibrated. Qed.
Lemma proba_unit' : forall Rd G E T C (score : list T -> list C -> result (list (Q * E))) (reduce : Rd -> list E -> result (list E)) (group_proba : G -> list (E * Q) -> list (list Q)) h texts contexts b c out,
    (forall ts cs r, score ts cs = Ok r -> Forall (fun p => unit_q (fst p)) r) ->
  (forall r es es', reduce r es = Ok es' -> length es' = length es) -> (forall g es, length (group_proba g es) = length es) ->
  hm_predict_proba score reduce group_proba h texts contexts b c = Ok out -> Forall unit_q out /\ exists se, compute_scores score texts contexts b = Ok se /\ length out = length se.
Proof. intros Rd G E T C. apply proba_unit. Qed.
Lemma proba_pointwise' : forall Rd G E T C (score : list T -> list C -> result (list (Q * E))) (reduce : Rd -> list E -> result (list E)) (group_proba : G -> list (E * Q) -> list (list Q)) h texts contexts b b' c i t x (f : T -> C -> Q * E) (r : Rd -> E -> E) (g : G -> E * Q -> list Q),
    (forall ts cs, length ts = length cs -> score ts cs = Ok (map (fun p => f (fst p) (snd p)) (combine ts cs))) ->
  (forall rd es, reduce rd es = Ok (map (r rd) es)) -> (forall gr es, group_proba gr es = map (g gr) es) ->
  (1 <= b)%nat -> (1 <= b')%nat -> length texts = length contexts -> nth_error texts i = Some t -> nth_error contexts i = Some x ->
  match hm_predict_proba score reduce group_proba h texts contexts b c, hm_predict_proba score reduce group_proba h [t] [x] b' c with
  | Ok out, Ok out1 => exists p, nth_error out i = Some p /\ out1 = [p]
  | Err e, Err e' => e = e'
  | _, _ => False
  end.
Proof. intros Rd G E T C. apply proba_pointwise. Qed.
Lemma fit_then_predict' : forall Rd G E T C (score : list T -> list C -> result (list (Q * E))) (reduce_fit : Rd -> list E -> result (Rd * list E)) (reduce : Rd -> list E -> result (list E)) (group_fit : list (E * Q) -> result G) (group_proba : G -> list (E * Q) -> list (list Q)) (clusters : G -> nat) (cfg : config) (calibrate : list Q -> list Z -> list (list bool) -> result (list (key * Q))) h texts contexts targets b t h' se red emb,
    hm_fit score reduce_fit group_fit group_proba clusters cfg calibrate h texts contexts targets b t = (h', Ok tt) -> compute_scores score texts contexts b = Ok se ->
  reduce_fit (h_red h) (map snd se) = Ok (red, emb) -> reduce red (map snd se) = Ok emb ->
  exists groups patches, calibrate (map fst se) targets groups = Ok patches /\
    (forall row, In row groups -> last row false = true) /\
    (exists g, group_fit (combine emb (map fst se)) = Ok g /\
       groups = get_groups (compute_quantile (clusters g) (group_proba g (combine emb (map fst se))) t) (group_proba g (combine emb (map fst se)))) /\
    hm_predict_proba score reduce group_proba h' texts contexts b true = Ok (apply_patches multicalibrator cfg patches groups (map fst se)) /\
    hm_predict_proba score reduce group_proba h' texts contexts b false = Ok (map fst se).
Proof. intros Rd G E T C. apply fit_then_predict. Qed.
Lemma failed_fit' : forall Rd G E T C (score : list T -> list C -> result (list (Q * E))) (reduce_fit : Rd -> list E -> result (Rd * list E)) (group_fit : list (E * Q) -> result G) (group_proba : G -> list (E * Q) -> list (list Q)) (clusters : G -> nat) (cfg : config) (calibrate : list Q -> list Z -> list (list bool) -> result (list (key * Q))) h texts contexts targets b t h' e,
  hm_fit score reduce_fit group_fit group_proba clusters cfg calibrate h texts contexts targets b t = (h', Err e) -> h_cal h' = h_cal h \/ h_cal h' = Some (cfg, []).
Proof. intros Rd G E T C. apply failed_fit. Qed.
Lemma failed_calibration' : forall Rd G E T C (score : list T -> list C -> result (list (Q * E))) (reduce_fit : Rd -> list E -> result (Rd * list E)) (reduce : Rd -> list E -> result (list E)) (group_fit : list (E * Q) -> result G) (group_proba : G -> list (E * Q) -> list (list Q)) (clusters : G -> nat) (cfg : config) (calibrate : list Q -> list Z -> list (list bool) -> result (list (key * Q))) h texts contexts targets b t se red emb g,
  compute_scores score texts contexts b = Ok se -> reduce_fit (h_red h) (map snd se) = Ok (red, emb) ->
  group_fit (combine emb (map fst se)) = Ok g -> 0 <= t -> t <= 1 -> (forall y, In y targets -> y = 1%Z) ->
  exists h', hm_fit score reduce_fit group_fit group_proba clusters cfg calibrate h texts contexts targets b t = (h', Err ValueError) /\
    forall texts' contexts' b' se', compute_scores score texts' contexts' b' = Ok se' -> (exists emb', reduce red (map snd se') = Ok emb') ->
      hm_predict_proba score reduce group_proba h' texts' contexts' b' true = Ok (map fst se').
Proof. intros Rd G E T C. apply failed_calibration. Qed.
Lemma save_load' : forall Rd G  (h h0 : hobject Rd G),
  hm_load (hm_save h) h0 = h.
Proof. intros Rd G. apply save_load. Qed.
Lemma loaded_predicts' : forall Rd G E T C (score : list T -> list C -> result (list (Q * E))) (reduce : Rd -> list E -> result (list E)) (group_proba : G -> list (E * Q) -> list (list Q)) h h0 texts contexts b c,
  hm_predict_proba score reduce group_proba (hm_load (hm_save h) h0) texts contexts b c = hm_predict_proba score reduce group_proba h texts contexts b c.
Proof. intros Rd G E T C. apply loaded_predicts. Qed.
