From Coq Require Import List Arith ZArith QArith Qabs Qminmax Qround Bool Lia Lqa Sorted.
From Verif Require Import Lib LoaderProofs QuantModel QuantSpec QuantProofs ConfRegModel ConfRegProofs ConfClassModel ConfClassProofs ConfClassProofs2 ConfClassSpec ConfClassProofs3 MultiModel MultiSpec MultiProofs MultiProofs2 MultiProofs3 MultiProofs4 MultiProofs5 OneShotModel OneShotSpec OneShotProofs IterModel IterSpec IterProofs.
Import ListNotations.
Open Scope Q_scope.

(** ---- calibrate, case by case ---- *)
Lemma alike_of rnd f o o' : i_patches o = i_patches o' -> i_n o = i_n o' -> i_ptype o = i_ptype o' -> i_eta o = i_eta o' -> alike rnd f o o'.
Proof. intros A B C D g v. unfold iapply. rewrite A, B, C, D. reflexivity. Qed.
Definition finished (f : family) (o : object) (a : args) (ps : list (key * Q)) : object :=
  with_patches ps (with_args a (with_n (a_n a) (with_coverage f (a_coverage a) o))).
Lemma with_coverage_fields f c o : i_patches (with_coverage f c o) = i_patches o /\ i_n (with_coverage f c o) = i_n o /\ i_ptype (with_coverage f c o) = i_ptype o /\ i_eta (with_coverage f c o) = i_eta o.
Proof. destruct f; repeat split. Qed.
Lemma coverage_gate f a : fine f a -> match f with Mvp => outside (a_coverage a) | _ => false end = false.
Proof. intros (C & _). destruct f; [reflexivity|]. now apply outside_false, C. Qed.
Definition answer rnd f a (r : result status) (o : object) : result (status * option (option array)) :=
  match r with
  | Err e => Err e
  | Ok st => if given (a_test_groups a) || given (a_test_values a)
             then match iapply rnd f o (a_test_groups a) (a_test_values a) with Ok y => Ok (st, Some y) | Err e => Err e end
             else Ok (st, None)
  end.
Section Cases.
Variable rnd : random.
Hypothesis T : tame rnd.
Lemma start_shape f a l : in_scope f a -> fine f a -> t_array (a_targets a) = Vec l -> values_fine f (start_values rnd f a (length l)).
Proof.
  intros S (_ & _ & G & _ & V & _) E. unfold start_values. destruct (a_values a) as [v|] eqn:Ev; [now apply V|]. apply init_fine; [exact T|]. intros m ->. destruct G as (l' & _ & X). apply X.
Qed.
Lemma fit_some f a l taus pt : in_scope f a -> fine f a -> right_width f a -> t_array (a_targets a) = Vec l ->
  exists r ps, fit_object rnd f a taus pt (scores_of (kind_of f) l) (start_groups a (length l)) (start_values rnd f a (length l)) = Some (r, ps).
Proof.
  intros S F R E. assert (V := start_shape f a l S F E). destruct V as [V _]. unfold fit_object.
  assert (W : forall x : result status * list (key * Q), exists r ps, Some x = Some (r, ps)) by (intros [r ps]; now exists r, ps).
  destruct f as [[| |m]|]; cbn [kind_of needed] in V.
  1, 2, 4: destruct (start_values rnd _ a (length l)); [apply W|discriminate].
  destruct (start_values rnd (Mc (TopLabel m)) a (length l)) as [v|rows] eqn:Es; [discriminate|].
  assert (L : length (hd [] rows) = m).
  { unfold start_values in Es. destruct (a_values a) as [v|] eqn:Ev; [cbn in Es; subst v; now apply (R m rows)|].
    cbn [init_values] in Es. injection Es as <-. unfold start_groups. destruct S as (S1 & S2 & _). rewrite E in S1. cbn in S1.
    assert (P : (0 < length (g_rows (init_groups (a_groups a) (length l))))%nat). { destruct (a_groups a) as [g|] eqn:Eg; [now apply S2|]. cbn. now rewrite repeat_length. }
    destruct (length (g_rows (init_groups (a_groups a) (length l)))) as [|n]; [lia|]. cbn [seq map hd]. apply init_row_unit; [exact T|]. destruct F as (_ & _ & (l' & _ & X) & _). apply X. }
  rewrite L, Nat.eqb_refl. apply W.
Qed.
Lemma fit_none m a l taus pt : fine (Mc (TopLabel m)) a -> ~ right_width (Mc (TopLabel m)) a ->
  fit_object rnd (Mc (TopLabel m)) a taus pt (scores_of (TopLabel m) l) (start_groups a (length l)) (start_values rnd (Mc (TopLabel m)) a (length l)) = None.
Proof.
  intros F R. unfold fit_object, start_values. destruct (a_values a) as [v|] eqn:Ev; [|exfalso; apply R; intros ? ? _ X; congruence].
  destruct F as (_ & _ & _ & _ & V & _). destruct (V v Ev) as [X _]. cbn [init_values]. destruct v as [v|rows]; [discriminate|].
  destruct (Nat.eqb_spec (length (hd [] rows)) m) as [L|L]; [|reflexivity]. exfalso. apply R. intros m' rows' [= <-] E. rewrite Ev in E. now injection E as <-.
Qed.
Lemma calibrate_fine f o a : in_scope f a -> fine f a -> known_types a -> right_width f a ->
  exists l pt taus r ps, t_array (a_targets a) = Vec l /\ a_ptype a = Some pt /\ check_bucket_types (a_types a) = Ok taus /\
    fit_object rnd f a taus pt (scores_of (kind_of f) l) (start_groups a (length l)) (start_values rnd f a (length l)) = Some (r, ps) /\
    icalibrate rnd f o a = (answer rnd f a r (finished f o a ps), finished f o a ps).
Proof.
  intros S F K R. unfold icalibrate. rewrite (coverage_gate f a F). destruct (prepare_cases rnd T f a S (proj1 F)) as [(_ & l & E & P)|(N & _)]; [|contradiction].
  rewrite P. destruct (bucket_types (a_types a) K) as (taus & B & _). rewrite B. assert (PT := F). destruct PT as (_ & (_ & _ & _ & _ & PT & _) & _).
  destruct (a_ptype a) as [pt|] eqn:Ep; [|congruence]. destruct (fit_some f a l taus pt S F R E) as (r & ps & Ef). exists l, pt, taus, r, ps. rewrite Ef.
  repeat split; [exact E|]. destruct r as [st|e]; [|reflexivity]. unfold answer. fold (finished f o a ps). now destruct (given (a_test_groups a) || given (a_test_values a)).
Qed.
Theorem checks f o a : in_scope f a ->
  let r := icalibrate rnd f o a in
  (~ fine f a -> fst r = Err ValueError /\ alike rnd f (snd r) o) /\
  (fine f a -> ~ known_types a -> fst r = Err ValueError /\ i_patches (snd r) = i_patches o /\ i_n (snd r) = Some (a_n a) /\ i_eta (snd r) = i_eta o /\ i_ptype (snd r) = i_ptype o) /\
  (fine f a -> known_types a -> ~ right_width f a ->
     fst r = Err TypeError /\ i_patches (snd r) = i_patches o /\ i_n (snd r) = Some (a_n a) /\ i_eta (snd r) = Some (a_eta a) /\ i_ptype (snd r) = a_ptype a) /\
  (fine f a -> known_types a -> right_width f a ->
     i_n (snd r) = Some (a_n a) /\ i_eta (snd r) = Some (a_eta a) /\ i_ptype (snd r) = a_ptype a /\ (f = Mvp -> i_coverage (snd r) = Some (a_coverage a)) /\
     forall o', fst (icalibrate rnd f o' a) = fst r /\ alike rnd f (snd (icalibrate rnd f o' a)) (snd r)).
Proof.
  intros S r. split; [|split; [|split]].
  - intros N. unfold r, icalibrate. destruct (match f with Mvp => outside (a_coverage a) | _ => false end) eqn:G; [split; [reflexivity|now intros ? ?]|].
    assert (C : f = Mvp -> in_unit (a_coverage a)). { intros ->. now apply outside_false. }
    destruct (prepare_cases rnd T f a S C) as [(F & _)|(_ & P)]; [contradiction|]. rewrite P. split; [reflexivity|]. cbn [snd].
    destruct (with_coverage_fields f (a_coverage a) o) as (A & B & D & E). now apply alike_of.
  - intros F N. unfold r, icalibrate. rewrite (coverage_gate f a F). destruct (prepare_cases rnd T f a S (proj1 F)) as [(_ & l & E & P)|(X & _)]; [|contradiction]. rewrite P.
    assert (B : check_bucket_types (a_types a) = Err ValueError).
    { unfold check_bucket_types. destruct (existsb (fun b => (2 <? b)%nat) (a_types a)) eqn:X; [reflexivity|]. exfalso. apply N. intros t Ht. destruct (Nat.le_gt_cases t 2) as [L|L]; [exact L|].
      apply Bool.not_true_iff_false in X. exfalso. apply X. apply existsb_exists. exists t. split; [exact Ht|]. now apply Nat.ltb_lt. }
    rewrite B. cbn [fst snd]. destruct (with_coverage_fields f (a_coverage a) o) as (A & B' & D & E'). cbn. rewrite A, D, E'. repeat split.
  - intros F K R. unfold r, icalibrate. rewrite (coverage_gate f a F). destruct (prepare_cases rnd T f a S (proj1 F)) as [(_ & l & E & P)|(X & _)]; [|contradiction]. rewrite P.
    destruct (bucket_types (a_types a) K) as (taus & B & _). rewrite B. assert (PT := F). destruct PT as (_ & (_ & _ & _ & _ & PT & _) & _). destruct (a_ptype a) as [pt|] eqn:Ep; [|congruence].
    destruct f as [[| |m]|]; try (exfalso; apply R; intros ? ? X; discriminate). cbn [kind_of]. rewrite (fit_none m a l taus pt F R). cbn. repeat split. exact Ep.
  - intros F K R. destruct (calibrate_fine f o a S F K R) as (l & pt & taus & q & ps & E & Ep & B & Ef & Er). unfold r. rewrite Er. cbn [fst snd]. split; [reflexivity|]. split; [reflexivity|]. split; [reflexivity|].
    split; [intros ->; reflexivity|].
    intros o'. destruct (calibrate_fine f o' a S F K R) as (l' & pt' & taus' & q' & ps' & E' & Ep' & B' & Ef' & Er'). rewrite Er'. cbn [fst snd].
    rewrite E in E'. injection E' as <-. rewrite Ep in Ep'. injection Ep' as <-. rewrite B in B'. injection B' as <-. rewrite Ef in Ef'. injection Ef' as <- <-.
    assert (A : alike rnd f (finished f o' a ps) (finished f o a ps)) by (apply alike_of; reflexivity). split; [|exact A].
    unfold answer. destruct q as [st|e]; [|reflexivity]. rewrite (A (a_test_groups a) (a_test_values a)). reflexivity.
Qed.
End Cases.
