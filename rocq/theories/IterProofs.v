From Coq Require Import List Arith ZArith QArith Qabs Qminmax Qround Bool Lia Lqa.
From Verif Require Import Lib LoaderProofs QuantModel QuantSpec QuantProofs ConfRegModel ConfRegProofs ConfClassModel ConfClassProofs ConfClassProofs2 ConfClassSpec ConfClassProofs3 MultiModel MultiSpec MultiProofs MultiProofs2 MultiProofs3 MultiProofs4 MultiProofs5 OneShotModel OneShotSpec OneShotProofs IterModel IterSpec.
Import ListNotations.
Open Scope Q_scope.

(** ---- initial values ---- *)
Lemma qsum_nonneg l : Forall (fun x => 0 <= x) l -> 0 <= qsum l.
Proof. induction 1 as [|x l H _ IH]; cbn; [lra|]. change (0 <= x + qsum l). lra. Qed.
Lemma qsum_ge l x : Forall (fun x => 0 <= x) l -> In x l -> x <= qsum l.
Proof.
  induction 1 as [|y l H F IH]; intros I; [destruct I|]. change (x <= y + qsum l). assert (S := qsum_nonneg l F). destruct I as [->|I]; [lra|]. specialize (IH I). lra.
Qed.
Lemma qsum_scale s l : qsum (map (fun x => x / s) l) == qsum l / s.
Proof. induction l as [|x l IH]; cbn; [unfold Qdiv; lra|]. change (x / s + qsum (map (fun x => x / s) l) == (x + qsum l) / s). rewrite IH. unfold Qdiv. ring. Qed.
Definition folded_list rnd m size i : list Q :=
  map (fun x => x - 2 * Qmax 0 (x - 1)) (map (fun j => Qabs (1 / inject_Z (Z.of_nat m) + (1 # 100) * r_z2 rnd size m i j)) (seq 0 m)).
Lemma fold_at x : folded x (x - 2 * Qmax 0 (x - 1)).
Proof. split; intros H; destruct (Q.max_spec 0 (x - 1)) as [[A E]|[A E]]; rewrite E; lra. Qed.
Lemma inv_le_1 m : (0 < m)%nat -> 0 < 1 / inject_Z (Z.of_nat m) <= 1.
Proof.
  intros H. assert (P : 1 <= inject_Z (Z.of_nat m)) by (unfold Qle; cbn; lia). split; [apply Qlt_shift_div_l; lra|apply Qle_shift_div_r; lra].
Qed.
Lemma noisy_bounds m z : (0 < m)%nat -> Qabs z <= 50 -> 0 <= Qabs (1 / inject_Z (Z.of_nat m) + (1 # 100) * z) <= 3 # 2.
Proof.
  intros H Z. apply inv_le_1 in H. apply Qabs_Qle_condition in Z. split; [apply Qabs_nonneg|]. apply Qabs_Qle_condition. lra.
Qed.
Lemma fold_unit x : 0 <= x <= 3 # 2 -> in_unit (x - 2 * Qmax 0 (x - 1)).
Proof. intros H. unfold in_unit. destruct (Q.max_spec 0 (x - 1)) as [[A E]|[A E]]; rewrite E; lra. Qed.
Lemma fold_pos x : 0 < x <= 3 # 2 -> 0 < x - 2 * Qmax 0 (x - 1).
Proof. intros H. destruct (Q.max_spec 0 (x - 1)) as [[A E]|[A E]]; rewrite E; lra. Qed.
Section Init.
Variable rnd : random.
Hypothesis T : tame rnd.
Lemma folded_list_unit m size i : (0 < m)%nat -> Forall in_unit (folded_list rnd m size i) /\ 0 < qsum (folded_list rnd m size i).
Proof.
  intros M. assert (F : Forall in_unit (folded_list rnd m size i)).
  { apply Forall_forall. intros x H. apply in_map_iff in H. destruct H as (y & <- & H). apply in_map_iff in H. destruct H as (j & <- & _).
    apply fold_unit. apply noisy_bounds; [exact M|apply T]. }
  split; [exact F|]. destruct T as (_ & B & N). destruct (N size m i M) as (j & Hj & NZ).
  set (y := Qabs (1 / inject_Z (Z.of_nat m) + (1 # 100) * r_z2 rnd size m i j)).
  apply Qlt_le_trans with (y - 2 * Qmax 0 (y - 1)).
  - apply fold_pos. assert (X := noisy_bounds m _ M (B size m i j)). fold y in X. split; [|apply X]. apply Qnot_le_lt. intros L. apply NZ.
    assert (Z0 : 1 / inject_Z (Z.of_nat m) + (1 # 100) * r_z2 rnd size m i j == 0).
    { assert (W : Qabs (1 / inject_Z (Z.of_nat m) + (1 # 100) * r_z2 rnd size m i j) <= 0) by exact L. apply Qabs_Qle_condition in W. lra. }
    assert (P : ~ inject_Z (Z.of_nat m) == 0) by (unfold Qeq; cbn; lia).
    assert (E : r_z2 rnd size m i j == - (100) * (1 / inject_Z (Z.of_nat m))) by lra. rewrite E. field. exact P.
  - apply qsum_ge; [eapply Forall_impl; [|exact F]; intros ? [? _]; assumption|]. apply (in_map (fun x => x - 2 * Qmax 0 (x - 1))).
    apply (in_map (fun j => Qabs (1 / inject_Z (Z.of_nat m) + (1 # 100) * r_z2 rnd size m i j))). apply in_seq. lia.
Qed.
Lemma init_row_unit m size i : (0 < m)%nat -> Forall in_unit (init_row rnd m size i) /\ qsum (init_row rnd m size i) == 1 /\ length (init_row rnd m size i) = m.
Proof.
  intros M. destruct (folded_list_unit m size i M) as [F P]. unfold init_row. fold (folded_list rnd m size i). set (w := folded_list rnd m size i) in *. repeat split.
  - apply Forall_forall. intros x H. apply in_map_iff in H. destruct H as (y & <- & H). rewrite Forall_forall in F. destruct (F y H) as [A B].
    assert (G : y <= qsum w). { apply qsum_ge; [|exact H]. apply Forall_forall. intros z Hz. apply F. exact Hz. }
    split; [apply Qle_shift_div_l; lra|apply Qle_shift_div_r; lra].
  - rewrite qsum_scale. field. lra.
  - unfold w, folded_list. now rewrite !map_length, seq_length.
Qed.
Lemma init_fine f size : (forall m, f = Mc (TopLabel m) -> (0 < m)%nat) -> values_fine f (init_values rnd f None size).
Proof.
  intros M. unfold values_fine, init_values. destruct f as [[| |m]|]; cbn [kind_of needed axes all_entries].
  - split; [reflexivity|]. apply Forall_forall. intros x H. apply repeat_spec in H. subst. unfold in_unit. lra.
  - split; [reflexivity|]. apply Forall_forall. intros x H. apply in_map_iff in H. destruct H as (i & <- & _). destruct T as (B & _). specialize (B size i). apply Qabs_Qle_condition in B. unfold in_unit. lra.
  - split; [reflexivity|]. apply Forall_forall. intros x H. apply in_map_iff in H. destruct H as (i & <- & _). apply init_row_unit. now apply M.
  - split; [reflexivity|]. apply Forall_forall. intros x H. apply repeat_spec in H. subst. unfold in_unit. lra.
Qed.
End Init.

(** ---- checks ---- *)
Lemma check_call_cases c : check_call c = Ok tt \/ check_call c = Err ValueError.
Proof.
  unfold check_call. repeat match goal with |- context [if ?b then _ else _] => destruct b; [now right|] end. destruct (c_ptype c); auto.
Qed.
Lemma given_iff {A} (x : option A) : given x = true <-> x <> None.
Proof. destruct x; cbn; split; congruence. Qed.
Lemma call_fine_iff a : check_call (call_of a) = Ok tt <-> call_fine a.
Proof.
  rewrite check_call_ok. unfold call_of, call_fine. cbn [c_n_rounds c_eta c_split c_min_prob c_ptype has_groups has_values has_test_groups has_test_values]. rewrite !given_iff.
  assert (W : match a_min_prob a with None => True | Some p => in_unit p end <-> (forall p, a_min_prob a = Some p -> in_unit p)).
  { destruct (a_min_prob a) as [q|]; split; intros H; [now intros p [= <-]|now apply H|discriminate|exact I]. }
  rewrite W. reflexivity.
Qed.
Lemma groups_cases g t : (check_groups g t = Ok tt /\ proper g /\ (forall x, t = Some x -> proper x)) \/
  (check_groups g t = Err ValueError /\ ~ (proper g /\ (forall x, t = Some x -> proper x))).
Proof.
  assert (W : forall x, bad_groups x = false <-> proper x). { intros x. unfold bad_groups, proper. rewrite orb_false_iff, !negb_false_iff. reflexivity. }
  unfold check_groups. destruct (bad_groups g) eqn:E; [right; split; [reflexivity|]; intros [P _]; apply W in P; congruence|]. apply W in E.
  destruct t as [x|]; [|left; split; [reflexivity|]; split; [exact E|discriminate]].
  destruct (bad_groups x) eqn:E'; [right; split; [reflexivity|]; intros [_ P]; specialize (P x eq_refl); apply W in P; congruence|]. apply W in E'.
  left. split; [reflexivity|]. split; [exact E|]. now intros y [= <-].
Qed.
Definition test_fine (f : family) (test : option array) : Prop :=
  forall v, test = Some v -> f <> Mvp -> all_entries in_unit v /\ (f <> Mc Plain -> axes v = needed (kind_of f)).
Lemma vals_cases f v test : (f = Mvp -> axes v = 1%nat) ->
  (check_vals f v test = Ok tt /\ values_fine f v /\ test_fine f test) \/ (check_vals f v test = Err ValueError /\ ~ (values_fine f v /\ test_fine f test)).
Proof.
  intros S. unfold values_fine, test_fine. destruct f as [k|]; cbn [check_vals kind_of].
  - destruct (values_ok k v test) as [[[A B] E]|[N E]]; [left|right]; (split; [exact E|]).
    + split; [exact A|]. intros b Hb _. destruct (B b Hb) as [X Y]. split; [exact X|]. intros NP. apply Y. congruence.
    + intros [A B]. apply N. split; [exact A|]. intros b Hb. destruct (B b Hb ltac:(discriminate)) as [X Y]. split; [exact X|]. intros NP. apply Y. congruence.
  - destruct (existsb outside (entries v)) eqn:E.
    + right. split; [reflexivity|]. intros [[_ X] _]. apply entries_unit in X. congruence.
    + left. split; [reflexivity|]. apply entries_unit in E. split; [split; [exact (S eq_refl)|exact E]|]. intros b _ N. congruence.
Qed.
Lemma default_proper n : proper (init_groups None n). Proof. split; reflexivity. Qed.
Lemma scores_of_length k l : length (scores_of k l) = length l.
Proof. destruct k; cbn; now rewrite map_length. Qed.
Section Prepare.
Variable rnd : random.
Hypothesis T : tame rnd.
Definition start_groups (a : args) (n : nat) : membership := init_groups (a_groups a) n.
Definition start_values (f : family) (a : args) (n : nat) : array := init_values rnd f (a_values a) (length (g_rows (start_groups a n))).
Lemma prepare_cases f a : in_scope f a -> (f = Mvp -> in_unit (a_coverage a)) ->
  (fine f a /\ exists l, t_array (a_targets a) = Vec l /\ prepare rnd f a = Ok (scores_of (kind_of f) l, start_groups a (length l), start_values f a (length l))) \/
  (~ fine f a /\ prepare rnd f a = Err ValueError).
Proof.
  intros (_ & _ & S) C. unfold prepare.
  destruct (targets_checked (kind_of f) (a_targets a)) as [G|G].
  2: { right. split; [intros (_ & _ & X & _); contradiction|]. destruct (targets_bad _ _ G) as [E|[(s & E) E']]; rewrite E; cbn [bind]; [reflexivity|].
       destruct (check_call_cases (call_of a)) as [E2|E2]; rewrite E2; cbn [bind]; [|reflexivity]. now rewrite E'. }
  destruct (targets_ok _ _ G) as (l & EA & ES & EC). rewrite ES, EC. cbn [bind].
  destruct (check_call_cases (call_of a)) as [E2|E2]; rewrite E2; cbn [bind].
  2: { right. split; [|reflexivity]. intros (_ & X & _). apply call_fine_iff in X. congruence. }
  apply call_fine_iff in E2. rewrite scores_of_length. fold (start_groups a (length l)).
  destruct (groups_cases (start_groups a (length l)) (a_test_groups a)) as [(E3 & P1 & P2)|(E3 & N)]; rewrite E3; cbn [bind].
  2: { right. split; [|reflexivity]. intros (_ & _ & _ & X & _). apply N. split; [|intros x Hx; apply X; now right]. unfold start_groups. destruct (a_groups a) eqn:Eg; [apply X; now left|apply default_proper]. }
  fold (start_values f a (length l)).
  assert (M : forall m, f = Mc (TopLabel m) -> (0 < m)%nat). { intros m ->. destruct G as (l' & _ & X). apply X. }
  assert (SV : f = Mvp -> axes (start_values f a (length l)) = 1%nat).
  { intros ->. unfold start_values. destruct (a_values a) as [v|] eqn:Ev; [|reflexivity]. cbn. apply S; [reflexivity|now left]. }
  destruct (vals_cases f (start_values f a (length l)) (a_test_values a) SV) as [(E4 & V1 & V2)|(E4 & N)]; rewrite E4; cbn [bind].
  - left. split; [|exists l; split; [exact EA|reflexivity]]. split; [exact C|]. split; [exact E2|]. split; [exact G|]. split.
    { intros g [Hg|Hg]; [|now apply P2]. unfold start_groups in P1. now rewrite Hg in P1. }
    split; [|exact V2]. intros v Hv. unfold start_values in V1. now rewrite Hv in V1.
  - right. split; [|reflexivity]. intros (_ & _ & _ & _ & X & Y). apply N. split; [|exact Y]. unfold start_values. destruct (a_values a) as [v|] eqn:Ev; [now apply X|]. now apply init_fine.
Qed.
End Prepare.
