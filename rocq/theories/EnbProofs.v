(** EnbPI: values of the residuals and intervals, and which arguments are accepted. *)
From Coq Require Import List Arith ZArith QArith Qabs Bool Lia.
From Verif Require Import Lib QuantModel QuantSpec ConfRegModel ConfRegSpec EnbSpec.
Import ListNotations.
Open Scope Q_scope.

Lemma unseen_out_of_bag : forall idx t, unseen idx t = out_of_bag idx t.
Proof.
  intros idx t. unfold unseen, out_of_bag. apply filter_ext. intros b.
  destruct (in_dec Nat.eq_dec t (nth b idx [])) as [H|H]; destruct (existsb (Nat.eqb t) (nth b idx [])) eqn:E; try reflexivity.
  - exfalso. assert (existsb (Nat.eqb t) (nth b idx []) = true) by (apply existsb_exists; exists t; split; [assumption|apply Nat.eqb_refl]). congruence.
  - exfalso. apply existsb_exists in E. destruct E as (x & I & Q). apply Nat.eqb_eq in Q. subst. contradiction.
Qed.

Theorem enbpi_value : forall agg idx train test targets error is rs,
  enbpi agg idx train test targets error = Ok (is, rs) ->
  let T := length targets in
  length rs = T /\ length is = length (hd [] test) /\
  (forall t, (t < T)%nat -> nth t rs 0 == Qabs (nth t targets 0 - left_out agg idx train t t)) /\
  forall u lo hi, nth_error is u = Some (lo, hi) ->
    let c := quantile (map (fun t => left_out agg idx test t u) (seq 0 T)) (1 - error) in
    lo == c - quantile rs (1 - error) /\ hi == c + quantile rs (1 - error).
Proof.
  intros agg idx train test targets error is rs. unfold enbpi.
  destruct (existsb _ idx); [discriminate|]. destruct (length train =? length idx)%nat; cbn [negb]; [|discriminate].
  destruct (n_columns train =? n_train idx)%nat eqn:E1; cbn [negb]; [|discriminate].
  destruct (length test =? length idx)%nat; cbn [negb]; [|discriminate].
  destruct (length targets =? n_columns train)%nat eqn:E2; cbn [negb]; [|discriminate].
  apply Nat.eqb_eq in E1, E2. intros H. injection H as H1 H2. cbn zeta.
  assert (ET : n_train idx = length targets) by congruence.
  rewrite ET in H1, H2. clear E1 E2 ET.
  split; [rewrite <- H2; now rewrite map_length, seq_length|].
  split; [rewrite <- H1; rewrite map_length, seq_length; unfold n_columns; destruct test; reflexivity|].
  split.
  - intros t Ht. rewrite <- H2. rewrite (nth_indep _ 0 (enbpi_residual agg idx train targets 0)) by (rewrite map_length, seq_length; exact Ht).
    rewrite map_nth, seq_nth by exact Ht. cbn [Nat.add]. unfold enbpi_residual, left_out. rewrite unseen_out_of_bag.
    destruct (out_of_bag idx t) as [|b bs]; cbn [map]; [|reflexivity]. apply Qabs_wd. ring.
  - intros u lo hi Hu. rewrite <- H1 in Hu. rewrite nth_error_map in Hu.
    destruct (nth_error (seq 0 (n_columns test)) u) as [v|] eqn:E; [|discriminate].
    assert (v = u) by (assert (L : (u < n_columns test)%nat) by (rewrite <- (seq_length (n_columns test) 0); apply nth_error_Some; congruence); apply (nth_error_nth _ _ 0%nat) in E; rewrite <- E; now rewrite seq_nth).
    subst v. cbn in Hu. injection Hu as L R. 
    rewrite H2 in L, R.
    assert (EQ : map (fun t => left_out agg idx test t u) (seq 0 (length targets)) = map (fun t => enbpi_test_row agg idx test t u) (seq 0 (length targets))).
    { apply map_ext. intros t. unfold left_out, enbpi_test_row. rewrite unseen_out_of_bag. destruct (out_of_bag idx t); reflexivity. }
    rewrite EQ, <- L, <- R. split; reflexivity.
Qed.

Theorem enbpi_accepts : forall agg idx train test targets error,
  let T := length (hd [] idx) in
  let acceptable := (forall row i, In row idx -> In i row -> (i < T)%nat) /\ length train = length idx /\ length (hd [] train) = T /\
     length test = length idx /\ length targets = T in
  (acceptable -> exists r, enbpi agg idx train test targets error = Ok r) /\
  (~ acceptable -> enbpi agg idx train test targets error = Err ValueError).
Proof.
  intros agg idx train test targets error T acceptable.
  assert (NT : n_train idx = T) by (unfold n_train, T; destruct idx; reflexivity).
  assert (NC : n_columns train = length (hd [] train)) by (unfold n_columns; destruct train; reflexivity).
  unfold enbpi. cbn zeta. rewrite NT, NC.
  destruct (existsb _ idx) eqn:E0.
  { split; [|reflexivity]. intros (A & _). apply existsb_exists in E0. destruct E0 as (row & I & E0). apply existsb_exists in E0. destruct E0 as (i & J & L).
    apply Nat.leb_le in L. specialize (A row i I J). lia. }
  assert (A : forall row i, In row idx -> In i row -> (i < T)%nat).
  { intros row i I J. destruct (Nat.lt_ge_cases i T) as [L|L]; [exact L|exfalso].
    assert (existsb (existsb (fun i => (T <=? i)%nat)) idx = true) by (apply existsb_exists; exists row; split; [exact I|apply existsb_exists; exists i; split; [exact J|now apply Nat.leb_le]]). congruence. }
  destruct (length train =? length idx)%nat eqn:E1; cbn [negb]; [apply Nat.eqb_eq in E1|apply Nat.eqb_neq in E1; split; [intros (_ & X & _); contradiction|reflexivity]].
  destruct (length (hd [] train) =? T)%nat eqn:E2; cbn [negb]; [apply Nat.eqb_eq in E2|apply Nat.eqb_neq in E2; split; [intros (_ & _ & X & _); contradiction|reflexivity]].
  destruct (length test =? length idx)%nat eqn:E3; cbn [negb]; [apply Nat.eqb_eq in E3|apply Nat.eqb_neq in E3; split; [intros (_ & _ & _ & X & _); contradiction|reflexivity]].
  destruct (length targets =? length (hd [] train))%nat eqn:E4; cbn [negb]; [apply Nat.eqb_eq in E4|apply Nat.eqb_neq in E4; split; [intros (_ & _ & _ & _ & X); congruence|reflexivity]].
  split; [intros _; eexists; reflexivity|]. intros N. exfalso. apply N. unfold acceptable. repeat split; try assumption. congruence.
Qed.

Theorem cv_plus_accepts : forall outputs targets test e,
  length outputs = length targets -> length test = length outputs ->
  ((Forall2 (fun o y => length o = length y) outputs targets -> exists r, cv_plus outputs targets test e = Ok r) /\
   (~ Forall2 (fun o y => length o = length y) outputs targets -> cv_plus outputs targets test e = Err ValueError)).
Proof.
  intros outputs targets test e H1 H2. unfold cv_plus.
  set (f := fun p : list Q * list Q * list Q => negb (length (fst (fst p)) =? length (snd (fst p)))%nat).
  assert (K : existsb f (combine (combine outputs targets) test) = false <-> Forall2 (fun o y => length o = length y) outputs targets).
  { clear e. revert targets test H1 H2. induction outputs as [|o os IH]; intros [|y ys] [|r rs] H1 H2; try discriminate; cbn.
    - split; [constructor|reflexivity].
    - injection H1 as H1. injection H2 as H2. rewrite orb_false_iff, (IH ys rs H1 H2). unfold f at 1. cbn [fst snd]. rewrite negb_false_iff, Nat.eqb_eq.
      split; [intros (A & B); constructor; assumption|intros A; inversion A; split; assumption]. }
  destruct (existsb f _) eqn:E.
  - split; [intros F; apply K in F; discriminate|reflexivity].
  - split; [intros _; eexists; reflexivity|intros N; exfalso; apply N, K; reflexivity].
Qed.
