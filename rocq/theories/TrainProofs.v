From Coq Require Import List Arith ZArith QArith Bool String Lia Lqa.
From Verif Require Import Lib QuantModel TrainModel TrainSpec.
Import ListNotations.
Open Scope list_scope.
Local Notation length := List.length.

(** ---- early stopping ---- *)
Lemma improvements_prefix : forall d ms x R, improvements d (ms ++ [x]) R -> improvements d ms R.
Proof.
  intros d ms x R H i Hi.
  rewrite (H i) by (rewrite app_length; simpl; lia).
  split; intros G j Hj Rj Hl.
  - specialize (G j Hj Rj Hl). rewrite !app_nth1 in G by lia. exact G.
  - rewrite !app_nth1 by lia. apply G; auto.
Qed.

Lemma stalled_snoc : forall p (ms : list Q) (x : Q) (R : nat -> Prop) j,
  (j < length ms)%nat -> R j -> (forall l, (j < l < length ms)%nat -> ~ R l) ->
  (stalled p (ms ++ [x]) R <-> stalled p ms R \/ (~ R (length ms) /\ (p <= length ms - 1 - j)%nat)).
Proof.
  intros p ms x R j Hj Rj Hno. unfold stalled. rewrite app_length; simpl. split.
  - intros [t [Ht Hw]].
    destruct (Nat.eq_dec (t + p + 1) (length ms + 1)) as [E|N].
    + right. split; [apply Hw; lia|].
      destruct (le_lt_dec t j) as [L|L]; [exfalso; apply (Hw j); [lia|exact Rj] | lia].
    + left. exists t. split; [lia|exact Hw].
  - intros [[t [Ht Hw]]|[Hn Hp]].
    + exists t. split; [lia|exact Hw].
    + exists (length ms - p)%nat. split; [lia|]. intros l Hl.
      destruct (Nat.eq_dec l (length ms)) as [E|N]; [subst; exact Hn|].
      apply Hno. lia.
Qed.

Lemma qlt_bool_iff : forall a b, Qlt_bool a b = true <-> (a < b)%Q.
Proof.
  intros. unfold Qlt_bool. destruct (Qle_bool b a) eqn:E; simpl; split; intros H; try discriminate; try reflexivity.
  - apply Qle_bool_iff in E. lra.
  - assert (~ (b <= a)%Q). { intros L. apply Qle_bool_iff in L. congruence. } lra.
Qed.

Lemma es_invariant : forall d p R ms, improvements d ms R -> ms <> [] ->
  let e := fold_left (es_update d p) ms stopping0 in
  (exists j, (j < length ms)%nat /\ R j /\ (forall l, (j < l < length ms)%nat -> ~ R l)
             /\ best e = Some (nth j ms 0%Q) /\ stale e = (length ms - 1 - j)%nat)
  /\ (should_stop e = true <-> stalled p ms R)
  /\ (has_improved e = true <-> R (length ms - 1)%nat).
Proof.
  intros d p R ms. induction ms as [|x ms IH] using rev_ind; intros HR Hne; [congruence|].
  cbv zeta. rewrite fold_left_app. cbn [fold_left].
  pose proof (improvements_prefix _ _ _ _ HR) as HR'.
  destruct ms as [|y ms'].
  - cbn. split; [|split].
    + exists 0%nat. repeat split; try lia. apply (HR 0%nat); simpl; [lia|]. intros; lia.
    + split; [discriminate|]. intros [t [Ht Hw]]. cbn in Ht. exfalso. apply (Hw 0%nat); [lia|].
      apply (HR 0%nat); simpl; [lia|]. intros; lia.
    + split; [intros _|reflexivity]. apply (HR 0%nat); simpl; [lia|]. intros; lia.
  - set (ms := y :: ms') in *.
    destruct (IH HR' ltac:(discriminate)) as [[j (Hj & Rj & Hno & Hb & Hs)] [Hstop _]]. clear IH.
    set (e := fold_left (es_update d p) ms stopping0) in *.
    assert (RL : R (length ms) <-> (d < nth j ms 0 - x)%Q).
    { rewrite (HR (length ms)) by (rewrite app_length; simpl; lia).
      rewrite app_nth2, Nat.sub_diag by lia. cbn [nth]. split.
      - intros G. specialize (G j Hj Rj Hno). rewrite app_nth1 in G by lia. lra.
      - intros G j' Hj' Rj' Hno'.
        assert (j' = j).
        { destruct (lt_eq_lt_dec j' j) as [[L|E]|L]; auto; exfalso.
          - apply (Hno' j); [lia|exact Rj].
          - apply (Hno j'); [lia|exact Rj']. }
        subst j'. rewrite app_nth1 by lia. lra. }
    pose proof (stalled_snoc p ms x R j Hj Rj Hno) as Hst.
    unfold es_update. rewrite Hb.
    assert (LL : length (ms ++ [x]) = S (length ms)) by (rewrite app_length; simpl; lia).
    destruct (Qlt_bool d (nth j ms 0 - x)%Q) eqn:E.
    + apply qlt_bool_iff in E. apply RL in E. cbn [best stale should_stop has_improved].
      rewrite LL. split; [|split].
      * exists (length ms). repeat split; try lia; try exact E.
        all: intros; rewrite ?app_nth2, ?Nat.sub_diag by lia; try reflexivity; try lia.
      * rewrite Hstop, Hst. tauto.
      * split; [intros _|reflexivity]. replace (S (length ms) - 1)%nat with (length ms) by lia. exact E.
    + assert (~ R (length ms)). { intros G. apply RL in G. apply qlt_bool_iff in G. congruence. }
      cbn [best stale should_stop has_improved]. rewrite LL. split; [|split].
      * exists j. repeat split; try lia; try exact Rj.
        -- intros l Hl. destruct (Nat.eq_dec l (length ms)); [subst; assumption|apply Hno; lia].
        -- rewrite app_nth1 by lia. reflexivity.
      * rewrite orb_true_iff, Nat.leb_le, Hstop, Hst, Hs. tauto.
      * split; [discriminate|]. replace (S (length ms) - 1)%nat with (length ms) by lia. tauto.
Qed.

Lemma es_stops_iff : forall d p R ms, improvements d ms R ->
  (should_stop (fold_left (es_update d p) ms stopping0) = true <-> stalled p ms R).
Proof.
  intros d p R ms HR. destruct ms as [|x ms].
  - cbn. split; [discriminate|]. intros [t [Ht _]]. cbn in Ht. lia.
  - apply (es_invariant d p R (x :: ms)); [exact HR|discriminate].
Qed.

(** the improvements exist and are unique *)
Lemma improvements_exist : forall d ms, exists f : nat -> bool, improvements d ms (fun i => f i = true).
Proof.
  intros d ms. exists (fun i => has_improved (fold_left (es_update d 0) (firstn (S i) ms) stopping0)).
  induction ms as [|x ms IH] using rev_ind; [intros i Hi; simpl in Hi; lia|].
  set (f := fun i => has_improved (fold_left (es_update d 0) (firstn (S i) ms) stopping0)) in *.
  set (g := fun i => has_improved (fold_left (es_update d 0) (firstn (S i) (ms ++ [x])) stopping0)).
  assert (FG : forall i, (i < length ms)%nat -> f i = g i).
  { intros i Hi. unfold f, g. rewrite firstn_app. replace (S i - length ms)%nat with 0%nat by lia.
    rewrite firstn_O, app_nil_r. reflexivity. }
  assert (LL : length (ms ++ [x]) = S (length ms)) by (rewrite app_length; simpl; lia).
  intros i Hi. rewrite LL in Hi. destruct (Nat.eq_dec i (length ms)) as [->|N].
  - assert (Hg : g (length ms) = has_improved (es_update d 0 (fold_left (es_update d 0) ms stopping0) x)).
    { unfold g. rewrite firstn_all2 by (rewrite LL; lia). rewrite fold_left_app. reflexivity. }
    change (g (length ms) = true <-> forall j : nat, (j < length ms)%nat -> g j = true ->
      (forall l, (j < l < length ms)%nat -> g l <> true) -> (nth (length ms) (ms ++ [x]) 0 < nth j (ms ++ [x]) 0 - d)%Q).
    rewrite Hg. rewrite app_nth2, Nat.sub_diag by lia. cbn [nth].
    destruct ms as [|y ms'].
    + cbn. split; [intros; lia|reflexivity].
    + set (ms := y :: ms') in *.
      destruct (es_invariant d 0 _ ms IH ltac:(discriminate)) as [[j (Hj & Rj & Hno & Hb & Hs)] _].
      unfold es_update at 1. rewrite Hb.
      assert (K : Qlt_bool d (nth j ms 0 - x)%Q = true <->
        (forall j0 : nat, (j0 < length ms)%nat -> g j0 = true ->
          (forall l, (j0 < l < length ms)%nat -> g l <> true) -> (x < nth j0 (ms ++ [x]) 0 - d)%Q)).
      { rewrite qlt_bool_iff. split.
        - intros G j' Hj' Rj' Hno'. rewrite <- FG in Rj' by lia.
          assert (j' = j).
          { destruct (lt_eq_lt_dec j' j) as [[L|E]|L]; auto; exfalso.
            - apply (Hno' j); [lia|]. rewrite <- FG by lia. exact Rj.
            - apply (Hno j'); [lia|exact Rj']. }
          subst j'. rewrite app_nth1 by lia. lra.
        - intros G. specialize (G j Hj). rewrite <- FG in G by lia. specialize (G Rj).
          rewrite app_nth1 in G by lia.
          assert ((x < nth j ms 0 - d)%Q); [|lra]. apply G. intros l Hl. rewrite <- FG by lia. apply Hno; lia. }
      rewrite <- K. destruct (Qlt_bool d (nth j ms 0 - x)); cbn; tauto.
  - assert (Hi' : (i < length ms)%nat) by lia.
    change (g i = true <-> forall j : nat, (j < i)%nat -> g j = true ->
      (forall l, (j < l < i)%nat -> g l <> true) -> (nth i (ms ++ [x]) 0 < nth j (ms ++ [x]) 0 - d)%Q).
    rewrite <- FG by lia. pose proof (IH i Hi') as IHi.
    change (f i = true <-> forall j : nat, (j < i)%nat -> f j = true ->
      (forall l, (j < l < i)%nat -> f l <> true) -> (nth i ms 0 < nth j ms 0 - d)%Q) in IHi.
    rewrite IHi.
    split; intros G j Hj Rj Hno.
    + rewrite !app_nth1 by lia. apply G; auto.
      * change (f j = true). rewrite FG by lia. exact Rj.
      * intros l Hl. change (f l <> true). rewrite FG by lia. apply Hno; lia.
    + specialize (G j Hj). rewrite <- FG in G by lia. specialize (G Rj). rewrite !app_nth1 in G by lia.
      apply G. intros l Hl. rewrite <- FG by lia. apply Hno; lia.
Qed.

Lemma improvements_unique : forall d ms R R', improvements d ms R -> improvements d ms R' ->
  forall i, (i < length ms)%nat -> (R i <-> R' i).
Proof.
  intros d ms R R' H H' i. induction i as [i IH] using lt_wf_ind. intros Hi.
  rewrite (H i Hi), (H' i Hi). split; intros G j Hj Rj Hno; apply G; auto.
  - apply IH; auto; lia.
  - intros l Hl. rewrite IH by lia. apply Hno; lia.
  - apply IH; auto; lia.
  - intros l Hl. rewrite <- IH by lia. apply Hno; lia.
Qed.

(** without min_delta, improvements are new minima *)
Lemma improvements_zero : forall ms, improvements 0 ms (new_minimum ms).
Proof.
  intros ms i Hi. split.
  - intros H j Hj _ _. specialize (H j Hj). lra.
  - intros H j Hj.
    (* the latest new minimum before i is at most every earlier metric *)
    assert (K : forall n, (0 < n)%nat -> exists m, (m < n)%nat /\ new_minimum ms m
                /\ (forall l, (m < l < n)%nat -> ~ new_minimum ms l)
                /\ forall q, (q < n)%nat -> (nth m ms 0 <= nth q ms 0)%Q).
    { induction n as [|n IH]; intros Hn; [lia|]. destruct n as [|n].
      - exists 0%nat. repeat split; try lia; try (intros q Hq; lia).
        intros q Hq. assert (q = 0%nat) by lia. subst. lra.
      - destruct (IH ltac:(lia)) as [m (Hm & Nm & Hno & Hq)].
        destruct (Qlt_le_dec (nth (S n) ms 0) (nth m ms 0)) as [L|L].
        + exists (S n). repeat split; try lia.
          * intros q Hq'. specialize (Hq q Hq'). lra.
          * intros q Hq'. destruct (Nat.eq_dec q (S n)); [subst; lra|]. specialize (Hq q ltac:(lia)). lra.
        + exists m. repeat split; try lia; auto.
          * intros l Hl. destruct (Nat.eq_dec l (S n)) as [->|N]; [|apply Hno; lia].
            intros G. specialize (G m ltac:(lia)). lra.
          * intros q Hq'. destruct (Nat.eq_dec q (S n)); [subst; lra|]. apply Hq; lia. }
    destruct (K i ltac:(lia)) as [m (Hm & Nm & Hno & Hq)].
    specialize (H m Hm Nm Hno). specialize (Hq j Hj). lra.
Qed.

(** the mixin *)
Definition monitored (c : es_config) (v : Q) : Q :=
  if match mode c with Some m => String.eqb m "max" | None => false end then (- v)%Q else v.
Definition patience_nat (c : es_config) : nat := match patience c with Some p => Z.to_nat p | None => 0%nat end.

Lemma mixin_run : forall c vs e, is_active c = true ->
  fold_left (early_stopping_update c) vs e = fold_left (es_update (min_delta c) (patience_nat c)) (map (monitored c) vs) e.
Proof.
  intros c vs. induction vs as [|v vs IH]; intros e Ha; [reflexivity|].
  cbn [fold_left map]. rewrite IH by exact Ha. unfold early_stopping_update at 1. rewrite Ha. reflexivity.
Qed.

Lemma mixin_inactive : forall c vs e, is_active c = false -> fold_left (early_stopping_update c) vs e = e.
Proof.
  intros c vs. induction vs as [|v vs IH]; intros e Ha; [reflexivity|].
  cbn [fold_left]. unfold early_stopping_update at 2. rewrite Ha. apply IH; exact Ha.
Qed.

Lemma active_iff : forall c, is_active c = true <->
  exists p m, patience c = Some p /\ mode c = Some m /\ (0 < p)%Z /\ (m = "min"%string \/ m = "max"%string).
Proof.
  intros c. unfold is_active. destruct (patience c) as [p|]; destruct (mode c) as [m|];
    split; try discriminate; try (intros (? & ? & ? & ? & _); discriminate).
  - rewrite andb_true_iff, orb_true_iff, !String.eqb_eq, Z.ltb_lt. intros [? ?]. eauto 8.
  - intros (p' & m' & Hp & Hm & Hpos & Hor). injection Hp as <-. injection Hm as <-.
    rewrite andb_true_iff, orb_true_iff, !String.eqb_eq, Z.ltb_lt. auto.
Qed.

Lemma es_min_stops : forall p d vs R, (0 < p)%Z -> improvements d vs R ->
  (should_stop (fold_left (early_stopping_update {| patience := Some p; mode := Some "min"%string; min_delta := d |}) vs stopping0) = true
   <-> stalled (Z.to_nat p) vs R).
Proof.
  intros p d vs R Hp HR. rewrite mixin_run.
  - rewrite (map_ext _ (fun x => x)), map_id; [|reflexivity]. apply es_stops_iff. exact HR.
  - apply active_iff. cbn. exists p, "min"%string. auto.
Qed.

Lemma es_max_is_min : forall p d vs,
  fold_left (early_stopping_update {| patience := p; mode := Some "max"%string; min_delta := d |}) vs stopping0
  = fold_left (early_stopping_update {| patience := p; mode := Some "min"%string; min_delta := d |}) (map Qopp vs) stopping0.
Proof.
  intros p d vs.
  destruct (is_active {| patience := p; mode := Some "max"%string; min_delta := d |}) eqn:E.
  - assert (E' : is_active {| patience := p; mode := Some "min"%string; min_delta := d |} = true) by exact E.
    rewrite (mixin_run _ _ _ E), (mixin_run _ _ _ E').
    assert (M : map (monitored {| patience := p; mode := Some "min"%string; min_delta := d |}) (map Qopp vs)
                = map (monitored {| patience := p; mode := Some "max"%string; min_delta := d |}) vs).
    { rewrite map_map. apply map_ext. reflexivity. }
    rewrite M. reflexivity.
  - assert (E' : is_active {| patience := p; mode := Some "min"%string; min_delta := d |} = false) by exact E.
    rewrite (mixin_inactive _ _ _ E), (mixin_inactive _ _ _ E'). reflexivity.
Qed.
