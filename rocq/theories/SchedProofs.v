From Coq Require Import List Arith ZArith QArith Qminmax Bool String Ascii Lia Lqa Permutation Sorted.
From Verif Require Import Lib NestedModel NestedSpec NestedProofs NestedProofs2 FreezeModel FreezeSpec FreezeProofs SchedModel SchedSpec.
Import ListNotations.
Open Scope list_scope.
Local Notation length := List.length.

(** ---- stepped schedule ---- *)
Lemma insert_perm x l : Permutation (insert_threshold x l) (x :: l).
Proof.
  induction l as [|y l IH]; cbn; [reflexivity|]. destruct (fst x <=? fst y)%Z; [reflexivity|].
  rewrite IH. apply perm_swap.
Qed.
Lemma sort_perm l : Permutation (sort_thresholds l) l.
Proof. induction l as [|x l IH]; cbn; [reflexivity|]. rewrite insert_perm. now constructor. Qed.
Lemma insert_sorted x l : StronglySorted (fun a b => (fst a <= fst b)%Z) l -> StronglySorted (fun a b => (fst a <= fst b)%Z) (insert_threshold x l).
Proof.
  induction 1 as [|y l Sl IH F]; cbn; [repeat constructor|]. destruct (Z.leb_spec (fst x) (fst y)).
  - constructor; [constructor; assumption|]. constructor; [assumption|]. eapply Forall_impl; [|exact F]. cbn. intros; lia.
  - constructor; [exact IH|]. apply Forall_forall. intros z Hz. rewrite insert_perm in Hz. destruct Hz as [<-|Hz]; [lia|].
    rewrite Forall_forall in F. now apply F.
Qed.
Lemma sort_sorted l : StronglySorted (fun a b => (fst a <= fst b)%Z) (sort_thresholds l).
Proof. induction l as [|x l IH]; cbn; [constructor|now apply insert_sorted]. Qed.

Lemma indicator_after t c : (t <= c)%Z -> indicator t c == 0.
Proof.
  intros H. unfold indicator. destruct (Z.eq_dec t c) as [->|N].
  - rewrite Z.sub_diag. reflexivity.
  - assert (E : Z.sgn (t - c) = (-1)%Z) by (apply Z.sgn_neg; lia). rewrite E. reflexivity.
Qed.
Lemma indicator_before t c : (c < t)%Z -> indicator t c == 1.
Proof. intros H. unfold indicator. rewrite Z.sgn_pos by lia. reflexivity. Qed.

Definition vstep (init : Q) (c : Z) (v : Q) (ts : Z * Q) : Q :=
  (v * indicator (fst ts) c + (1 - indicator (fst ts) c) * snd ts * init)%Q.
Lemma vstep_before init c v ts : (c < fst ts)%Z -> vstep init c v ts == v.
Proof. intros H. unfold vstep. rewrite (indicator_before _ _ H). ring. Qed.
Lemma vstep_after init c v ts : (fst ts <= c)%Z -> vstep init c v ts == snd ts * init.
Proof. intros H. unfold vstep. rewrite (indicator_after _ _ H). ring. Qed.
Global Instance vstep_proper init c : Proper (Qeq ==> eq ==> Qeq) (vstep init c).
Proof. intros v v' E ts ts' <-. unfold vstep. rewrite E. reflexivity. Qed.
Lemma fold_before init c l : forall v, (forall ts, In ts l -> (c < fst ts)%Z) -> fold_left (vstep init c) l v == v.
Proof.
  induction l as [|ts l IH]; intros v H; cbn [fold_left]; [reflexivity|].
  rewrite (IH _ (fun x Hx => H x (or_intror Hx))). apply vstep_before, H. now left.
Qed.
Lemma fold_in_force init c l : StronglySorted (fun a b => (fst a <= fst b)%Z) l -> NoDup (map fst l) ->
  forall v t s, In (t, s) l -> (t <= c)%Z -> (forall t' s', In (t', s') l -> (t' <= c)%Z -> (t' <= t)%Z) ->
  fold_left (vstep init c) l v == s * init.
Proof.
  induction 1 as [|y l Sl IH F]; intros ND v t s Hin Ht Hm; [destruct Hin|]. cbn [fold_left map] in *.
  inversion ND as [|? ? N1 N2]; subst. destruct Hin as [->|Hin].
  - rewrite fold_before.
    + apply vstep_after. exact Ht.
    + intros [t' s'] H'. cbn [fst]. destruct (Z.lt_ge_cases c t') as [|L]; [assumption|]. exfalso.
      pose proof (Hm t' s' (or_intror H') L). rewrite Forall_forall in F. specialize (F _ H'). cbn in F.
      apply N1. replace t with t' by lia. apply (in_map fst) in H'. exact H'.
  - apply (IH N2 _ t s Hin Ht). intros t' s' H'. apply (Hm t' s'). now right.
Qed.

Theorem stepped_in_force : forall init bs f count s,
  NoDup (map fst bs) -> stepped_schedule init (Some bs) = Ok f -> scale_in_force bs count s -> f count == s * init.
Proof.
  intros init bs f count s ND H (t & Hin & Ht & Hm). unfold stepped_schedule in H.
  destruct (forallb _ bs); [|discriminate]. injection H as <-. unfold stepped_value.
  change (fold_left (vstep init count) (sort_thresholds bs) init == s * init).
  apply (fold_in_force init count _ (sort_sorted bs)) with (t := t).
  - eapply Permutation_NoDup; [|exact ND]. apply Permutation_map. symmetry. apply sort_perm.
  - eapply Permutation_in; [symmetry; apply sort_perm|exact Hin].
  - exact Ht.
  - intros t' s' H'. apply Hm with (s' := s'). eapply Permutation_in; [apply sort_perm|exact H'].
Qed.

Theorem stepped_before_first : forall init bs f count,
  stepped_schedule init (Some bs) = Ok f -> (forall t s, In (t, s) bs -> (count < t)%Z) -> f count == init.
Proof.
  intros init bs f count H B. unfold stepped_schedule in H.
  destruct (forallb _ bs); [|discriminate]. injection H as <-. unfold stepped_value.
  change (fold_left (vstep init count) (sort_thresholds bs) init == init).
  apply fold_before. intros [t s] Hin. apply (B t s). eapply Permutation_in; [apply sort_perm|exact Hin].
Qed.

Theorem stepped_errors : forall init bs,
  (stepped_schedule init bs = Err ValueError <-> exists l t s, bs = Some l /\ In (t, s) l /\ s < 0)
  /\ (forall e, stepped_schedule init bs = Err e -> e = ValueError).
Proof.
  intros init [l|]; cbn [stepped_schedule].
  - split.
    + destruct (forallb (fun ts : Z * Q => Qle_bool 0 (snd ts)) l) eqn:E.
      * split; [discriminate|]. intros (l' & t & s & El & Hin & Hs). injection El as <-.
        rewrite forallb_forall in E. specialize (E _ Hin). cbn in E. apply Qle_bool_iff in E. lra.
      * split; [|reflexivity]. intros _. exists l.
        assert (X : exists x, In x l /\ Qle_bool 0 (snd x) = false).
        { clear - E. induction l as [|x l IH]; [discriminate|]. cbn in E. apply andb_false_iff in E. destruct E as [E|E].
          - exists x. split; [now left|exact E].
          - destruct (IH E) as [y [Hy1 Hy2]]. exists y. split; [now right|exact Hy2]. }
        destruct X as [[t s] [Hin Hs]]. exists t, s. split; [reflexivity|]. split; [exact Hin|].
        cbn in Hs. apply Qnot_le_lt. intros L. apply Qle_bool_iff in L. congruence.
    + intros e. destruct (forallb _ l); [discriminate|]. intros E. now injection E.
  - split; [split; [discriminate|intros (l & t & s & E & _); discriminate]|discriminate].
Qed.

(** ---- warm-up ---- *)
Lemma inj_pos z : (0 < z)%Z -> 0 < inject_Z z.
Proof. intros. rewrite <- (Zlt_Qlt 0). assumption. Qed.

Lemma ls_inside init final n c : (0 < n)%Z -> (0 <= c <= n)%Z ->
  linear_schedule init final n c == init + (final - init) * (inject_Z c / inject_Z n).
Proof.
  intros Hn Hc. unfold linear_schedule. replace (n <=? 0)%Z with false by (symmetry; apply Z.leb_gt; lia). cbv zeta.
  replace (Z.max 0 (Z.min c n)) with c by lia. ring.
Qed.
Lemma ls_after init final n c : (0 < n)%Z -> (n <= c)%Z -> linear_schedule init final n c == final.
Proof.
  intros Hn Hc. unfold linear_schedule. replace (n <=? 0)%Z with false by (symmetry; apply Z.leb_gt; lia). cbv zeta.
  replace (Z.max 0 (Z.min c n)) with n by lia. pose proof (inj_pos n Hn). field. lra.
Qed.
Lemma ls_const init final n c : (n <= 0)%Z -> linear_schedule init final n c == init.
Proof. intros. unfold linear_schedule. replace (n <=? 0)%Z with true by (symmetry; apply Z.leb_le; lia). reflexivity. Qed.

Lemma frac_range c n : (0 < n)%Z -> (0 <= c <= n)%Z -> 0 <= inject_Z c / inject_Z n <= 1.
Proof.
  intros Hn Hc. pose proof (inj_pos n Hn) as P. split.
  - apply Qle_shift_div_l; [exact P|]. rewrite Qmult_0_l. rewrite <- (Zle_Qle 0). lia.
  - apply Qle_shift_div_r; [exact P|]. rewrite Qmult_1_l. rewrite <- Zle_Qle. lia.
Qed.
Lemma ls_between init final n c : (0 <= c)%Z -> Qmin init final <= linear_schedule init final n c <= Qmax init final.
Proof.
  intros Hc. destruct (Z.le_gt_cases n 0) as [L|G].
  - rewrite (ls_const _ _ _ _ L). split; [apply Q.le_min_l|apply Q.le_max_l].
  - destruct (Z.le_gt_cases c n) as [L2|G2].
    + rewrite (ls_inside _ _ _ _ G (conj Hc L2)). destruct (frac_range c n G (conj Hc L2)) as [F1 F2].
      set (x := inject_Z c / inject_Z n) in *.
      destruct (Qlt_le_dec init final) as [H|H].
      * rewrite Q.min_l, Q.max_r by lra.
        assert (0 <= (final - init) * x) by (apply Qmult_le_0_compat; lra).
        assert ((final - init) * x <= (final - init) * 1) by (rewrite !(Qmult_comm (final - init)); apply Qmult_le_compat_r; lra). lra.
      * rewrite Q.min_r, Q.max_l by lra.
        assert (0 <= (init - final) * x) by (apply Qmult_le_0_compat; lra).
        assert ((init - final) * x <= (init - final) * 1) by (rewrite !(Qmult_comm (init - final)); apply Qmult_le_compat_r; lra). lra.
    + rewrite ls_after by lia. split; [apply Q.le_min_r|apply Q.le_max_r].
Qed.

Theorem warmup_in_range : forall lr n b e w step, 0 <= lr -> (0 <= step)%Z ->
  0 <= linear_scheduler_with_warmup lr n b e w step <= lr.
Proof.
  intros lr n b e w step Hl Hs. unfold linear_scheduler_with_warmup, join2. destruct (Z.ltb_spec step w).
  - destruct (ls_between 0 lr w step Hs) as [A B]. rewrite Q.min_l in A by exact Hl. rewrite Q.max_r in B by exact Hl. auto.
  - destruct (ls_between lr 0 (num_train_steps n b e - w) (step - w) ltac:(lia)) as [A B].
    rewrite Q.min_r in A by exact Hl. rewrite Q.max_l in B by exact Hl. auto.
Qed.

Theorem warmup_shape : forall lr n b e w step, (0 <= w)%Z -> (0 <= step)%Z ->
  let total := num_train_steps n b e in
  let f := linear_scheduler_with_warmup lr n b e w in
  ((step < w)%Z -> f step == lr * (inject_Z step / inject_Z w)) /\
  f w == lr /\
  ((w <= step <= total)%Z -> (w < total)%Z -> f step == lr * (inject_Z (total - step) / inject_Z (total - w))) /\
  ((w < total <= step)%Z -> f step == 0).
Proof.
  intros lr n b e w step Hw Hs total f.
  assert (At : f w == lr).
  { unfold f, linear_scheduler_with_warmup, join2. rewrite Z.ltb_irrefl, Z.sub_diag.
    destruct (Z.le_gt_cases (num_train_steps n b e - w) 0) as [L|G]; [now apply ls_const|].
    rewrite ls_inside by lia. change (inject_Z 0) with 0. field. pose proof (inj_pos _ G). lra. }
  split; [|split; [exact At|split]].
  - intros L. unfold f, linear_scheduler_with_warmup, join2. replace (step <? w)%Z with true by (symmetry; now apply Z.ltb_lt).
    rewrite ls_inside by lia. ring.
  - intros R L. unfold f, linear_scheduler_with_warmup, join2. replace (step <? w)%Z with false by (symmetry; apply Z.ltb_ge; lia).
    fold total. rewrite ls_inside by lia. assert (P := inj_pos (total - w) ltac:(lia)).
    replace (total - step)%Z with ((total - w) + - (step - w))%Z by lia. rewrite inject_Z_plus, inject_Z_opp. field. lra.
  - intros R. unfold f, linear_scheduler_with_warmup, join2. replace (step <? w)%Z with false by (symmetry; apply Z.ltb_ge; lia).
    fold total. apply ls_after; lia.
Qed.

(** the schedule counts floor(n / b) steps per epoch; a loader that keeps the last,
    smaller batch makes more steps, the last of them with learning rate 0 *)
Theorem warmup_ends_early : exists lr n b e w step, 0 < lr /\ (0 < b <= n)%Z /\ (0 <= w)%Z /\
  (w <= step < (n + b - 1) / b * e)%Z /\ linear_scheduler_with_warmup lr n b e w step == 0.
Proof. exists 1, 15%Z, 10%Z, 10%Z, 2%Z, 10%Z. repeat split; vm_compute; congruence. Qed.
(** a warm-up as long as training never decays *)
Theorem warmup_never_decays : forall lr n b e w step, (num_train_steps n b e <= w <= step)%Z ->
  linear_scheduler_with_warmup lr n b e w step == lr.
Proof.
  intros lr n b e w step H. unfold linear_scheduler_with_warmup, join2.
  replace (step <? w)%Z with false by (symmetry; apply Z.ltb_ge; lia). apply ls_const. lia.
Qed.

(** ---- clipping by value ---- *)
Lemma clip_value_range c z : 0 <= c -> - c <= clip_value c z <= c.
Proof.
  intros H. unfold clip_value. split; [|apply Q.le_min_r].
  apply Q.min_glb; [apply Q.le_max_r|lra].
Qed.
Lemma clip_value_id c z : - c <= z <= c -> clip_value c z == z.
Proof. intros [A B]. unfold clip_value. rewrite (Q.max_l z (-c)) by exact A. now apply Q.min_l. Qed.

Theorem clip_by_value_spec : forall g c, 0 <= c ->
  Forall2 (Forall2 (fun z z' => - c <= z' <= c /\ (- c <= z <= c -> z' == z) /\ (c < z -> z' == c) /\ (z < - c -> z' == - c)))
          g (clip_by_value g c).
Proof.
  intros g c H. unfold clip_by_value. induction g as [|a g IH]; cbn [map]; constructor; [|exact IH].
  clear IH. induction a as [|z a IH]; cbn [map]; constructor; [|exact IH].
  split; [now apply clip_value_range|]. split; [apply clip_value_id|].
  unfold clip_value. split; intros L.
  - rewrite Q.max_l by lra. apply Q.min_r. lra.
  - rewrite Q.max_r by lra. apply Q.min_l. lra.
Qed.

(** ---- keys ---- *)
Fixpoint depth (k : key) : nat := match k with Seed _ => 0 | Child k _ => S (depth k) end.
Lemma rng_gets_nth n : forall s i, (i < n)%nat -> exists k, nth_error (rng_gets n s) i = Some k /\ depth k = (depth s + S i)%nat.
Proof.
  induction n as [|n IH]; intros s i H; [lia|]. cbn [rng_gets rng_get]. destruct i as [|i].
  - exists (Child s 0). split; [reflexivity|cbn; lia].
  - destruct (IH (Child s 0) i ltac:(lia)) as (k & E & D). exists k. split; [exact E|]. cbn in D. lia.
Qed.
Lemma rng_gets_length n : forall s, length (rng_gets n s) = n.
Proof. induction n as [|n IH]; intros s; cbn; [reflexivity|]. now rewrite IH. Qed.
Theorem rng_gets_distinct : forall n s, NoDup (rng_gets n s) /\ length (rng_gets n s) = n /\ ~ In s (rng_gets n s).
Proof.
  intros n s. split; [|split; [apply rng_gets_length|]].
  - apply NoDup_nth_error. intros i j Hi E. rewrite rng_gets_length in Hi.
    destruct (rng_gets_nth n s i Hi) as (k & Ek & Dk). rewrite Ek in E.
    assert (Hj : (j < n)%nat). { rewrite <- (rng_gets_length n s). apply nth_error_Some. congruence. }
    destruct (rng_gets_nth n s j Hj) as (k' & Ek' & Dk'). rewrite Ek' in E. injection E as <-. lia.
  - intros Hin. apply In_nth_error in Hin. destruct Hin as [i E].
    assert (Hi : (i < n)%nat). { rewrite <- (rng_gets_length n s). apply nth_error_Some. congruence. }
    destruct (rng_gets_nth n s i Hi) as (k' & Ek' & Dk'). rewrite Ek' in E. injection E as ->. lia.
Qed.
Theorem variance_keys_distinct : forall s, fst (snd (variance_keys s)) <> snd (snd (variance_keys s)).
Proof. intros s E. cbn in E. injection E as E. apply (f_equal depth) in E. cbn in E. lia. Qed.
(** two calls in a row: the epistemic variance of the first and the aleatoric variance
    of the second draw from the same key *)
Theorem variance_keys_shared : forall s,
  let '(s1, (a1, e1)) := variance_keys s in
  let '(s2, (a2, e2)) := variance_keys s1 in
  a2 = e1.
Proof. intros s. reflexivity. Qed.

(** ---- decay mask ---- *)
Lemma build_leaves {V} (pos : list (path * V)) X : NoDup (map fst pos) -> all_independent (map fst pos) ->
  set_paths true (Dict []) (map (fun pv => (fst pv, Leaf (snd pv))) pos) = Ok X ->
  forall q v, at_path X q = Some (Leaf v) <-> In (q, v) pos.
Proof.
  intros ND I H q v.
  assert (Fst : map fst (map (fun pv : path * V => (fst pv, Leaf (snd pv))) pos) = map fst pos) by (rewrite map_map; reflexivity).
  pose proof (set_paths_true_reads _ _ _ H) as R. rewrite Fst in R. specialize (R I). rewrite Forall_forall in R.
  assert (Reads : forall p w, In (p, w) pos -> at_path X p = Some (Leaf w)).
  { intros p w Hin. apply (R (p, Leaf w)). apply in_map_iff. exists (p, w). auto. }
  split; [|apply Reads]. intros Hq.
  destruct (set_paths_nothing_else _ _ _ _ _ H Hq) as [N|E].
  - destruct q; [|cbn in N; congruence]. destruct (set_paths_dict _ _ _ H) as [kvs ->]. discriminate.
  - apply Exists_exists in E. destruct E as [x [Hx Hpre]]. apply in_map_iff in Hx. destruct Hx as [[p w] [<- Hin]]. cbn [fst snd] in *.
    pose proof (Reads p w Hin) as Hp. destruct Hpre as [[r ->]|[r ->]].
    + rewrite at_app, Hp in Hq. destruct r; [|discriminate]. cbn in Hq. injection Hq as ->. now rewrite app_nil_r.
    + rewrite at_app, Hq in Hp. destruct r; [|discriminate]. cbn in Hp. injection Hp as ->. now rewrite app_nil_r in Hin.
Qed.

Lemma str_in_spec s t : str_in s t = true <-> occurs_in s t.
Proof.
  unfold str_in, occurs_in. destruct (index 0 s t) as [n|] eqn:E.
  - split; [intros _|reflexivity]. apply index_correct1 in E.
    exists (substring 0 n t), (substring (n + String.length s) (String.length t - (n + String.length s)) t).
    revert n E. induction t as [|a t IH]; intros n E.
    + destruct s; [destruct n; reflexivity|]. destruct n; discriminate.
    + destruct n as [|n].
      * clear IH. cbn [plus]. rewrite <- E at 1.
        assert (forall k u, (u = substring 0 k u ++ substring k (String.length u - k) u)%string) as P.
        { clear. intros k u. revert k. induction u as [|b u IH]; intros k; [destruct k; reflexivity|].
          destruct k as [|k].
          - cbn [substring append]. rewrite Nat.sub_0_r. clear. cbn [String.length]. cbn [substring]. f_equal.
            induction u as [|c u IH]; [reflexivity|]. cbn. f_equal. exact IH.
          - cbn [substring append String.length Nat.sub]. f_equal. apply IH. }
        cbn [substring append]. replace (substring 0 0 (String a t)) with EmptyString by reflexivity. cbn [append].
        exact (P (String.length s) (String a t)).
      * cbn [substring append plus String.length Nat.sub]. f_equal. apply IH. exact E.
  - split; [discriminate|]. intros (a & b & ->). exfalso.
    destruct s as [|c s].
    { destruct (a ++ "" ++ b)%string; cbn in E; discriminate. }
    apply (index_correct3 0 (String.length a) (String c s) (a ++ String c s ++ b)%string E); [discriminate|lia|].
    clear E. induction a as [|x a IH].
    + change (substring 0 (String.length (String c s)) (String c s ++ b) = String c s)%string. generalize (String c s). intros u. induction u as [|d u IH]; [destruct b; reflexivity|]. cbn. f_equal. exact IH.
    + exact IH.
Qed.

Lemma last_two_eq p q : last_two p = last_two q <-> same_end p q.
Proof.
  unfold last_two, same_end. split.
  - intros E. exists (firstn (length p - 2) p), (firstn (length q - 2) q), (skipn (length p - 2) p).
    split; [now rewrite firstn_skipn|]. split; [rewrite E; now rewrite firstn_skipn|].
    pose proof (f_equal (@List.length _) E) as L. rewrite !skipn_length in *.
    destruct (Nat.lt_ge_cases (length p) 2) as [Lp|Gp].
    + right. split; [lia|]. replace (length p - 2)%nat with 0%nat by lia. replace (length q - 2)%nat with 0%nat by lia. auto.
    + left. lia.
  - intros (r & s & e & -> & -> & [L|(L & -> & ->)]).
    + rewrite !app_length, L. replace (length r + 2 - 2)%nat with (length r) by lia. replace (length s + 2 - 2)%nat with (length s) by lia.
      rewrite !skipn_app, !skipn_all, !Nat.sub_diag. reflexivity.
    + reflexivity.
Qed.

Definition small (l : ascii) : bool := Ascii.eqb (lower_ascii l) l.
Lemma spells_lower l a : small l = true -> (lower_ascii a = l <-> spells l a).
Proof.
  intros Sl. apply Ascii.eqb_eq in Sl. split.
  - intros <-. unfold spells. clear Sl. destruct (Ascii.eqb (lower_ascii a) a) eqn:E; [left; symmetry; now apply Ascii.eqb_eq|right].
    exists (nat_of_ascii a - 65)%nat. revert E. destruct a as [b0 b1 b2 b3 b4 b5 b6 b7].
    destruct b0, b1, b2, b3, b4, b5, b6, b7; vm_compute; intros E; first [discriminate E | split; reflexivity].
  - intros [->|[i [A B]]]; [exact Sl|]. do 26 (destruct i as [|i]; [vm_compute in A, B; injection A as <-; injection B as <-; reflexivity|]). discriminate A.
Qed.
Lemma lower_app a b : lower (a ++ b) = (lower a ++ lower b)%string.
Proof. induction a as [|x a IH]; cbn; [reflexivity|now rewrite IH]. Qed.
Lemma lower_split x : forall t y, lower t = (x ++ y)%string -> exists a b, t = (a ++ b)%string /\ lower a = x /\ lower b = y.
Proof.
  induction x as [|c x IH]; intros t y E; cbn in E; [exists EmptyString, t; auto|].
  destruct t as [|d t]; cbn in E; [discriminate|]. injection E as E1 E2. destruct (IH _ _ E2) as [a [b [-> [A B]]]].
  exists (String d a), b. cbn. now rewrite A, E1.
Qed.
Lemma lower_spells s : forallb small (list_ascii_of_string s) = true -> forall m,
  lower m = s <-> Forall2 spells (list_ascii_of_string s) (list_ascii_of_string m).
Proof.
  induction s as [|c s IH]; cbn; intros F m.
  - destruct m; cbn; split; intros H; try constructor; try reflexivity; try discriminate; inversion H.
  - apply andb_true_iff in F. destruct F as [F1 F2]. destruct m as [|d m]; cbn; [split; intros H; [discriminate|inversion H]|].
    split; intros H.
    + injection H as H1 H2. constructor; [now apply spells_lower|now apply IH].
    + inversion H as [|? ? ? ? H1 H2]; subst. f_equal; [now apply spells_lower|now apply IH].
Qed.
Lemma any_case s t : forallb small (list_ascii_of_string s) = true -> (occurs_in s (lower t) <-> occurs_in_any_case s t).
Proof.
  intros F. unfold occurs_in, occurs_in_any_case. split.
  - intros [x [y E]]. apply lower_split in E. destruct E as [a [r [-> [_ E]]]]. apply lower_split in E. destruct E as [m [b [-> [E _]]]].
    exists a, m, b. split; [reflexivity|now apply lower_spells].
  - intros [a [m [b [-> H]]]]. apply lower_spells in H; [|exact F]. exists (lower a), (lower b). now rewrite !lower_app, H.
Qed.
Lemma candidates_small c : In c ["layernorm"; "layer_norm"; "ln"]%string -> forallb small (list_ascii_of_string c) = true.
Proof. intros [<-|[<-|[<-|[]]]]; reflexivity. Qed.

Lemma layer_norm_like_spec p : layer_norm_like p = true <-> named_layer_norm p.
Proof.
  unfold layer_norm_like, named_layer_norm. rewrite existsb_exists.
  split; intros [c [A B]]; exists c; split; auto; [apply str_in_spec in B; apply any_case in B|apply str_in_spec, any_case]; auto; now apply candidates_small.
Qed.

Lemma decays_spec paths p : decays paths p = true <->
  last p EmptyString <> "bias"%string /\ forall q, In q paths -> same_end p q -> ~ named_layer_norm q.
Proof.
  unfold decays. rewrite andb_true_iff, !negb_true_iff, String.eqb_neq.
  split; intros [A B]; split; auto.
  - intros q Hq SE N. rewrite <- not_true_iff_false in B. apply B. apply existsb_exists. exists (last_two q).
    split; [apply in_map, filter_In; split; [exact Hq|now apply layer_norm_like_spec]|].
    unfold path_eqb. destruct (list_eq_dec _ _ _) as [|N']; [reflexivity|]. exfalso. apply N'. now apply last_two_eq.
  - rewrite <- not_true_iff_false. intros E. apply existsb_exists in E. destruct E as [e [He E]].
    apply in_map_iff in He. destruct He as [q [<- Hq]]. apply filter_In in Hq. destruct Hq as [Hq L].
    unfold path_eqb in E. destruct (list_eq_dec _ _ _) as [E'|]; [|discriminate].
    apply (B q Hq); [now apply last_two_eq|now apply layer_norm_like_spec].
Qed.

Theorem mask_spec : forall V (params : tree V), unique_keys params -> (exists kvs, params = Dict kvs) ->
  exists mask, decay_mask params = Ok mask /\
  (forall q, (exists b, leaf_at mask q b) <-> (exists v, leaf_at params q v)) /\
  (forall q b, leaf_at mask q b ->
     (b = true <-> last q EmptyString <> "bias"%string /\
        forall p v, leaf_at params p v -> same_end q p -> ~ named_layer_norm p)).
Proof.
  intros V params U D. unfold decay_mask.
  set (paths := map fst (leaves params)).
  assert (LP : leaf_paths params paths).
  { split; [now apply leaves_nodup|]. apply Forall_forall. intros p Hp. apply in_map_iff in Hp. destruct Hp as [[q v] [<- Hin]].
    apply leaves_at in Hin; [|exact U]. cbn [fst]. split; [|eauto]. intros ->. destruct D as [kvs ->]. discriminate. }
  pose proof (leaf_paths_independent params paths LP) as I.
  set (pos := map (fun p => (p, decays paths p)) paths).
  assert (Fst : map fst pos = paths) by (unfold pos; rewrite map_map; apply map_id).
  assert (Epos : map (fun p => (p, Leaf (decays paths p))) paths = map (fun pv : path * bool => (fst pv, Leaf (snd pv))) pos)
    by (unfold pos; rewrite map_map; reflexivity).
  rewrite Epos.
  destruct (set_paths_allow_ok (map (fun pv : path * bool => (fst pv, Leaf (snd pv))) pos) (Dict [])) as [mask HM].
  - rewrite map_map. cbn [fst]. change (all_independent (map fst pos)). rewrite Fst. exact I.
  - apply Forall_forall. intros x Hx. apply in_map_iff in Hx. destruct Hx as [[p b] [<- Hin]]. cbn [fst].
    destruct LP as [_ F]. rewrite Forall_forall in F. apply F. rewrite <- Fst. apply (in_map fst) in Hin. exact Hin.
  - apply Forall_forall. intros x _ q r v Eq Nr Hq. destruct q; cbn in Hq; discriminate.
  - exists mask. split; [exact HM|].
    assert (Rd : forall q b, leaf_at mask q b <-> In (q, b) pos).
    { intros q b. apply build_leaves; [| |exact HM]; rewrite Fst; [apply LP|exact I]. }
    assert (Lv : forall q, In q paths <-> exists v, leaf_at params q v).
    { intros q. unfold paths. rewrite in_map_iff. split.
      - intros [[p v] [<- Hin]]. exists v. now apply leaves_at.
      - intros [v Hv]. exists (q, v). split; [reflexivity|]. now apply leaves_at. }
    split.
    + intros q. rewrite <- Lv. split.
      * intros [b Hb]. apply Rd in Hb. apply (in_map fst) in Hb. rewrite Fst in Hb. exact Hb.
      * intros Hq. exists (decays paths q). apply Rd. unfold pos. apply in_map_iff. exists q. auto.
    + intros q b Hb. apply Rd in Hb. unfold pos in Hb. apply in_map_iff in Hb. destruct Hb as [p [E Hp]]. injection E as -> <-.
      rewrite decays_spec. split; intros [A B]; split; auto.
      * intros p0 v Hp0. apply B. apply Lv. eauto.
      * intros q0 Hq0. apply Lv in Hq0. destruct Hq0 as [v Hv]. now apply (B q0 v).
Qed.

(** no component of the path mentions a layer norm, yet the weight is not decayed *)
Theorem mask_wrong : exists (params : tree nat) mask q,
  decay_mask params = Ok mask /\ leaf_at mask q false /\ last q EmptyString <> "bias"%string /\
  forall p v k c, leaf_at params p v -> In k p -> In c ["layernorm"; "layer_norm"; "ln"]%string -> ~ occurs_in_any_case c k.
Proof.
  exists (Dict [("model", Dict [("net", Dict [("kernel", Leaf 0%nat)])])])%string. eexists.
  exists ["model"; "net"; "kernel"]%string. split; [vm_compute; reflexivity|]. split; [reflexivity|]. split; [discriminate|].
  intros p v k c Hp Hk Hc Ho. apply any_case in Ho; [|now apply candidates_small]. apply str_in_spec in Ho.
  assert (Hk' : In k ["model"; "net"; "kernel"]%string).
  { unfold leaf_at in Hp. destruct p as [|k1 [|k2 [|k3 [|k4 p]]]]; cbn in Hp.
    - discriminate.
    - destruct (String.eqb k1 "model"); cbn in Hp; discriminate.
    - destruct (String.eqb k1 "model") eqn:E1; cbn in Hp; [|discriminate].
      destruct (String.eqb k2 "net") eqn:E2; cbn in Hp; discriminate.
    - destruct (String.eqb k1 "model") eqn:E1; cbn in Hp; [|discriminate].
      destruct (String.eqb k2 "net") eqn:E2; cbn in Hp; [|discriminate].
      destruct (String.eqb k3 "kernel") eqn:E3; cbn in Hp; [|discriminate].
      apply String.eqb_eq in E1, E2, E3. subst. exact Hk.
    - exfalso. destruct (String.eqb k1 "model"); cbn in Hp; [|discriminate].
      destruct (String.eqb k2 "net"); cbn in Hp; [|discriminate].
      destruct (String.eqb k3 "kernel"); cbn in Hp; discriminate. }
  cbn in Hk', Hc. repeat (destruct Hk' as [<-|Hk']; [repeat (destruct Hc as [<-|Hc]; [vm_compute in Ho; discriminate|]); contradiction|]); contradiction.
Qed.
