From Coq Require Import List Arith ZArith QArith Qround Qminmax Bool Lia Lqa Permutation Sorted.
From Verif Require Import Lib QuantModel QuantSpec QuantProofs ConfRegModel ConfClassModel ConfClassSpec ConfClassProofs ConfClassProofs2.
Import ListNotations.
Open Scope Q_scope.

(** ---- argmax ---- *)
Lemma argmax_from_spec l : forall best besti i (full : list Q), (besti < i)%nat -> nth besti full 0 = best ->
  (forall k x, nth_error l k = Some x -> nth (i + k) full 0 = x) ->
  (forall k, (k < i)%nat -> nth k full 0 <= best) -> (forall k, (k < besti)%nat -> nth k full 0 < best) ->
  let r := argmax_from best besti i l in
  (r < i + length l)%nat /\ (forall k, (k < i + length l)%nat -> nth k full 0 <= nth r full 0) /\ (forall k, (k < r)%nat -> nth k full 0 < nth r full 0).
Proof.
  induction l as [|x l IH]; intros best besti i full Hb Hn Hl Hle Hlt; cbn [argmax_from length].
  - cbv zeta. rewrite Hn. split; [lia|]. split; [|exact Hlt]. intros k Hk. apply Hle. lia.
  - pose proof (Hl O x eq_refl) as Hx. rewrite Nat.add_0_r in Hx.
    destruct (Qlt_bool best x) eqn:E; [apply Qltb_true in E|apply Qltb_false in E].
    + destruct (IH x i (S i) full) as (A & B & C); auto.
      * intros k y Hy. replace (S i + k)%nat with (i + S k)%nat by lia. now apply Hl.
      * intros k Hk. destruct (Nat.eq_dec k i) as [->|]; [rewrite Hx; lra|]. specialize (Hle k ltac:(lia)). lra.
      * intros k Hk. specialize (Hle k Hk). lra.
      * cbv zeta. split; [lia|]. split; [|exact C]. intros k Hk. apply B. lia.
    + destruct (IH best besti (S i) full) as (A & B & C); auto.
      * intros k y Hy. replace (S i + k)%nat with (i + S k)%nat by lia. now apply Hl.
      * intros k Hk. destruct (Nat.eq_dec k i) as [->|]; [rewrite Hx; lra|]. apply Hle. lia.
      * cbv zeta. split; [lia|]. split; [|exact C]. intros k Hk. apply B. lia.
Qed.
Lemma argmax_spec l : l <> [] -> (argmax l < length l)%nat /\
  (forall k, (k < length l)%nat -> nth k l 0 <= nth (argmax l) l 0) /\ (forall k, (k < argmax l)%nat -> nth k l 0 < nth (argmax l) l 0).
Proof.
  destruct l as [|x l]; [congruence|]. intros _. unfold argmax.
  apply (argmax_from_spec l x 0 1 (x :: l)); auto.
  - intros k y Hy. cbn [plus nth]. now apply nth_error_nth.
  - intros k Hk. replace k with O by lia. cbn. lra.
  - intros k Hk. lia.
Qed.

(** ---- linspace ---- *)
Lemma linspace_length a b n : length (linspace a b n) = n.
Proof. unfold linspace. now rewrite map_length, seq_length. Qed.
Lemma linspace_nth a b n i : (i < n)%nat ->
  nth i (linspace a b n) 0 = a + inject_Z (Z.of_nat i) * ((b - a) / inject_Z (Z.of_nat (n - 1))).
Proof.
  intros H. unfold linspace. rewrite (nth_indep _ 0 (a + inject_Z (Z.of_nat 0) * ((b - a) / inject_Z (Z.of_nat (n - 1)))))
    by (now rewrite map_length, seq_length).
  rewrite (map_nth (fun i => a + inject_Z (Z.of_nat i) * ((b - a) / inject_Z (Z.of_nat (n - 1))))), seq_nth by exact H. reflexivity.
Qed.
Lemma linspace_in_grid a b n tau : In tau (linspace a b n) -> in_grid a b n tau.
Proof.
  intros H. apply (In_nth _ _ 0) in H. destruct H as (i & Hi & <-). rewrite linspace_length in Hi. rewrite linspace_nth by exact Hi.
  exists i. split; [exact Hi|]. destruct (Nat.eq_dec n 1) as [->|N].
  - replace i with O by lia. cbn -[Qeq]. split; [ring|]. intros _. ring.
  - split; [|lia]. assert (0 < inject_Z (Z.of_nat (n - 1))) by (rewrite <- (Zlt_Qlt 0); lia). field. lra.
Qed.
Lemma grid_in_linspace a b n tau : in_grid a b n tau -> exists tau', In tau' (linspace a b n) /\ tau == tau'.
Proof.
  intros (i & Hi & E & E1). exists (nth i (linspace a b n) 0). split; [apply nth_In; now rewrite linspace_length|].
  rewrite linspace_nth by exact Hi. destruct (Nat.eq_dec n 1) as [->|N].
  - replace i with O by lia. rewrite E1 by lia. cbn -[Qeq]. ring.
  - assert (P : 0 < inject_Z (Z.of_nat (n - 1))) by (rewrite <- (Zlt_Qlt 0); lia).
    apply (Qmult_inj_r _ _ (inject_Z (Z.of_nat (n - 1)))); [lra|].
    assert (E2 : (inject_Z (Z.of_nat i) * ((b - a) / inject_Z (Z.of_nat (n - 1)))) * inject_Z (Z.of_nat (n - 1)) == inject_Z (Z.of_nat i) * (b - a)) by (field; lra).
    lra.
Qed.
Lemma linspace_between a b n tau : a <= b -> In tau (linspace a b n) -> a <= tau <= b.
Proof.
  intros L H. apply (In_nth _ _ 0) in H. destruct H as (i & Hi & <-). rewrite linspace_length in Hi. rewrite linspace_nth by exact Hi.
  destruct (Nat.eq_dec n 1) as [->|N].
  - replace i with O by lia. change (inject_Z (Z.of_nat 0)) with 0. assert (Z0 : forall z : Q, 0 * z == 0) by (intros z; ring). rewrite Z0. lra.
  - assert (P : 0 < inject_Z (Z.of_nat (n - 1))) by (rewrite <- (Zlt_Qlt 0); lia).
    set (m := inject_Z (Z.of_nat (n - 1))) in *. set (k := inject_Z (Z.of_nat i)).
    assert (K : 0 <= k <= m). { unfold k, m. split; [rewrite <- (Zle_Qle 0)|rewrite <- Zle_Qle]; lia. }
    assert (D : 0 <= (b - a) / m). { apply Qle_shift_div_l; [exact P|]. lra. }
    assert (E : m * ((b - a) / m) == b - a) by (field; lra).
    assert (A1 : 0 <= k * ((b - a) / m)) by (apply Qmult_le_0_compat; lra).
    assert (A2 : k * ((b - a) / m) <= m * ((b - a) / m)) by (apply Qmult_le_compat_r; lra). lra.
Qed.

(** ---- objective in terms of counts ---- *)
Definition nQ (n : nat) : Q := inject_Z (Z.of_nat n).
Lemma nQ_nonneg n : 0 <= nQ n. Proof. unfold nQ. rewrite <- (Zle_Qle 0). lia. Qed.
Lemma nQ_pos n : (0 < n)%nat -> 0 < nQ n. Proof. intros. unfold nQ. rewrite <- (Zlt_Qlt 0). lia. Qed.
Lemma nQ_S n : nQ (S n) == 1 + nQ n. Proof. unfold nQ. rewrite nat_S_Q. ring. Qed.
Lemma nQ_le a b : nQ a <= nQ b <-> (a <= b)%nat. Proof. unfold nQ. rewrite <- Zle_Qle. lia. Qed.
Lemma sum_of_bool l : qsum (map of_bool l) == nQ (count (fun b => b) l).
Proof.
  induction l as [|b l IH]; [reflexivity|]. cbn [map]. rewrite qsum_cons, count_cons, IH. destruct b; cbn [of_bool plus].
  - rewrite nQ_S. reflexivity.
  - ring.
Qed.

Definition wb (y : bool) (t b : bool) : bool := b && Bool.eqb t y.
Lemma sum_wb (y : bool) (w : bool -> Q) targets bs : (forall t, w t == of_bool (Bool.eqb t y)) ->
  qsum (zip_with (fun v b => v * of_bool b) (map w targets) bs) == nQ (count (fun tb => wb y (fst tb) (snd tb)) (combine targets bs)).
Proof.
  intros Hw. unfold zip_with. revert bs. induction targets as [|t targets IH]; intros [|b bs]; try reflexivity.
  cbn [map combine]. rewrite qsum_cons, count_cons, IH. cbn [fst snd]. rewrite (Hw t). unfold wb.
  destruct b, (Bool.eqb t y); cbn [of_bool andb plus]; rewrite ?nQ_S; ring.
Qed.
Lemma zip_with_length {A B C} (f : A -> B -> C) l m : length l = length m -> length (zip_with f l m) = length l.
Proof. intros H. unfold zip_with. rewrite map_length, combine_length, H. lia. Qed.

(** selected and correct *)
Definition sel (bs : list bool) : nat := count (fun b => b) bs.
Definition cor (y : bool) (targets bs : list bool) : nat := count (fun tb => wb y (fst tb) (snd tb)) (combine targets bs).

Lemma objective_counts (y : bool) (w : bool -> Q) targets bs t : (forall b, w b == of_bool (Bool.eqb b y)) -> length targets = length bs ->
  (((0 < sel bs)%nat /\ t * nQ (sel bs) <= nQ (cor y targets bs)) /\ objective bs (map w targets) t == nQ (sel bs) / nQ (length bs)
   \/ ~ ((0 < sel bs)%nat /\ t * nQ (sel bs) <= nQ (cor y targets bs)) /\ objective bs (map w targets) t == 0).
Proof.
  intros Hw L. unfold objective. cbv zeta. unfold qmean, qlen. rewrite zip_with_length by (now rewrite map_length). rewrite !map_length, L. fold (nQ (length bs)).
  set (N := nQ (length bs)).
  assert (S1 : qsum (map of_bool bs) == nQ (sel bs)) by apply sum_of_bool.
  assert (S2 : qsum (zip_with (fun w b => w * of_bool b) (map w targets) bs) == nQ (cor y targets bs)) by (now apply sum_wb).
  destruct (sel bs) as [|k] eqn:Ek.
  - right. split; [lia|]. destruct (Qeq_bool _ _) eqn:E; [ring|]. exfalso. apply Qeq_bool_neq in E. apply E. rewrite S1. unfold nQ, Qdiv. cbn. ring.
  - assert (NP : 0 < N). { apply nQ_pos. assert (sel bs <= length bs)%nat by apply count_le_length. lia. }
    assert (SP : 0 < nQ (S k)) by (apply nQ_pos; lia).
    destruct (Qeq_bool _ _) eqn:E.
    + exfalso. apply Qeq_bool_iff in E. rewrite S1 in E. assert (0 < nQ (S k) / N) by (apply Qlt_shift_div_l; lra). lra.
    + clear E. set (prec := _ / (qsum (map of_bool bs) / N)).
      assert (EP : prec == nQ (cor y targets bs) / nQ (S k)). { unfold prec. rewrite S1, S2. field. split; lra. }
      assert (Iff : t <= prec <-> t * nQ (S k) <= nQ (cor y targets bs)).
      { rewrite EP. split; intros H.
        - apply (Qmult_le_compat_r _ _ (nQ (S k))) in H; [|lra]. assert (X : nQ (cor y targets bs) / nQ (S k) * nQ (S k) == nQ (cor y targets bs)) by (field; lra). lra.
        - apply Qle_shift_div_l; lra. }
      destruct (Qle_bool t prec) eqn:E.
      * left. apply Qleb_true in E. split; [split; [lia|now apply Iff]|]. rewrite S1. cbn [of_bool]. ring.
      * right. apply Qleb_false in E. split; [intros [_ H]; apply Iff in H; lra|]. cbn [of_bool]. ring.
Qed.

Lemma cor_n_correct (b : Q -> bool) y probs targets : cor y targets (map b probs) = n_correct b y probs targets.
Proof.
  unfold cor, n_correct. revert targets. induction probs as [|p probs IH]; intros [|t targets]; try reflexivity.
  cbn [map combine]. rewrite !count_cons, IH. reflexivity.
Qed.
Lemma sel_n_selected (b : Q -> bool) probs : sel (map b probs) = n_selected b probs.
Proof. unfold sel, n_selected. now rewrite count_map. Qed.

(** maximising an objective over a grid *)
Section Side.
Variables (y : bool) (w : bool -> Q) (targets : list bool) (probs : list Q) (t : Q) (b : Q -> bool) (scale : Q -> Q -> Q) (taus : list Q).
Hypothesis Hw : forall x, w x == of_bool (Bool.eqb x y).
Hypothesis L : length targets = length probs.
Let obj tau := objective (map (fun p => b (scale tau p)) probs) (map w targets) t.
Lemma obj_cases tau : (meets b y t (map (scale tau) probs) targets /\ obj tau == nQ (n_selected b (map (scale tau) probs)) / nQ (length probs))
  \/ (~ meets b y t (map (scale tau) probs) targets /\ obj tau == 0).
Proof.
  assert (L' : length targets = length (map (fun p => b (scale tau p)) probs)) by (now rewrite map_length).
  assert (Em : map (fun p => b (scale tau p)) probs = map b (map (scale tau) probs)) by (now rewrite map_map).
  destruct (objective_counts y w targets _ t Hw L') as [[H E]|[H E]]; [left|right]; unfold meets, obj;
    rewrite Em in *; rewrite sel_n_selected, cor_n_correct in H.
  - rewrite sel_n_selected in E. rewrite !map_length in E. split; [exact H|exact E].
  - split; [exact H|exact E].
Qed.
Lemma best_tau : taus <> [] -> let best := nth (argmax (map obj taus)) taus 0 in
  In best taus /\ forall tau, In tau taus -> meets b y t (map (scale tau) probs) targets ->
    meets b y t (map (scale best) probs) targets /\
    (n_selected b (map (scale tau) probs) <= n_selected b (map (scale best) probs))%nat.
Proof.
  intros NE best. assert (NE' : map obj taus <> []) by (destruct taus; [congruence|discriminate]).
  destruct (argmax_spec _ NE') as (A & B & _). rewrite map_length in A.
  assert (Hb : nth (argmax (map obj taus)) (map obj taus) 0 = obj best).
  { unfold best. rewrite (nth_indep _ 0 (obj 0)) by (now rewrite map_length). now rewrite map_nth. }
  split; [now apply nth_In|]. intros tau Hin M. apply (In_nth _ _ 0) in Hin. destruct Hin as (k & Hk & Ek).
  assert (Ok1 : obj tau <= obj best).
  { rewrite <- Hb, <- Ek. specialize (B k). rewrite map_length in B. specialize (B Hk).
    rewrite (nth_indep _ 0 (obj 0)) in B by (now rewrite map_length). now rewrite map_nth in B. }
  destruct (obj_cases tau) as [[_ E1]|[N _]]; [|contradiction].
  assert (P : 0 < nQ (n_selected b (map (scale tau) probs))) by (apply nQ_pos; apply M).
  assert (PN : 0 < nQ (length probs)).
  { apply nQ_pos. destruct M as [M _]. unfold n_selected in M. pose proof (count_le_length b (map (scale tau) probs)) as X. rewrite map_length in X. lia. }
  assert (P2 : 0 < obj tau) by (rewrite E1; apply Qlt_shift_div_l; lra).
  destruct (obj_cases best) as [[M2 E2]|[_ E2]]; [|lra]. split; [exact M2|].
  apply nQ_le. rewrite E1, E2 in Ok1. apply (Qmult_le_compat_r _ _ (nQ (length probs))) in Ok1; [|lra].
  assert (X : forall z, z / nQ (length probs) * nQ (length probs) == z) by (intros z; field; lra). rewrite !X in Ok1. exact Ok1.
Qed.
Lemma none_first : taus <> [] -> (forall tau, In tau taus -> ~ meets b y t (map (scale tau) probs) targets) -> argmax (map obj taus) = O.
Proof.
  intros NE H. assert (NE' : map obj taus <> []) by (destruct taus; [congruence|discriminate]).
  destruct (argmax_spec _ NE') as (A & _ & C). rewrite map_length in A.
  destruct (argmax (map obj taus)) as [|k] eqn:E; [reflexivity|]. exfalso.
  specialize (C O ltac:(lia)). rewrite !(nth_indep (map obj taus) 0 (obj 0)) in C by (rewrite map_length; lia). rewrite !map_nth in C.
  assert (Z : forall i, (i < length taus)%nat -> obj (nth i taus 0) == 0).
  { intros i Hi. destruct (obj_cases (nth i taus 0)) as [[M _]|[_ Z]]; [|exact Z]. exfalso. apply (H (nth i taus 0)); [now apply nth_In|exact M]. }
  rewrite !Z in C by lia. lra.
Qed.
End Side.

(** lists that select the same points *)
Lemma meets_ext b y t ps ps' targets : map b ps = map b ps' -> meets b y t ps targets -> meets b y t ps' targets.
Proof.
  intros E. unfold meets. rewrite <- !sel_n_selected, <- !cor_n_correct, E. auto.
Qed.
Lemma n_selected_ext b ps ps' : map b ps = map b ps' -> n_selected b ps = n_selected b ps'.
Proof. intros E. now rewrite <- !sel_n_selected, E. Qed.

Lemma leb_ext x y x' y' : x == x' -> y == y' -> Qle_bool x y = Qle_bool x' y'.
Proof.
  intros E F. destruct (Qle_bool x' y') eqn:G; [apply Qleb_true in G; apply Qleb_true; lra|apply Qleb_false in G; apply Qleb_false; lra].
Qed.
Lemma Qmin1 x : Qmin x 1 == if Qlt_bool 1 x then 1 else x.
Proof. destruct (Qlt_bool 1 x) eqn:E; [apply Qltb_true in E; apply Q.min_r; lra|apply Qltb_false in E; apply Q.min_l; lra]. Qed.

Lemma scale_pos_eq tau tau' p : tau == tau' -> p <= 1 -> scale_pos tau p == rescale_pos tau' p.
Proof.
  intros E H. unfold scale_pos, rescale_pos, half. rewrite Qmin1. destruct (Qlt_bool (1 # 2) p) eqn:P; cbn [of_bool].
  - assert (X : (1 + (tau - 1) * 1) * p == tau' * p) by (rewrite E; ring).
    destruct (Qlt_bool 1 ((1 + (tau - 1) * 1) * p)) eqn:A; [apply Qltb_true in A|apply Qltb_false in A].
    + replace (Qlt_bool 1 (tau' * p)) with true; [reflexivity|]. symmetry. apply Qltb_true. lra.
    + replace (Qlt_bool 1 (tau' * p)) with false; [exact X|]. symmetry. apply Qltb_false. lra.
  - assert (X : (1 + (tau - 1) * 0) * p == p) by ring.
    destruct (Qlt_bool 1 ((1 + (tau - 1) * 0) * p)) eqn:A; [apply Qltb_true in A; lra|exact X].
Qed.
Lemma scale_neg_eq tau tau' p : tau == tau' -> scale_neg tau p == rescale_neg tau' p.
Proof. intros E. unfold scale_neg, rescale_neg, half. destruct (Qlt_bool p (1 # 2)); cbn [of_bool]; rewrite E; ring. Qed.

Lemma calibrate_ok targets probs tp tn n margin ps : calibrate targets probs tp tn n margin = Ok ps ->
  (1#2) < tp /\ (1#2) < tn /\ length targets = length probs /\ (0 < n)%nat /\
  tau_pos ps = nth (argmax (map (pos_objective targets probs tp margin) (linspace 1 (2 * tp) n))) (linspace 1 (2 * tp) n) 0 /\
  tau_neg ps = nth (argmax (map (neg_objective targets probs tn margin) (rev (linspace (2 * (1 - tn)) 1 n)))) (rev (linspace (2 * (1 - tn)) 1 n)) 0.
Proof.
  unfold calibrate, half. destruct (Qle_bool tn (1#2)) eqn:E1; [discriminate|]. destruct (Qle_bool tp (1#2)) eqn:E2; [discriminate|]. cbn [orb].
  destruct (Nat.eqb_spec (length targets) (length probs)) as [L|]; [|discriminate]. cbn [negb].
  destruct (Nat.eqb_spec n 0) as [|N]; [discriminate|]. intros H. injection H as <-. cbn [tau_pos tau_neg].
  apply Qleb_false in E1, E2. repeat split; auto; lia.
Qed.
Lemma linspace_nonempty a b n : (0 < n)%nat -> linspace a b n <> [].
Proof. intros H E. pose proof (linspace_length a b n) as L. rewrite E in L. cbn in L. lia. Qed.
Lemma rev_nonempty {A} (l : list A) : l <> [] -> rev l <> [].
Proof. intros H E. apply H. rewrite <- (rev_involutive l), E. reflexivity. Qed.


Lemma map_ext_in' {A B} (f g : A -> B) l : (forall x, In x l -> f x = g x) -> map f l = map g l.
Proof. apply map_ext_in. Qed.

Lemma taus_range targets probs tp tn n margin ps : calibrate targets probs tp tn n margin = Ok ps ->
  1 <= tau_pos ps <= 2 * tp /\ (2 * (1 - tn) <= tau_neg ps <= 1).
Proof.
  intros H. apply calibrate_ok in H. destruct H as (A & B & L & N & Ep & En). split.
  - apply (linspace_between 1 (2 * tp) n); [lra|]. rewrite Ep.
    destruct (best_tau true of_bool targets probs (tp + margin) (fun p => Qle_bool tp p) scale_pos (linspace 1 (2 * tp) n)
               ltac:(intros []; reflexivity) L (linspace_nonempty _ _ _ N)) as [I _]. exact I.
  - apply (linspace_between (2 * (1 - tn)) 1 n); [lra|]. rewrite En. apply in_rev.
    destruct (best_tau false (fun y => 1 - of_bool y) targets probs (tn + margin) (fun p => Qle_bool p (1 - tn)) scale_neg (rev (linspace (2 * (1 - tn)) 1 n))
               ltac:(intros []; reflexivity) L (rev_nonempty _ (linspace_nonempty _ _ _ N))) as [I _]. exact I.
Qed.

Lemma apply_high ps p : 1 <= tau_pos ps -> (1#2) < p <= 1 -> apply_patch ps p == rescale_pos (tau_pos ps) p /\ p <= apply_patch ps p <= 1.
Proof.
  intros T P. unfold apply_patch, rescale_pos, half. replace (Qlt_bool (1#2) p) with true by (symmetry; apply Qltb_true; lra).
  assert (G : p <= tau_pos ps * p). { rewrite <- (Qmult_1_l p) at 1. apply Qmult_le_compat_r; lra. }
  assert (E := Qmin1 (tau_pos ps * p)).
  assert (R : p <= Qmin (tau_pos ps * p) 1 <= 1). { split; [apply Q.min_glb; lra|apply Q.le_min_r]. }
  replace (Qlt_bool (Qmin (tau_pos ps * p) 1) (1#2)) with false by (symmetry; apply Qltb_false; lra). auto.
Qed.
Lemma apply_low ps p : p < (1#2) -> apply_patch ps p = rescale_neg (tau_neg ps) p.
Proof.
  intros P. unfold apply_patch, rescale_neg, half. replace (Qlt_bool (1#2) p) with false by (symmetry; apply Qltb_false; lra). reflexivity.
Qed.
Lemma apply_mid ps p : p == (1#2) -> apply_patch ps p = p.
Proof.
  intros P. unfold apply_patch, half. replace (Qlt_bool (1#2) p) with false by (symmetry; apply Qltb_false; lra).
  replace (Qlt_bool p (1#2)) with false by (symmetry; apply Qltb_false; lra). reflexivity.
Qed.

Theorem calibrated_range : forall targets probs tp tn n margin ps p,
  calibrate targets probs tp tn n margin = Ok ps -> tn <= 1 -> 0 <= p <= 1 ->
  0 <= apply_patch ps p <= 1 /\ ((1#2) <= p -> p <= apply_patch ps p) /\ (p <= (1#2) -> apply_patch ps p <= p).
Proof.
  intros targets probs tp tn n margin ps p H T P. destruct (taus_range _ _ _ _ _ _ _ H) as [[A _] [B C]].
  destruct (Qlt_le_dec (1#2) p) as [G|G].
  - destruct (apply_high ps p A ltac:(lra)) as [_ R]. repeat split; intros; lra.
  - destruct (Qlt_le_dec p (1#2)) as [G2|G2].
    + rewrite (apply_low ps p G2). unfold rescale_neg. replace (Qlt_bool p (1#2)) with true by (symmetry; apply Qltb_true; lra).
      assert (0 <= tau_neg ps * p) by (apply Qmult_le_0_compat; lra).
      assert (tau_neg ps * p <= 1 * p) by (apply Qmult_le_compat_r; lra). repeat split; intros; lra.
    + rewrite (apply_mid ps p) by lra. repeat split; intros; lra.
Qed.

Theorem positive_guarantee : forall targets probs tp tn n margin ps tau,
  calibrate targets probs tp tn n margin = Ok ps -> tn <= 1 -> unit_probs probs ->
  in_grid 1 (2 * tp) n tau -> meets (fun p => Qle_bool tp p) true (tp + margin) (map (rescale_pos tau) probs) targets ->
  meets (fun p => Qle_bool tp p) true (tp + margin) (apply_patches (Some ps) probs) targets /\
  (n_selected (fun p => Qle_bool tp p) (map (rescale_pos tau) probs) <= n_selected (fun p => Qle_bool tp p) (apply_patches (Some ps) probs))%nat.
Proof.
  intros targets probs tp tn n margin ps tau H T U G M. pose proof (taus_range _ _ _ _ _ _ _ H) as [[R1 R2] [R3 R4]].
  assert (Hr := calibrated_range _ _ _ _ _ _ _ (0) H T ltac:(lra)). clear Hr.
  pose proof (calibrate_ok _ _ _ _ _ _ _ H) as (A & B & L & N & Ep & _).
  apply grid_in_linspace in G. destruct G as (tau' & Hin & Et).
  set (b := fun p => Qle_bool tp p) in *.
  assert (E1 : map b (map (rescale_pos tau) probs) = map b (map (scale_pos tau') probs)).
  { rewrite !map_map. apply map_ext_in. intros p Hp. apply leb_ext; [reflexivity|]. symmetry. apply scale_pos_eq; [symmetry; exact Et|apply U; exact Hp]. }
  destruct (best_tau true of_bool targets probs (tp + margin) b scale_pos (linspace 1 (2 * tp) n) ltac:(intros []; reflexivity) L (linspace_nonempty _ _ _ N)) as [_ Best].
  change (fun p : Q => Qle_bool tp p) with b in Best.
  destruct (Best tau' Hin (meets_ext _ _ _ _ _ _ E1 M)) as [M2 C2].
  change (fun tau0 : Q => objective (map (fun p : Q => b (scale_pos tau0 p)) probs) (map of_bool targets) (tp + margin)) with (pos_objective targets probs tp margin) in M2, C2.
  rewrite <- Ep in M2, C2.
  assert (E2 : map b (map (scale_pos (tau_pos ps)) probs) = map b (apply_patches (Some ps) probs)).
  { cbn [apply_patches]. rewrite !map_map. apply map_ext_in. intros p Hp. specialize (U p Hp). unfold b.
    destruct (Qlt_le_dec (1#2) p) as [G|G].
    - apply leb_ext; [reflexivity|]. rewrite (scale_pos_eq _ (tau_pos ps)) by (reflexivity || lra). destruct (apply_high ps p R1 ltac:(lra)) as [X _]. now rewrite X.
    - assert (X1 : scale_pos (tau_pos ps) p == p). { rewrite (scale_pos_eq _ (tau_pos ps)) by (reflexivity || lra). unfold rescale_pos.
        replace (Qlt_bool (1#2) p) with false by (symmetry; apply Qltb_false; lra). reflexivity. }
      destruct (calibrated_range _ _ _ _ _ _ _ p H T U) as (_ & _ & X2). specialize (X2 G).
      transitivity false; [|symmetry]; apply Qleb_false; lra. }
  split; [exact (meets_ext _ _ _ _ _ _ E2 M2)|]. rewrite (n_selected_ext _ _ _ E1), <- (n_selected_ext _ _ _ E2). exact C2.
Qed.

Lemma grid_rev a b n x : In x (rev (linspace a b n)) <-> In x (linspace a b n).
Proof. symmetry. apply in_rev. Qed.

Theorem negative_guarantee : forall targets probs tp tn n margin ps tau,
  calibrate targets probs tp tn n margin = Ok ps -> tn <= 1 -> unit_probs probs ->
  in_grid (2 * (1 - tn)) 1 n tau -> meets (fun p => Qle_bool p (1 - tn)) false (tn + margin) (map (rescale_neg tau) probs) targets ->
  meets (fun p => Qle_bool p (1 - tn)) false (tn + margin) (apply_patches (Some ps) probs) targets /\
  (n_selected (fun p => Qle_bool p (1 - tn)) (map (rescale_neg tau) probs) <= n_selected (fun p => Qle_bool p (1 - tn)) (apply_patches (Some ps) probs))%nat.
Proof.
  intros targets probs tp tn n margin ps tau H T U G M. pose proof (taus_range _ _ _ _ _ _ _ H) as [[R1 R2] [R3 R4]].
  pose proof (calibrate_ok _ _ _ _ _ _ _ H) as (A & B & L & N & _ & En).
  apply grid_in_linspace in G. destruct G as (tau' & Hin & Et). apply grid_rev in Hin.
  set (b := fun p => Qle_bool p (1 - tn)) in *.
  assert (E1 : map b (map (rescale_neg tau) probs) = map b (map (scale_neg tau') probs)).
  { rewrite !map_map. apply map_ext_in. intros p Hp. apply leb_ext; [|reflexivity]. symmetry. apply scale_neg_eq. symmetry; exact Et. }
  destruct (best_tau false (fun y => 1 - of_bool y) targets probs (tn + margin) b scale_neg (rev (linspace (2 * (1 - tn)) 1 n)) ltac:(intros []; reflexivity) L (rev_nonempty _ (linspace_nonempty _ _ _ N))) as [_ Best].
  destruct (Best tau' Hin (meets_ext _ _ _ _ _ _ E1 M)) as [M2 C2].
  change (fun tau0 : Q => objective (map (fun p : Q => b (scale_neg tau0 p)) probs) (map (fun y => 1 - of_bool y) targets) (tn + margin)) with (neg_objective targets probs tn margin) in M2, C2.
  rewrite <- En in M2, C2.
  assert (E2 : map b (map (scale_neg (tau_neg ps)) probs) = map b (apply_patches (Some ps) probs)).
  { cbn [apply_patches]. rewrite !map_map. apply map_ext_in. intros p Hp. specialize (U p Hp). unfold b.
    destruct (Qlt_le_dec p (1#2)) as [G|G].
    - apply leb_ext; [|reflexivity]. rewrite (scale_neg_eq _ (tau_neg ps)) by reflexivity. now rewrite (apply_low ps p G).
    - assert (X1 : scale_neg (tau_neg ps) p == p). { rewrite (scale_neg_eq _ (tau_neg ps)) by reflexivity. unfold rescale_neg.
        replace (Qlt_bool p (1#2)) with false by (symmetry; apply Qltb_false; lra). reflexivity. }
      destruct (calibrated_range _ _ _ _ _ _ _ p H T U) as (_ & X2 & _). specialize (X2 G).
      transitivity false; [|symmetry]; apply Qleb_false; lra. }
  split; [exact (meets_ext _ _ _ _ _ _ E2 M2)|]. rewrite (n_selected_ext _ _ _ E1), <- (n_selected_ext _ _ _ E2). exact C2.
Qed.

Lemma linspace_in_scale a b n : forall tau, In tau (linspace a b n) -> in_grid a b n tau. Proof. intros. now apply linspace_in_grid. Qed.

Theorem unsatisfiable_positive : forall targets probs tp tn n margin ps,
  calibrate targets probs tp tn n margin = Ok ps -> unit_probs probs ->
  (forall tau, in_grid 1 (2 * tp) n tau -> ~ meets (fun p => Qle_bool tp p) true (tp + margin) (map (rescale_pos tau) probs) targets) ->
  forall p, (1#2) <= p <= 1 -> apply_patch ps p == p.
Proof.
  intros targets probs tp tn n margin ps H U No p P. pose proof (taus_range _ _ _ _ _ _ _ H) as [[R1 R2] _].
  pose proof (calibrate_ok _ _ _ _ _ _ _ H) as (A & B & L & N & Ep & _).
  assert (Z : argmax (map (pos_objective targets probs tp margin) (linspace 1 (2 * tp) n)) = O).
  { apply (none_first true of_bool targets probs (tp + margin) (fun p => Qle_bool tp p) scale_pos (linspace 1 (2 * tp) n) ltac:(intros []; reflexivity) L (linspace_nonempty _ _ _ N)).
    intros tau Hin M. apply (No tau (linspace_in_grid _ _ _ _ Hin)). eapply meets_ext; [|exact M].
    rewrite !map_map. apply map_ext_in. intros q Hq. apply leb_ext; [reflexivity|]. apply scale_pos_eq; [reflexivity|apply U; exact Hq]. }
  rewrite Z in Ep. rewrite linspace_nth in Ep by exact N. cbn -[Qplus Qmult Qdiv Qminus inject_Z Z.of_nat] in Ep.
  assert (T1 : tau_pos ps == 1) by (rewrite Ep; change (inject_Z (Z.of_nat 0)) with 0; ring).
  destruct (Qlt_le_dec (1#2) p) as [G|G].
  - destruct (apply_high ps p R1 ltac:(lra)) as [E _]. rewrite E. unfold rescale_pos.
    replace (Qlt_bool (1#2) p) with true by (symmetry; apply Qltb_true; lra).
    assert (X : tau_pos ps * p == p) by (rewrite T1; ring).
    replace (Qlt_bool 1 (tau_pos ps * p)) with false by (symmetry; apply Qltb_false; lra). exact X.
  - rewrite apply_mid by lra. reflexivity.
Qed.

Theorem unsatisfiable_negative : forall targets probs tp tn n margin ps,
  calibrate targets probs tp tn n margin = Ok ps -> (2 <= n)%nat ->
  (forall tau, in_grid (2 * (1 - tn)) 1 n tau -> ~ meets (fun p => Qle_bool p (1 - tn)) false (tn + margin) (map (rescale_neg tau) probs) targets) ->
  forall p, p <= (1#2) -> apply_patch ps p == p.
Proof.
  intros targets probs tp tn n margin ps H N2 No p P.
  pose proof (calibrate_ok _ _ _ _ _ _ _ H) as (A & B & L & N & _ & En).
  assert (Z : argmax (map (neg_objective targets probs tn margin) (rev (linspace (2 * (1 - tn)) 1 n))) = O).
  { apply (none_first false (fun y => 1 - of_bool y) targets probs (tn + margin) (fun p => Qle_bool p (1 - tn)) scale_neg (rev (linspace (2 * (1 - tn)) 1 n)) ltac:(intros []; reflexivity) L (rev_nonempty _ (linspace_nonempty _ _ _ N))).
    intros tau Hin M. apply grid_rev in Hin. apply (No tau (linspace_in_grid _ _ _ _ Hin)). eapply meets_ext; [|exact M].
    rewrite !map_map. apply map_ext_in. intros q Hq. apply leb_ext; [|reflexivity]. now apply scale_neg_eq. }
  rewrite Z in En. rewrite rev_nth in En by (rewrite linspace_length; lia). rewrite linspace_length, linspace_nth in En by lia.
  assert (T1 : tau_neg ps == 1).
  { rewrite En. assert (0 < inject_Z (Z.of_nat (n - 1))) by (rewrite <- (Zlt_Qlt 0); lia). field. lra. }
  destruct (Qlt_le_dec p (1#2)) as [G|G].
  - rewrite (apply_low ps p G). unfold rescale_neg. replace (Qlt_bool p (1#2)) with true by (symmetry; apply Qltb_true; lra). rewrite T1. ring.
  - rewrite apply_mid by lra. reflexivity.
Qed.

(** with a single temperature in the grid the negative side moves although the
    precision cannot be met *)
Theorem single_tau : exists targets probs tp tn margin ps p,
  calibrate targets probs tp tn 1 margin = Ok ps /\ unit_probs probs /\ In p probs /\ p < (1#2) /\
  (forall tau, in_grid (2 * (1 - tn)) 1 1 tau -> ~ meets (fun p => Qle_bool p (1 - tn)) false (tn + margin) (map (rescale_neg tau) probs) targets) /\
  ~ apply_patch ps p == p.
Proof.
  exists [true], [1#4], (9#10), (9#10), 0. eexists. exists (1#4). split; [vm_compute; reflexivity|].
  split. { intros p [<-|[]]. split; vm_compute; discriminate. }
  split; [now left|]. split; [reflexivity|]. split; [|vm_compute; discriminate].
  intros tau (i & Hi & _ & E). specialize (E ltac:(lia)). intros [S M].
  unfold n_selected, n_correct in *. cbn [map combine] in M, S. rewrite !count_cons, !count_nil in M. rewrite count_cons, count_nil in S. cbn [fst snd Bool.eqb] in M. rewrite andb_false_r in M.
  destruct (Qle_bool (rescale_neg tau (1#4)) (1 - (9#10))).
  - vm_compute in M. now apply M.
  - cbn in S. lia.
Qed.

Theorem calibrate_errors : forall targets probs tp tn n margin,
  (tp <= (1#2) \/ tn <= (1#2)) -> calibrate targets probs tp tn n margin = Err ValueError.
Proof.
  intros targets probs tp tn n margin H. unfold calibrate, half.
  replace (Qle_bool tn (1#2) || Qle_bool tp (1#2)) with true; [reflexivity|].
  symmetry. apply orb_true_iff. rewrite !Qleb_true. tauto.
Qed.

(** the reported precision is the fraction of correct points among the selected *)
Lemma precision_counts (y : bool) (w : bool -> Q) (b : Q -> bool) probs targets : (forall x, w x == of_bool (Bool.eqb x y)) -> length targets = length probs ->
  (0 < n_selected b probs)%nat ->
  Qeq_bool (qmean (map of_bool (map b probs))) 0 = false /\
  qmean (zip_with (fun y b => w y * of_bool b) targets (map b probs)) / qmean (map of_bool (map b probs)) == nQ (n_correct b y probs targets) / nQ (n_selected b probs).
Proof.
  intros Hw L H. unfold qmean, qlen. rewrite zip_with_length by (now rewrite map_length). rewrite !map_length, L. fold (nQ (length probs)).
  assert (NP : 0 < nQ (length probs)). { apply nQ_pos. pose proof (count_le_length b probs) as X. unfold n_selected in H. lia. }
  assert (S1 : qsum (map of_bool (map b probs)) == nQ (n_selected b probs)) by (rewrite sum_of_bool; now rewrite <- sel_n_selected).
  assert (S2 : qsum (zip_with (fun y b => w y * of_bool b) targets (map b probs)) == nQ (n_correct b y probs targets)).
  { rewrite <- cor_n_correct. unfold cor. rewrite <- (sum_wb y w) by exact Hw. unfold zip_with.
    assert (X : map (fun p => w (fst p) * of_bool (snd p)) (combine targets (map b probs)) =
                map (fun p => fst p * of_bool (snd p)) (combine (map w targets) (map b probs))); [|now rewrite X].
    generalize (map b probs). clear. induction targets as [|t l IH]; intros [|c m]; try reflexivity. cbn [map combine fst snd]. now rewrite IH. }
  assert (SP := nQ_pos _ H). split.
  - destruct (Qeq_bool _ _) eqn:E; [|reflexivity]. exfalso. apply Qeq_bool_iff in E. rewrite S1 in E.
    assert (0 < nQ (n_selected b probs) / nQ (length probs)) by (apply Qlt_shift_div_l; lra). lra.
  - rewrite S1, S2. field. split; lra.
Qed.

Theorem precision_reported : forall probs targets thr, length targets = length probs ->
  ((0 < n_selected (fun p => Qle_bool thr p) probs)%nat -> exists x, true_positive_precision probs targets thr = Some x /\
     x == inject_Z (Z.of_nat (n_correct (fun p => Qle_bool thr p) true probs targets)) / inject_Z (Z.of_nat (n_selected (fun p => Qle_bool thr p) probs))) /\
  ((0 < n_selected (fun p => Qle_bool p (1 - thr)) probs)%nat -> exists x, true_negative_precision probs targets thr = Some x /\
     x == inject_Z (Z.of_nat (n_correct (fun p => Qle_bool p (1 - thr)) false probs targets)) / inject_Z (Z.of_nat (n_selected (fun p => Qle_bool p (1 - thr)) probs))).
Proof.
  intros probs targets thr L. split; intros H.
  - destruct (precision_counts true of_bool _ probs targets ltac:(intros []; reflexivity) L H) as [A B].
    unfold true_positive_precision. cbv zeta. rewrite A. eexists. split; [reflexivity|exact B].
  - destruct (precision_counts false (fun y => 1 - of_bool y) _ probs targets ltac:(intros []; reflexivity) L H) as [A B].
    unfold true_negative_precision. cbv zeta. rewrite A. eexists. split; [reflexivity|exact B].
Qed.

(** the negative coverage is not the fraction of points the negative precision is about *)
Theorem negative_coverage_wrong : exists probs targets thr, (1#2) < thr < 1 /\
  true_negative_precision probs targets thr = None /\ true_negative_coverage probs thr == 1.
Proof. exists [6#10; 7#10], [true; true], (8#10). repeat split. Qed.
