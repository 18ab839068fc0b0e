(** Coordinates of Laplace states and curvatures (LapFitModel.v). *)
From Coq Require Import List Arith Bool Reals Lia Lra.
From Verif Require Import Lib ConfClassModel ConfClassProofs TempSpec PredSpec LapModel LapSpec LapProofs2 TuneModel TuneSpec TuneProofs LapFitModel LapFitSpec.
Import ListNotations.
Local Notation length := List.length.
Local Open Scope R_scope.
Local Open Scope nat_scope.

Lemma bump_length p c t : length (bump p c t) = length p.
Proof. unfold bump. now rewrite map_length, seq_length. Qed.
Lemma nth_bump p c t i : i < length p -> nth i (bump p c t) 0%R = if i =? c then (nth i p 0 + t)%R else nth i p 0%R.
Proof.
  intros L. unfold bump. set (f := fun j => if j =? c then (nth j p 0 + t)%R else nth j p 0%R).
  rewrite (nth_indep _ 0%R (f 0)) by now rewrite map_length, seq_length. rewrite (map_nth f), seq_nth by exact L. reflexivity.
Qed.

(** writing values at distinct coordinates *)
Section Place.
Context {A B : Type} (g : nat * A -> B) (d : B).
Definition place (w : list nat) (v : list A) (l : list B) : list B := fold_left (fun l ch => set_nth (fst ch) (g ch) l) (combine w v) l.
Lemma place_length w : forall v l, length (place w v l) = length l.
Proof.
  unfold place. induction w as [|c w IH]; intros v l; [reflexivity|]. destruct v as [|a v]; [reflexivity|]. cbn [combine fold_left fst]. rewrite IH. apply set_nth_length.
Qed.
Lemma place_other w c : ~ In c w -> forall v l, nth c (place w v l) d = nth c l d.
Proof.
  unfold place. induction w as [|c' w IH]; intros N v l; [reflexivity|]. destruct v as [|a v]; [reflexivity|]. cbn [combine fold_left fst].
  rewrite IH by (intros I; apply N; now right). apply set_nth_other. intros E. apply N. now left.
Qed.
Lemma place_at w c i a : NoDup w -> forall v l, nth_error w i = Some c -> nth_error v i = Some a -> c < length l -> nth c (place w v l) d = g (c, a).
Proof.
  revert i. induction w as [|c' w IH]; intros i ND v l E1 E2 L; [destruct i; discriminate|]. inversion ND as [|? ? N ND']; subst.
  destruct v as [|a' v]; [destruct i; discriminate|]. destruct i as [|i]; cbn [nth_error] in E1, E2.
  - injection E1 as ->. injection E2 as ->. change (place (c :: w) (a :: v) l) with (place w v (set_nth c (g (c, a)) l)). rewrite place_other by exact N. now apply set_nth_same.
  - change (place (c' :: w) (a' :: v) l) with (place w v (set_nth c' (g (c', a')) l)). apply (IH i); auto. now rewrite set_nth_length.
Qed.
End Place.

Lemma rav_length which p : length (rav which p) = match which with Some (c :: w) => length (c :: w) | _ => length p end.
Proof. destruct which as [[|c w]|]; cbn [rav]; [reflexivity|now rewrite map_length|reflexivity]. Qed.
(** entry i of the flat vector is coordinate c *)
Definition is_coordinate (which : option (list nat)) (i c : nat) : Prop :=
  match which with Some (c0 :: w) => nth_error (c0 :: w) i = Some c | _ => i = c end.

Lemma moved_params which p i c t : selects which (length p) -> is_coordinate which i c -> c < length p ->
  params_from_rav which p (bump (rav which p) i t) = bump p c t.
Proof.
  intros S I L. destruct which as [[|c0 w]|]; cbn [params_from_rav rav is_coordinate] in *; try (now subst).
  set (ws := c0 :: w) in *. change (place (fun cv : nat * R => snd cv) ws (bump (map (fun c => nth c p 0%R) ws) i t) p = bump p c t).
  destruct S as (ND & F). apply (nth_ext _ _ 0%R 0%R); [now rewrite place_length, bump_length|].
  intros e E. rewrite place_length in E. rewrite (nth_bump p) by exact E.
  assert (LB : length (bump (map (fun c => nth c p 0%R) ws) i t) = length ws) by now rewrite bump_length, map_length.
  destruct (in_dec Nat.eq_dec e ws) as [IN|NI].
  - destruct (In_nth_error _ _ IN) as (j & J). assert (JL : j < length ws) by (apply nth_error_Some; congruence).
    assert (EJ : nth_error (bump (map (fun c => nth c p 0%R) ws) i t) j = Some (nth j (bump (map (fun c => nth c p 0%R) ws) i t) 0%R)) by (apply nth_error_nth'; now rewrite LB).
    rewrite (place_at (fun cv : nat * R => snd cv) 0%R ws e j _ ND _ p J EJ E). cbn [snd].
    rewrite nth_bump by now rewrite map_length.
    assert (NJ : nth j (map (fun c => nth c p 0%R) ws) 0%R = nth e p 0%R).
    { rewrite (nth_indep _ 0%R (nth 0 p 0%R)) by now rewrite map_length. rewrite (map_nth (fun c => nth c p 0%R)). f_equal. apply nth_error_nth with (d := 0) in J. exact J. }
    rewrite NJ. destruct (Nat.eqb_spec j i) as [->|NE]; destruct (Nat.eqb_spec e c) as [EC|NC]; try reflexivity.
    + exfalso. apply NC. congruence.
    + exfalso. apply NE. subst e. apply (proj1 (NoDup_nth_error ws) ND j i JL). congruence.
  - rewrite place_other by exact NI. destruct (Nat.eqb_spec e c) as [->|]; [|reflexivity]. exfalso. apply NI. now apply nth_error_In with i.
Qed.

(** the slots of a fit *)
Lemma pair_slots_ok which p hess slots : pair_slots which p hess = Ok slots -> length hess = length (rav which p) -> selects which (length p) ->
  length slots = length p /\
  (forall i c, is_coordinate which i c -> c < length p -> nth_error slots c = Some (Paired (nth c p 0%R) (nth i hess 0%R))) /\
  (forall c, c < length p -> ~ trainable which c -> nth_error slots c = Some (Plain (nth c p 0%R))).
Proof.
  intros E L S. rewrite rav_length in L. destruct which as [[|c0 w]|]; cbn [pair_slots] in E; [discriminate| |].
  - injection E as E. set (ws := c0 :: w) in *. destruct S as (ND & F).
    assert (E' : slots = place (fun ch : nat * R => Paired (nth (fst ch) p 0%R) (snd ch)) ws hess (map Plain p)) by (symmetry; exact E). clear E. subst slots.
    assert (LP : length (place (fun ch : nat * R => Paired (nth (fst ch) p 0%R) (snd ch)) ws hess (map Plain p)) = length p) by now rewrite place_length, map_length.
    split; [exact LP|]. split.
    + intros i c I C. cbn [is_coordinate] in I. rewrite (nth_error_nth' _ (Plain 0)) by now rewrite LP. f_equal.
      assert (IL : i < length hess) by (rewrite L; apply nth_error_Some; change (nth_error (c0 :: w) i <> None); rewrite I; discriminate).
      rewrite (place_at (fun ch : nat * R => Paired (nth (fst ch) p 0%R) (snd ch)) (Plain 0) ws c i (nth i hess 0%R) ND hess); [reflexivity|exact I|now apply nth_error_nth'|now rewrite map_length].
    + intros c C N. cbn [trainable] in N. rewrite (nth_error_nth' _ (Plain 0)) by now rewrite LP. f_equal. rewrite place_other by exact N. now rewrite map_nth.
  - injection E as <-. rewrite map_length, combine_length, L, Nat.min_id. split; [reflexivity|]. split; [|intros c _ N; now elim N].
    intros i c I C. cbn [is_coordinate] in I. subst i.
    rewrite (nth_error_nth' _ (Paired (fst (0%R, 0%R)) (snd (0%R, 0%R)))) by (rewrite map_length, combine_length, L; lia). f_equal.
    rewrite (map_nth (fun mh : R * R => Paired (fst mh) (snd mh))). rewrite combine_nth by now rewrite L. reflexivity.
Qed.
Lemma trainable_coordinate which n c : which <> Some [] -> trainable which c -> selects which n -> c < n -> exists i, is_coordinate which i c /\ (forall p, length p = n -> i < length (rav which p)).
Proof.
  intros N T S L. destruct which as [[|c0 w]|]; [now elim N| |exists c; split; [reflexivity|intros p <-; exact L]].
  cbn [trainable] in T. destruct (In_nth_error _ _ T) as (i & I). exists i. split; [exact I|]. intros p _. rewrite rav_length. apply nth_error_Some. congruence.
Qed.
Lemma pair_slots_some which p hess slots : pair_slots which p hess = Ok slots -> which <> Some [].
Proof. intros E ->. discriminate. Qed.
Lemma slot_means which p hess slots : pair_slots which p hess = Ok slots -> length hess = length (rav which p) -> selects which (length p) -> map slot_mean slots = p.
Proof.
  intros E L S. pose proof (pair_slots_some _ _ _ _ E) as N. destruct (pair_slots_ok _ _ _ _ E L S) as (A & B & D).
  apply (nth_ext _ _ (slot_mean (Plain 0)) 0%R); [now rewrite map_length|]. intros c C. rewrite map_length, A in C.
  rewrite map_nth.
  assert (DE : trainable which c \/ ~ trainable which c) by (destruct which as [w|]; cbn [trainable]; [destruct (in_dec Nat.eq_dec c w); auto|auto]).
  destruct DE as [T|T].
  - destruct (trainable_coordinate which _ c N T S C) as (i & I & _). now rewrite (nth_error_nth _ _ _ (B i c I C)).
  - now rewrite (nth_error_nth _ _ _ (D c C T)).
Qed.

(** draws *)
Lemma rank_S s l c : rank (s :: l) (S c) = (match s with Paired _ _ => 1 | Plain _ => 0 end) + rank l c.
Proof. unfold rank. cbn [firstn filter]. destruct s; reflexivity. Qed.
Lemma paired_length l : length (paired_hess l) = n_paired l /\ length (paired_means l) = n_paired l.
Proof.
  unfold n_paired. induction l as [|s l (I1 & I2)]; [split; reflexivity|]. cbn [length]. rewrite rank_S. unfold paired_hess, paired_means in *. cbn [flat_map]. rewrite !app_length, I1, I2.
  destruct s; split; reflexivity.
Qed.
Lemma rank_lt l c m h : nth_error l c = Some (Paired m h) -> rank l c < n_paired l.
Proof.
  revert c. unfold n_paired. induction l as [|s l IH]; intros [|c] E; try discriminate; cbn [nth_error] in E; cbn [length]; rewrite rank_S.
  - injection E as ->. cbn. lia.
  - rewrite rank_S. specialize (IH c E). lia.
Qed.
Lemma paired_nth l : forall c m h, nth_error l c = Some (Paired m h) -> nth (rank l c) (paired_means l) 0%R = m /\ nth (rank l c) (paired_hess l) 0%R = h.
Proof.
  induction l as [|s l IH]; intros [|c] m h E; try discriminate; cbn [nth_error] in E.
  - injection E as ->. split; reflexivity.
  - rewrite rank_S. destruct (IH c m h E) as (A & B). unfold paired_means, paired_hess in *. cbn [flat_map]. destruct s; cbn [app Nat.add nth]; split; assumption.
Qed.
Lemma fill_spec l : forall vs, length vs = n_paired l -> length (fill l vs) = length l /\
  (forall c m, nth_error l c = Some (Plain m) -> nth c (fill l vs) 0%R = m) /\
  (forall c m h, nth_error l c = Some (Paired m h) -> nth c (fill l vs) 0%R = nth (rank l c) vs 0%R).
Proof.
  unfold n_paired. induction l as [|s l IH]; intros vs L.
  - split; [reflexivity|]. split; intros [|c]; discriminate.
  - cbn [length] in L. rewrite rank_S in L. destruct s as [m0|m0 h0]; cbn [fill].
    + destruct (IH vs L) as (A & B & D). cbn [length]. split; [now rewrite A|]. split.
      * intros [|c] m E; cbn [nth_error nth] in *; [congruence|now apply B].
      * intros [|c] m h E; cbn [nth_error nth] in *; [discriminate|]. rewrite rank_S. exact (D c m h E).
    + destruct vs as [|v vs]; [discriminate|]. cbn [length Nat.add] in L. injection L as L. destruct (IH vs L) as (A & B & D). cbn [length]. split; [now rewrite A|]. split.
      * intros [|c] m E; cbn [nth_error nth] in *; [discriminate|now apply B].
      * intros [|c] m h E; cbn [nth_error nth] in *; [reflexivity|]. rewrite rank_S. exact (D c m h E).
Qed.
