From Coq Require Import List Arith ZArith QArith Qabs Bool Lia Lqa.
From Verif Require Import Lib LoaderProofs QuantModel QuantSpec QuantProofs ConfRegModel ConfRegProofs ConfClassModel ConfClassProofs ConfClassProofs2 ConfClassSpec ConfClassProofs3 MultiModel MultiSpec MultiProofs MultiProofs2 MultiProofs3 MultiProofs4 MultiProofs5 OneShotModel OneShotSpec OneShotProofs OneShotProofs2.
Import ListNotations.
Open Scope Q_scope.

Lemma index_spec n v : (0 < n)%nat -> let j := one_shot_index n v in
  (j < n)%nat /\ (forall j', (j' < n)%nat -> Qabs (centre n j - v) <= Qabs (centre n j' - v)) /\ (forall j', (j' < j)%nat -> Qabs (centre n j - v) < Qabs (centre n j' - v)).
Proof.
  intros N j. assert (Lb : length (get_buckets n) = n) by apply linspace_length.
  assert (NE : map (fun b => Qabs (b - v)) (get_buckets n) <> []) by (intros E; apply map_eq_nil in E; rewrite E in Lb; cbn in Lb; lia).
  destruct (argmin_spec _ NE) as (C & D & F). rewrite map_length, Lb in C, D.
  assert (Nm : forall k, (k < n)%nat -> nth k (map (fun b => Qabs (b - v)) (get_buckets n)) 0 == Qabs (centre n k - v)).
  { intros k Hk. rewrite (nth_indep _ 0 (Qabs (0 - v))) by (rewrite map_length; lia). rewrite (map_nth (fun b => Qabs (b - v))). now rewrite bucket_centre. }
  fold (one_shot_index n v) in C, D, F. fold j in C, D, F. split; [exact C|]. split.
  - intros j' Hj'. rewrite <- (Nm j C), <- (Nm j' Hj'). now apply D.
  - intros j' Hj'. rewrite <- (Nm j C), <- (Nm j') by lia. now apply F.
Qed.
(** a fold that keeps the last matching value *)
Lemma fold_last_gen {A} n x (f : Q -> A) : forall us y, Sorted.StronglySorted Qlt us ->
  (forall u, In u us -> near n u x = false) /\ fold_left (fun y v => if near n v x then f v else y) us y = y \/
  exists v, In v us /\ near n v x = true /\ (forall w, In w us -> near n w x = true -> w <= v) /\ fold_left (fun y v => if near n v x then f v else y) us y = f v.
Proof.
  induction us as [|u us IH]; intros y SS; [left; split; [intros ? []|reflexivity]|]. inversion_clear SS as [|? ? SS' Fu]. cbn [fold_left].
  destruct (IH (if near n u x then f u else y) SS') as [(A1 & B)|(v & Hv & Nv & Mv & B)].
  - destruct (near n u x) eqn:E.
    + right. exists u. split; [now left|]. split; [exact E|]. split; [|exact B]. intros w [->|Hw] Nw; [lra|]. rewrite A1 in Nw by exact Hw. discriminate.
    + left. split; [|exact B]. intros w [->|Hw]; auto.
  - right. exists v. split; [now right|]. split; [exact Nv|]. split; [|exact B]. intros w [<-|Hw] Nw; [|auto]. rewrite Forall_forall in Fu. specialize (Fu v Hv). lra.
Qed.
Lemma fold_sent {A} n all x (f : nat -> A) y : (0 < n)%nat -> In x all ->
  exists j, sent_to n all x j /\ fold_left (fun y v => if near n v x then f (one_shot_index n v) else y) (unique_q all) y = f j.
Proof.
  intros N Hx. destruct (unique_q_has all x Hx) as (u & Hu & Eu).
  destruct (fold_last_gen n x (fun v => f (one_shot_index n v)) (unique_q all) y (unique_q_sorted all)) as [(A1 & _)|(v & Hv & Nv & Mv & B)].
  - exfalso. specialize (A1 u Hu). rewrite (near_proper n u x x Eu) in A1. apply Bool.not_true_iff_false in A1. apply A1, near_within; [exact N|]. unfold within.
    assert (Z : x - x == 0) by ring. rewrite Z. change (Qabs 0) with 0. lra.
  - exists (one_shot_index n v). split; [|exact B]. destruct (index_spec n v N) as (J1 & J2 & J3). exists v. split; [now apply unique_q_in|]. split; [now apply near_within|]. split; [|now repeat split].
    intros w Hw Nw. destruct (unique_q_has all w Hw) as (w' & Hw' & Ew). rewrite <- Ew. apply Mv; [exact Hw'|]. rewrite (near_proper n w' w x Ew). now apply near_within.
Qed.
Lemma lookup_in k ps n j c : length ps = n -> Forall (fun r => length r = width k) ps -> (j < n)%nat -> lookup ps j c = nth (Nat.min c (width k - 1)) (nth j ps []) 0.
Proof.
  intros L F J. unfold lookup, clamped. replace (Nat.min j (length ps - 1)) with j by lia. rewrite Forall_forall in F. rewrite (F (nth j ps [])) by (apply nth_In; lia). reflexivity.
Qed.
(** the matrix form, row by row *)
Lemma fold_one {A} (P : nat -> bool) (f : nat -> A -> A) m : forall len a acc,
  fold_left (fun acc c => if P c && (m =? c)%nat then f c acc else acc) (seq a len) acc = if (a <=? m)%nat && (m <? a + len)%nat && P m then f m acc else acc.
Proof.
  induction len as [|len IH]; intros a acc.
  - cbn [seq fold_left]. destruct (Nat.leb_spec a m), (Nat.ltb_spec m (a + 0)); try reflexivity. lia.
  - cbn [seq fold_left]. rewrite IH. destruct (Nat.eqb_spec m a) as [->|NE].
    + rewrite Nat.leb_refl. destruct (Nat.leb_spec (S a) a); [lia|]. destruct (Nat.ltb_spec a (a + S len)); [|lia]. cbn. rewrite andb_true_r. reflexivity.
    + rewrite andb_false_r. destruct (Nat.leb_spec a m), (Nat.leb_spec (S a) m); try lia; [|reflexivity]. replace (S a + len)%nat with (a + S len)%nat by lia. reflexivity.
Qed.
Lemma patch_row_eq n ps v row acc : row <> [] ->
  patch_row n ps v row acc = if near n v (nth (argmax row) row 0) then set_nth (argmax row) (lookup ps (one_shot_index n v) (argmax row)) acc else acc.
Proof.
  intros NE. unfold patch_row. rewrite (fold_one (fun c => near n v (nth c row 0)) (fun c acc => set_nth c (lookup ps (one_shot_index n v) c) acc) (argmax row)).
  destruct (argmax_spec row NE) as (A & _ & _). cbn [Nat.leb andb]. destruct (Nat.ltb_spec (argmax row) (0 + length row)); [reflexivity|lia].
Qed.
Lemma set_nth_twice {A} (x y : A) : forall i l, set_nth i x (set_nth i y l) = set_nth i x l.
Proof. induction i as [|i IH]; intros [|z l]; cbn; try reflexivity. now rewrite IH. Qed.
Lemma set_nth_id {A} (d : A) : forall i l, set_nth i (nth i l d) l = l.
Proof. induction i as [|i IH]; intros [|z l]; cbn; try reflexivity. now rewrite IH. Qed.
Lemma fold_row n ps row : row <> [] -> forall us y, fold_left (fun acc v => patch_row n ps v row acc) us (set_nth (argmax row) y row) =
  set_nth (argmax row) (fold_left (fun y v => if near n v (nth (argmax row) row 0) then lookup ps (one_shot_index n v) (argmax row) else y) us y) row.
Proof.
  intros NE. induction us as [|u us IH]; intros y; [reflexivity|]. cbn [fold_left]. rewrite patch_row_eq by exact NE. destruct (near n u (nth (argmax row) row 0)); [|apply IH]. rewrite set_nth_twice. apply IH.
Qed.
Lemma fold_rows n ps rows : forall us acc i row a, length acc = length rows -> nth_error rows i = Some row -> nth_error acc i = Some a ->
  nth_error (fold_left (fun acc v => zip_with (patch_row n ps v) rows acc) us acc) i = Some (fold_left (fun acc v => patch_row n ps v row acc) us a).
Proof.
  induction us as [|u us IH]; intros acc i row a L X Y; cbn [fold_left]; [exact Y|]. apply IH; [rewrite zip_length; lia|exact X|]. now rewrite zip_nth_error, X, Y.
Qed.
Lemma fold_rows_length n ps rows : forall us acc, length acc = length rows -> length (fold_left (fun acc v => zip_with (patch_row n ps v) rows acc) us acc) = length rows.
Proof. induction us as [|u us IH]; intros acc L; [exact L|]. cbn [fold_left]. apply IH. rewrite zip_length; lia. Qed.
Lemma mat_row n ps rows i row : (0 < n)%nat -> row <> [] -> nth_error rows i = Some row ->
  exists j, sent_to n (concat rows) (nth (argmax row) row 0) j /\ nth_error (patch_mat n ps rows) i = Some (set_nth (argmax row) (lookup ps j (argmax row)) row).
Proof.
  intros N NE X. unfold patch_mat. rewrite (fold_rows n ps rows _ rows i row row eq_refl X X).
  pose proof (fold_row n ps row NE (unique_q (concat rows)) (nth (argmax row) row 0)) as FR. rewrite set_nth_id in FR. rewrite FR.
  destruct (argmax_spec row NE) as (A & _ & _).
  assert (Hx : In (nth (argmax row) row 0) (concat rows)). { apply in_concat. exists row. split; [eapply nth_error_In; exact X|now apply nth_In]. }
  destruct (fold_sent n (concat rows) (nth (argmax row) row 0) (fun j => lookup ps j (argmax row)) (nth (argmax row) row 0) N Hx) as (j & S & E). exists j. split; [exact S|]. now rewrite E.
Qed.
Lemma fold_vec n ps l : forall us acc i x y, length acc = length l -> nth_error l i = Some x -> nth_error acc i = Some y ->
  nth_error (fold_left (fun acc v => zip_with (fun x y => if near n v x then lookup ps (one_shot_index n v) 0 else y) l acc) us acc) i =
  Some (fold_left (fun y v => if near n v x then lookup ps (one_shot_index n v) 0 else y) us y).
Proof.
  induction us as [|u us IH]; intros acc i x y L X Y; cbn [fold_left]; [exact Y|]. apply IH; [rewrite zip_length; lia|exact X|]. now rewrite zip_nth_error, X, Y.
Qed.
Lemma vec_entry n ps l i x : (0 < n)%nat -> nth_error l i = Some x -> exists j, sent_to n l x j /\ nth_error (patch_vec n ps l) i = Some (lookup ps j 0).
Proof.
  intros N X. unfold patch_vec. rewrite (fold_vec n ps l _ l i x x eq_refl X X).
  destruct (fold_sent n l x (fun j => lookup ps j 0) x N (nth_error_In _ _ X)) as (j & S & E). exists j. split; [exact S|]. now rewrite E.
Qed.
Lemma patch_vec_length n ps l : length (patch_vec n ps l) = length l.
Proof.
  unfold patch_vec. assert (H : forall us acc, length acc = length l -> length (fold_left (fun acc v => zip_with (fun x y => if near n v x then lookup ps (one_shot_index n v) 0 else y) l acc) us acc) = length l); [|now apply H].
  induction us as [|u us IH]; intros acc L; [exact L|]. cbn [fold_left]. apply IH. rewrite zip_length; lia.
Qed.
Theorem applied : forall k o ps n a, o_patches o = Some ps -> o_n_buckets o = Some n -> (0 < n)%nat -> length ps = n -> Forall (fun r => length r = width k) ps -> (0 < width k)%nat -> full_rows a ->
  (axes a <> needed k -> apply_patches k o a = Err IndexError) /\
  (axes a = needed k -> exists out, apply_patches k o a = Ok out /\ axes out = axes a /\ points out = points a /\
   match a, out with
   | Vec l, Vec l' => forall i x, nth_error l i = Some x -> exists j, sent_to n l x j /\ nth_error l' i = Some (nth 0 (nth j ps []) 0)
   | Mat rows, Mat rows' => forall i row, nth_error rows i = Some row -> exists c j row', top_label_is row c /\ sent_to n (concat rows) (nth c row 0) j /\
       nth_error rows' i = Some row' /\ length row' = length row /\ nth c row' 0 = nth (Nat.min c (width k - 1)) (nth j ps []) 0 /\ (forall d, d <> c -> nth d row' 0 = nth d row 0)
   | _, _ => False
   end).
Proof.
  intros k o ps n a E1 E2 N L F W R. unfold apply_patches. rewrite E1, E2. split.
  - intros H. destruct a, k; cbn in *; try reflexivity; congruence.
  - intros H. destruct a as [l|rows].
    + exists (Vec (patch_vec n ps l)). split; [destruct k; [reflexivity|reflexivity|discriminate]|]. split; [reflexivity|]. split; [apply patch_vec_length|].
      intros i x X. destruct (vec_entry n ps l i x N X) as (j & S & E). exists j. split; [exact S|]. destruct S as (v & _ & _ & _ & J & _). rewrite E, (lookup_in k ps n j 0 L F J). reflexivity.
    + exists (Mat (patch_mat n ps rows)). split; [destruct k; [discriminate|discriminate|reflexivity]|]. split; [reflexivity|]. split; [now apply fold_rows_length|].
      intros i row X. cbn in R. rewrite Forall_forall in R. assert (NE : row <> []) by (apply R; eapply nth_error_In; exact X).
      destruct (mat_row n ps rows i row N NE X) as (j & S & E). destruct (argmax_spec row NE) as (A & _ & _). exists (argmax row), j, (set_nth (argmax row) (lookup ps j (argmax row)) row).
      split; [apply argmax_top; [lia|reflexivity]|]. split; [exact S|]. split; [exact E|]. split; [apply set_nth_length|].
      split; [rewrite set_nth_same by exact A; destruct S as (v & _ & _ & _ & J & _); now rewrite (lookup_in k ps n j _ L F J)|].
      intros d Hd. now rewrite set_nth_other by congruence.
Qed.
Theorem untouched : forall k o a, o_patches o = None -> apply_patches k o a = Ok a.
Proof. intros k o a E. unfold apply_patches. now rewrite E. Qed.
