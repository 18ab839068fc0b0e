(** Proofs about the passes of a training over its data loaders. *)
From Coq Require Import List Arith Bool String Lia.
From Verif Require Import Lib SrcModel SrcSpec SrcProofs.
Import ListNotations.
Local Notation length := List.length.
Local Notation concat := List.concat.

Lemma epochs_calls : forall X (f : nat -> list (batch X)) n k c,
  (forall i, i < n -> f (k + i) <> []) ->
  fst (epochs n {| src := Calls f k; labels_cache := c |}) = Ok (map (fun i => f (k + i)) (seq 0 n)).
Proof.
  intros X f. induction n as [|n IH]; intros k c N; [reflexivity|].
  cbn [epochs src iterate cut with_src labels_cache].
  assert (N0 := N 0 ltac:(lia)). rewrite Nat.add_0_r in N0.
  assert (H : fst (epochs n {| src := Calls f (S k); labels_cache := c |}) = Ok (map (fun i => f (S k + i)) (seq 0 n))).
  { apply IH. intros i L. replace (S k + i) with (k + S i) by lia. apply N. lia. }
  destruct (f k) as [|b r] eqn:E; [congruence|].
  destruct (epochs n _) as [v d]. cbn [fst] in *. subst v. cbn [rmap seq map].
  rewrite Nat.add_0_r, E. do 2 f_equal. rewrite <- seq_shift, map_map. apply map_ext. intros i. f_equal. lia.
Qed.

(** a source that starts again behaves like calls that all give the same *)
Lemma epochs_repeatable : forall X (l : list (batch X)) n d, repeatable (src d) l -> l <> [] ->
  fst (epochs n d) = Ok (repeat l n).
Proof.
  intros X l. induction n as [|n IH]; intros d R N; [reflexivity|].
  cbn [epochs]. destruct (repeatable_iterate _ _ _ None R) as [E R'].
  destruct (iterate None (src d)) as [bs s]. cbn in E, R'. subst bs.
  specialize (IH (with_src d s) R' N). destruct l as [|b r]; [congruence|].
  destruct (epochs n (with_src d s)) as [v d']. cbn [fst] in *. subst v. reflexivity.
Qed.

Lemma exec_size_good : forall X shape (l : list (batch X)) d, good l d ->
  exists d', exec shape OSize d = (Ok (VNat (length (concat l))), d') /\ good l d'.
Proof.
  intros X shape l d G. destruct (exec_good X shape l OSize d G) as [A G'].
  destruct (exec shape OSize d) as [v d']. cbn in A, G'. subst v. eauto.
Qed.
Lemma exec_bool_good : forall X shape (l : list (batch X)) d, good l d ->
  exists b d', exec shape OBool d = (Ok (VBool b), d') /\ (b = true <-> l <> []) /\ good l d'.
Proof.
  intros X shape l d G. destruct (exec_good X shape l OBool d G) as [(b & A & I) G'].
  destruct (exec shape OBool d) as [v d']. cbn in A, G'. subst v. eauto.
Qed.
Lemma exec_shape_good : forall X shape b (r : list (batch X)) d, good (b :: r) d ->
  exists d', exec shape OShape d = (Ok (VNat (shape b)), d') /\ good (b :: r) d'.
Proof.
  intros X shape b r d G. destruct (exec_good X shape _ OShape d G) as [A G'].
  destruct (exec shape OShape d) as [v d']. cbn [fst snd] in A, G'.
  destruct A as [[A _]|(b' & r' & A & ->)]; [discriminate|]. injection A as <- <-. eauto.
Qed.
Lemma exec_labels_good : forall X shape (l : list (batch X)) k d, good l d -> l <> [] -> different_labels l k ->
  exists d', exec shape OLabels d = (Ok (VNat k), d') /\ good l d'.
Proof.
  intros X shape l k d G N D. destruct (exec_good X shape _ OLabels d G) as [A G'].
  destruct (exec shape OLabels d) as [v d']. cbn [fst snd] in A, G'.
  destruct A as [[A _]|(_ & k' & D' & ->)]; [congruence|]. rewrite (different_unique _ _ _ _ D D'). eauto.
Qed.

Lemma map_fit_good : forall X shape (l : list (batch X)) n d, good l d -> l <> [] ->
  map_fit shape n d = Ok (length (concat l), repeat l n).
Proof.
  intros X shape l n d G N. destruct l as [|b r]; [congruence|]. unfold map_fit.
  destruct (exec_shape_good X shape b r d G) as (d1 & -> & G1). cbn [bind].
  destruct (exec_size_good X shape _ d1 G1) as (d2 & -> & [R2 _]). cbn [bind].
  assert (E := epochs_repeatable X _ n d2 R2 N). destruct (epochs n d2). cbn [fst] in E. subst. reflexivity.
Qed.

Theorem classifier_repeatable : forall X shape output_dim n (s : source X) b r d,
  repeatable s (b :: r) -> concat (b :: r) <> [] -> different_labels (b :: r) d ->
  classifier_train shape output_dim n (new_loader s) =
  if output_dim (shape b) =? d then Ok (length (concat (b :: r)), repeat (b :: r) n) else Err ValueError.
Proof.
  intros X shape output_dim n s b r d R N D. unfold classifier_train.
  destruct (exec_size_good X shape _ _ (new_good X s _ R)) as (d1 & -> & G1). cbn [bind].
  destruct (length (concat (b :: r))) as [|m] eqn:L; [apply length_zero_iff_nil in L; congruence|]. rewrite <- L.
  destruct (exec_labels_good X shape _ d d1 G1 ltac:(discriminate) D) as (d2 & -> & G2). cbn [bind].
  destruct (exec_shape_good X shape b r d2 G2) as (d3 & -> & G3). cbn [bind].
  destruct (output_dim (shape b) =? d); [|reflexivity]. apply map_fit_good; [exact G3|discriminate].
Qed.

Theorem regressor_repeatable : forall X shape output_dim t n (s : source X) b r,
  repeatable s (b :: r) -> t <> 0 ->
  regressor_train shape output_dim t n (new_loader s) =
  if output_dim (shape b) =? 2 * t then Ok (length (concat (b :: r)), repeat (b :: r) n) else Err ValueError.
Proof.
  intros X shape output_dim t n s b r R T. unfold regressor_train. cbn [new_loader src].
  destruct (repeatable_iterate _ _ _ (Some 1) R) as [E R']. destruct (iterate (Some 1) s) as [bs s'].
  cbn [fst snd cut firstn] in E, R'. subst bs. apply Nat.eqb_neq in T. rewrite T. cbn [first_shape bind].
  destruct (output_dim (shape b) =? 2 * t); [|reflexivity].
  apply map_fit_good; [|discriminate]. split; [exact R'|discriminate].
Qed.

Theorem classifier_empty : forall X shape output_dim n (s : source X) l,
  repeatable s l -> concat l = [] -> classifier_train shape output_dim n (new_loader s) = Err ValueError.
Proof.
  intros X shape output_dim n s l R E. unfold classifier_train.
  destruct (exec_size_good X shape _ _ (new_good X s _ R)) as (d1 & -> & _). cbn [bind]. rewrite E. reflexivity.
Qed.
Theorem regressor_empty : forall X shape output_dim t n (s : source X) l,
  repeatable s l -> l = [] \/ t = 0 -> regressor_train shape output_dim t n (new_loader s) = Err ValueError.
Proof.
  intros X shape output_dim t n s l R O. unfold regressor_train. cbn [new_loader src].
  destruct (repeatable_iterate _ _ _ (Some 1) R) as [E _]. destruct (iterate (Some 1) s) as [bs s'].
  cbn [fst] in E. subst bs. destruct l as [|b r]; [reflexivity|]. destruct O as [O|O]; [discriminate|]. subst t. reflexivity.
Qed.

(** loaders that give other batches in every pass *)
Lemma map_fit_calls : forall X shape (f : nat -> list (batch X)) n k c,
  (forall i, f (k + i) <> []) ->
  map_fit shape n {| src := Calls f k; labels_cache := c |} =
  Ok (length (concat (f (S k))), map (fun i => f (S (S k) + i)) (seq 0 n)).
Proof.
  intros X shape f n k c N. unfold map_fit. cbn [exec src iterate cut with_src labels_cache].
  assert (N0 := N 0). rewrite Nat.add_0_r in N0.
  destruct (f k) as [|b r]; [congruence|]. cbn [firstn first_shape rmap bind].
  assert (E : fst (epochs n {| src := Calls f (S (S k)); labels_cache := c |}) = Ok (map (fun i => f (S (S k) + i)) (seq 0 n))).
  { apply epochs_calls. intros i _. replace (S (S k) + i) with (k + (2 + i)) by lia. apply N. }
  destruct (epochs n _) as [v d]. cbn [fst] in E. subst v. cbn [bind]. rewrite sum_nat_lengths. reflexivity.
Qed.
Theorem classifier_calls : forall X shape output_dim n (f : nat -> list (batch X)) d b,
  (forall k, concat (f k) <> []) -> different_labels (f 1) d -> nth_error (f 2) 0 = Some b -> output_dim (shape b) = d ->
  classifier_train shape output_dim n (new_loader (Calls f 0)) =
  Ok (length (concat (f 4)), map (fun i => f (5 + i)) (seq 0 n)).
Proof.
  intros X shape output_dim n f d b N D B O.
  assert (N' : forall k, f k <> []) by (intros k E; apply (N k); rewrite E; reflexivity).
  unfold classifier_train. cbn [exec new_loader src iterate cut with_src labels_cache bind].
  rewrite sum_nat_lengths. destruct (length (concat (f 0))) eqn:L; [apply length_zero_iff_nil in L; exfalso; exact (N 0 L)|].
  rewrite (different_unique _ _ _ _ (count_different _ (f 1)) D).
  assert (N1 := N' 1). destruct (f 1) as [|b1 r1]; [congruence|]. cbn [np_concat bind src labels_cache iterate cut with_src].
  destruct (f 2) as [|b2 r2]; [discriminate|]. injection B as ->. cbn [firstn first_shape rmap bind].
  rewrite O, Nat.eqb_refl. unfold with_src. cbn [labels_cache].
  rewrite map_fit_calls by (intros i; apply N'). reflexivity.
Qed.
Theorem regressor_calls : forall X shape output_dim t n (f : nat -> list (batch X)) b,
  (forall k, f k <> []) -> t <> 0 -> nth_error (f 0) 0 = Some b -> output_dim (shape b) = 2 * t ->
  regressor_train shape output_dim t n (new_loader (Calls f 0)) =
  Ok (length (concat (f 2)), map (fun i => f (3 + i)) (seq 0 n)).
Proof.
  intros X shape output_dim t n f b N T B O. unfold regressor_train. cbn [new_loader src iterate cut].
  destruct (f 0) as [|b0 r0]; [discriminate|]. injection B as ->. cbn [firstn].
  apply Nat.eqb_neq in T. rewrite T. cbn [first_shape bind]. rewrite O, Nat.eqb_refl.
  unfold with_src. rewrite map_fit_calls by (intros i; apply N). reflexivity.
Qed.

(** one-shot loaders *)
Theorem classifier_one_shot : forall X shape output_dim n c (l : list (batch X)),
  classifier_train shape output_dim n (new_loader (OneShot c l)) = Err ValueError.
Proof.
  intros X shape output_dim n c l. unfold classifier_train.
  cbn [exec new_loader src iterate cut with_src labels_cache bind np_concat].
  destruct (rows l); reflexivity.
Qed.
Lemma epochs_exhausted : forall X n c ca, n <> 0 -> fst (epochs n {| src := @OneShot X c []; labels_cache := ca |}) = Err TypeError.
Proof. intros X [|n] c ca N; [congruence|]. reflexivity. Qed.
Lemma map_fit_one_shot : forall X shape n c ca (l : list (batch X)), n <> 0 ->
  map_fit shape n {| src := OneShot c l; labels_cache := ca |} = Err (match l with [] => UnboundLocalErr | _ => TypeError end).
Proof.
  intros X shape n c ca l N. unfold map_fit. destruct l as [|b r]; [reflexivity|].
  cbn [exec src iterate cut firstn first_shape rmap bind with_src labels_cache].
  assert (E := epochs_exhausted X n c ca N). destruct (epochs n _). cbn [fst] in E. subst. reflexivity.
Qed.
Theorem regressor_one_shot : forall X shape output_dim t n c b (r : list (batch X)), n <> 0 -> t <> 0 -> output_dim (shape b) = 2 * t ->
  regressor_train shape output_dim t n (new_loader (OneShot c (b :: r))) =
  Err (if c then UnboundLocalErr else match r with [] => UnboundLocalErr | _ => TypeError end).
Proof.
  intros X shape output_dim t n c b r N T O. unfold regressor_train. cbn [new_loader src iterate cut firstn].
  apply Nat.eqb_neq in T. rewrite T. cbn [first_shape bind]. rewrite O, Nat.eqb_refl.
  unfold with_src. rewrite map_fit_one_shot by exact N. destruct c; reflexivity.
Qed.
Theorem fit_one_shot : forall X shape n c (l : list (batch X)), n <> 0 ->
  map_fit shape n (new_loader (OneShot c l)) = Err (match l with [] => UnboundLocalErr | _ => TypeError end).
Proof. intros. apply map_fit_one_shot. assumption. Qed.

(** validation *)
Theorem validate_repeatable : forall X shape n (s : source X) l, repeatable s l -> l <> [] ->
  map_validate shape n (new_loader s) = Ok (length (concat l), repeat l n).
Proof.
  intros X shape n s l R N. unfold map_validate.
  destruct (exec_size_good X shape l _ (new_good X s l R)) as (d1 & -> & G1). cbn [bind].
  destruct (exec_bool_good X shape l d1 G1) as (b & d2 & -> & _ & [R2 _]).
  assert (E := epochs_repeatable X l n d2 R2 N). destruct (epochs n d2). cbn [fst] in E. subst. reflexivity.
Qed.
Theorem validate_empty : forall X shape n (s : source X), repeatable s [] -> n <> 0 ->
  map_validate shape n (new_loader s) = Err TypeError.
Proof.
  intros X shape n s R N. unfold map_validate.
  destruct (exec_size_good X shape [] _ (new_good X s [] R)) as (d1 & -> & G1). cbn [bind].
  destruct (exec_bool_good X shape [] d1 G1) as (b & d2 & -> & _ & [R2 _]).
  destruct n as [|n]; [congruence|]. cbn [epochs].
  destruct (repeatable_iterate _ _ _ None R2) as [E _]. destruct (iterate None (src d2)) as [bs s2].
  cbn in E. subst bs. reflexivity.
Qed.
Theorem validate_one_shot : forall X shape n c (l : list (batch X)), n <> 0 ->
  map_validate shape n (new_loader (OneShot c l)) = Err TypeError.
Proof.
  intros X shape n c l N. unfold map_validate. cbn [exec new_loader src iterate cut with_src labels_cache bind].
  assert (E := epochs_exhausted X n c None N). destruct (epochs n _). cbn [fst] in E. subst. reflexivity.
Qed.

(** calibration *)
Theorem calib_repeatable : forall X shape (s : source X) l, repeatable s l -> l <> [] ->
  exists d, calib_step shape (Some (new_loader s)) = Some d /\
    forall os, Forall2 (answers shape l) os (fst (exec_all shape os d)).
Proof.
  intros X shape s l R N. unfold calib_step.
  destruct (exec_bool_good X shape l _ (new_good X s l R)) as (b & d & -> & I & G).
  apply I in N. subst b. exists d. split; [reflexivity|]. intros os. apply exec_all_good. exact G.
Qed.
Theorem calib_empty : forall X shape (s : source X), repeatable s [] ->
  calib_step shape (Some (new_loader s)) = calib_step shape None.
Proof.
  intros X shape s R. unfold calib_step.
  destruct (exec_bool_good X shape [] _ (new_good X s [] R)) as (b & d & -> & I & G).
  destruct b; [|reflexivity]. exfalso. apply I; reflexivity.
Qed.
Theorem calib_one_shot : forall X shape c (l : list (batch X)), l <> [] ->
  exists d, calib_step shape (Some (new_loader (OneShot c l))) = Some d /\
    forall os, ~ In OLabels os -> Forall2 (answers shape []) os (fst (exec_all shape os d)).
Proof.
  intros X shape c [|b r] N; [congruence|]. unfold calib_step.
  cbn [exec new_loader src iterate cut with_src labels_cache length Nat.eqb negb].
  eexists. split; [reflexivity|]. intros os H. apply exhausted_all. exact H.
Qed.
