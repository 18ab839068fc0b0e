(** Proofs about sources of data loaders. *)
From Coq Require Import List Arith Bool String Lia Permutation.
From Verif Require Import Lib SrcModel SrcSpec.
Import ListNotations.
Local Notation length := List.length.
Local Notation concat := List.concat.

Lemma sum_nat_lengths : forall X (l : list (batch X)), rows l = length (concat l).
Proof.
  unfold rows. induction l as [|b l IH]; [reflexivity|].
  cbn [map concat]. rewrite app_length, <- IH. reflexivity.
Qed.

Lemma count_different : forall X (l : list (batch X)), different_labels l (count_labels l).
Proof.
  intros X l. exists (nodup Nat.eq_dec (map snd (concat l))). split; [apply NoDup_nodup|]. split; [|reflexivity].
  intros y. rewrite nodup_In, in_map_iff. split.
  - intros (r & E & I). apply in_concat in I. destruct I as (b & Ib & Ir). eauto.
  - intros (b & r & Ib & Ir & E). exists r. split; [exact E|]. apply in_concat. eauto.
Qed.
Lemma different_unique : forall X (l : list (batch X)) d d', different_labels l d -> different_labels l d' -> d = d'.
Proof.
  intros X l d d' (ds & N & I & <-) (ds' & N' & I' & <-). apply Permutation_length.
  apply NoDup_Permutation; auto. intros y. rewrite I, I'. reflexivity.
Qed.

Lemma repeatable_iterate : forall X (s : source X) l n, repeatable s l ->
  fst (iterate n s) = cut n l /\ repeatable (snd (iterate n s)) l.
Proof.
  intros X [l'|c l'|f k] l n R; cbn in R; [subst; split; reflexivity|contradiction|].
  cbn. rewrite R. split; [reflexivity|exact R].
Qed.

(** the loader's source is repeatable, and a cached number of labels is right *)
Definition good {X} (l : list (batch X)) (d : loader X) : Prop :=
  repeatable (src d) l /\ forall n, labels_cache d = Some n -> l <> [] /\ different_labels l n.

Ltac pass R n bs s' R' :=
  let E := fresh "E" in
  destruct (repeatable_iterate _ _ _ n R) as [E R'];
  match type of E with fst ?x = _ => destruct x as [bs s'] end; cbn in E, R'; subst bs.

Lemma exec_good : forall X shape (l : list (batch X)) o d, good l d ->
  answers shape l o (fst (exec shape o d)) /\ good l (snd (exec shape o d)).
Proof.
  intros X shape l o [s c] [R C]. cbn [src labels_cache] in R, C.
  destruct o; cbn [exec src].
  - pass R (@None nat) bs s' R'. cbn. rewrite sum_nat_lengths. split; [reflexivity|split; assumption].
  - pass R (@None nat) bs s' R'. cbn. split; [reflexivity|split; assumption].
  - pass R (@None nat) bs s' R'. cbn. split; [|split; assumption]. eexists. split; [reflexivity|].
    destruct l; cbn; split; congruence.
  - cbn [labels_cache]. destruct c as [n|].
    + cbn. destruct (C n eq_refl) as [N D]. split; [right; eauto|split; assumption].
    + pass R (@None nat) bs s' R'. destruct l as [|b r]; cbn [np_concat].
      * split; [left; auto|split; [assumption|cbn; discriminate]].
      * split; [right; split; [discriminate|]; eexists; split; [apply count_different|reflexivity]|].
        split; [assumption|]. intros n E. injection E as <-. split; [discriminate|apply count_different].
  - pass R (Some 1) bs s' R'. split; [|split; assumption]. destruct l as [|b r]; cbn; [left; auto|right; eauto].
  - pass R (@None nat) bs s' R'. split; [|split; assumption]. destruct l as [|b r]; cbn; [left; auto|right; split; [discriminate|reflexivity]].
  - pass R (@None nat) bs s' R'. split; [reflexivity|split; assumption].
Qed.

Lemma new_good : forall X (s : source X) l, repeatable s l -> good l (new_loader s).
Proof. intros X s l R. split; [exact R|discriminate]. Qed.

Lemma exec_all_good : forall X shape (l : list (batch X)) os d, good l d ->
  Forall2 (answers shape l) os (fst (exec_all shape os d)) /\ good l (snd (exec_all shape os d)).
Proof.
  induction os as [|o os IH]; intros d G; [split; [constructor|exact G]|].
  cbn [exec_all]. destruct (exec_good X shape l o d G) as [A G1].
  destruct (exec shape o d) as [v d1]. cbn in A, G1. destruct (IH d1 G1) as [F G2].
  destruct (exec_all shape os d1) as [vs d2]. split; [constructor; assumption|exact G2].
Qed.

Theorem repeatable_answers : forall X shape (s : source X) l os, repeatable s l ->
  Forall2 (answers shape l) os (fst (exec_all shape os (new_loader s))).
Proof. intros. apply exec_all_good, new_good. assumption. Qed.

Theorem calls_anew : forall X shape (f : nat -> list (batch X)) k n c,
  fst (exec_all shape (repeat OPass n) {| src := Calls f k; labels_cache := c |}) = map (fun i => Ok (VBatches (f (k + i)))) (seq 0 n).
Proof.
  intros X shape f k n c. revert k. induction n as [|n IH]; intros k; [reflexivity|].
  cbn [repeat exec_all exec src iterate cut with_src labels_cache]. specialize (IH (S k)).
  destruct (exec_all _ _ _) as [vs d]. cbn [fst] in *. subst vs.
  cbn [seq map]. rewrite Nat.add_0_r. f_equal. rewrite <- seq_shift, map_map. apply map_ext.
  intros i. do 3 f_equal. lia.
Qed.

Lemma exhausted_exec : forall X shape c o ca, o <> OLabels ->
  answers shape [] o (fst (@exec X shape o {| src := OneShot c []; labels_cache := ca |})) /\
  snd (@exec X shape o {| src := OneShot c []; labels_cache := ca |}) = {| src := OneShot c []; labels_cache := ca |}.
Proof.
  intros X shape c o ca N. destruct o; try congruence; cbn; (split; [|try reflexivity]); auto.
  - exists false. split; [reflexivity|]. split; congruence.
  - destruct c; reflexivity.
Qed.
Lemma exhausted_all : forall X shape c ca os, ~ In OLabels os ->
  Forall2 (answers shape []) os (fst (@exec_all X shape os {| src := OneShot c []; labels_cache := ca |})).
Proof.
  induction os as [|o os IH]; intros N; [constructor|]. cbn [exec_all].
  destruct (exhausted_exec X shape c o ca) as [A E]; [intros ->; apply N; left; reflexivity|].
  destruct (exec _ _ _) as [v d]. cbn in A, E. subst d.
  assert (F := IH (fun H => N (or_intror H))). destruct (exec_all _ _ _) as [vs d]. constructor; assumption.
Qed.
Theorem one_shot_exhausted : forall X shape c (l : list (batch X)) o os, o <> OShape -> ~ In OLabels os ->
  Forall2 (answers shape []) os (fst (exec_all shape os (snd (exec shape o (new_loader (OneShot c l)))))).
Proof.
  intros X shape c l o os N NL.
  destruct o; try congruence; cbn [exec new_loader src labels_cache iterate with_src snd]; try (apply exhausted_all; exact NL).
  destruct (np_concat (cut None l)); apply exhausted_all; exact NL.
Qed.

Theorem labels_kept : forall X shape (d : loader X) n os d1,
  exec shape OLabels d = (Ok (VNat n), d1) ->
  fst (exec shape OLabels (snd (exec_all shape os d1))) = Ok (VNat n).
Proof.
  intros X shape d n os d1 E.
  assert (C : labels_cache d1 = Some n).
  { cbn [exec] in E. destruct (labels_cache d) eqn:Ec; [injection E as -> <-; exact Ec|].
    destruct (iterate None (src d)) as [bs s]. destruct (np_concat bs); [|discriminate].
    injection E as <- <-. reflexivity. }
  clear E d. revert d1 C. induction os as [|o os IH]; intros d1 C.
  - cbn [exec_all snd exec]. rewrite C. reflexivity.
  - cbn [exec_all]. destruct (exec shape o d1) as [v d2] eqn:E.
    assert (C2 : labels_cache d2 = Some n).
    { destruct o; cbn [exec] in E; try (rewrite C in E; injection E as <- <-; exact C);
        destruct (iterate _ (src d1)); injection E as <- <-; exact C. }
    specialize (IH d2 C2). destruct (exec_all shape os d2). exact IH.
Qed.

Theorem broken_off : forall X shape c (l : list (batch X)),
  fst (exec_all shape [OShape; OPass] (new_loader (OneShot c l))) =
  [match l with [] => Err UnboundLocalErr | b :: _ => Ok (VNat (shape b)) end;
   Ok (VBatches (if c then [] else tl l))].
Proof. intros X shape [|] [|b l]; reflexivity. Qed.

(** ---- views ---- *)
Lemma combine_same : forall A (l : list A), combine l l = map (fun a => (a, a)) l.
Proof. induction l as [|a l IH]; [reflexivity|]. cbn. rewrite IH. reflexivity. Qed.
Theorem views_match : forall X (s : source X) l, repeatable s l -> zip_views s = map split_batch l.
Proof.
  intros X [l'|c l'|f k] l R; cbn in R; [subst|contradiction|];
    unfold zip_views; cbn [zip_self]; rewrite ?R, combine_same, map_map; reflexivity.
Qed.
Lemma alternate_nth : forall X (l : list (batch X)) i a b,
  nth_error l (2 * i) = Some a -> nth_error l (2 * i + 1) = Some b -> nth_error (alternate l) i = Some (a, b).
Proof.
  intros X l i. revert l. induction i as [|i IH]; intros l a b A B.
  - destruct l as [|x [|y r]]; cbn in *; try discriminate. congruence.
  - replace (2 * S i) with (S (S (2 * i))) in * by lia. destruct l as [|x [|y r]]; try discriminate.
    cbn [alternate nth_error]. apply IH; [exact A|exact B].
Qed.
Lemma alternate_length : forall X n (l : list (batch X)), length l <= n -> length (alternate l) = length l / 2.
Proof.
  induction n as [|n IH]; intros [|x [|y r]] L; try reflexivity; cbn in L; try lia.
  cbn [alternate length]. rewrite IH by lia. change (S (S (length r))) with (2 + length r).
  replace (2 + length r) with (length r + 1 * 2) by lia. rewrite Nat.div_add by lia. lia.
Qed.
Theorem views_one_shot : forall X c (l : list (batch X)),
  length (zip_views (OneShot c l)) = length l / 2 /\
  forall i a b, nth_error l (2 * i) = Some a -> nth_error l (2 * i + 1) = Some b ->
    nth_error (zip_views (OneShot c l)) i = Some (fst (split_batch a), snd (split_batch b)).
Proof.
  intros X c l. unfold zip_views. cbn [zip_self]. split.
  - rewrite map_length. eapply alternate_length, Nat.le_refl.
  - intros i a b A B. assert (H := alternate_nth _ _ _ _ _ A B). rewrite nth_error_map. unfold batch in *. rewrite H. reflexivity.
Qed.
Lemma combine_nth_error : forall A B (l : list A) (r : list B) i a b,
  nth_error l i = Some a -> nth_error r i = Some b -> nth_error (combine l r) i = Some (a, b).
Proof.
  induction l as [|x l IH]; intros [|y r] [|i] a b E F; try discriminate; cbn in *; [congruence|auto].
Qed.
Theorem views_calls : forall X (f : nat -> list (batch X)) k i a b,
  nth_error (f k) i = Some a -> nth_error (f (S k)) i = Some b ->
  nth_error (zip_views (Calls f k)) i = Some (fst (split_batch a), snd (split_batch b)).
Proof.
  intros X f k i a b A B. unfold zip_views. cbn [zip_self].
  assert (H := combine_nth_error _ _ _ _ _ _ _ A B). rewrite nth_error_map. unfold batch in *. rewrite H. reflexivity.
Qed.

(** ---- other frameworks ---- *)
Theorem framework_arrays : forall T A (numpy : T -> A) bs out,
  framework_pass numpy bs = Ok out ->
  length out = length bs /\
  forall i x y, nth_error bs i = Some (x, y) ->
    exists t, y = One t /\
    ((exists u, x = One u /\ nth_error out i = Some (One (numpy u), numpy t)) \/
     (exists d d', x = Dict d /\ nth_error out i = Some (Dict d', numpy t) /\
        map fst d' = map fst d /\ map snd d' = map numpy (map snd d))).
Proof.
  intros T A numpy. unfold framework_pass. induction bs as [|[x y] bs IH]; intros out E.
  - injection E as <-. split; [reflexivity|]. intros [|i] x y H; discriminate.
  - cbn [mapM] in E. destruct (to_arrays numpy (x, y)) as [v|e] eqn:V; [|discriminate]. cbn [bind] in E.
    destruct (mapM (to_arrays numpy) bs) as [vs|e]; [|discriminate]. injection E as <-.
    destruct (IH vs eq_refl) as [L H]. split; [cbn; congruence|].
    intros [|i] x' y' N; [|exact (H i x' y' N)]. injection N as <- <-.
    unfold to_arrays in V. cbn [fst snd] in V. destruct y as [t|d]; [|discriminate].
    exists t. split; [reflexivity|]. injection V as <-. destruct x as [u|d]; [left; eauto|right].
    do 2 eexists. split; [reflexivity|]. split; [reflexivity|]. rewrite !map_map. split; reflexivity.
Qed.
Theorem framework_dict_targets : forall T A (numpy : T -> A) bs x d,
  In (x, Dict d) bs -> framework_pass numpy bs = Err AttributeError.
Proof.
  intros T A numpy. unfold framework_pass. induction bs as [|[x' y] bs IH]; intros x d I; [contradiction|].
  cbn [mapM]. destruct y as [t|d'].
  - destruct I as [I|I]; [discriminate|]. cbn [to_arrays fst snd bind]. rewrite (IH x d I). reflexivity.
  - reflexivity.
Qed.
