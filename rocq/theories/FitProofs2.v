From Coq Require Import List Arith Lia Bool String Sorted.
From Verif Require Import Lib NestedModel RepoModel RepoSpec RepoProofs RepoProofs2 FitModel FitSpec.
Import ListNotations.
Open Scope list_scope.
Local Notation length := List.length.

Lemma ordered_sorted {V} (w : fs V) : ordered w <-> forall d, sorted (dir_files d w).
Proof.
  unfold ordered, sorted. split; intros H d; specialize (H d).
  - induction (dir_files d w) as [|a l IH]; [constructor|]. simpl. constructor.
    + apply IH. intros l1 b l2 c l3 E. apply (H (a :: l1) b l2 c l3). simpl. now f_equal.
    + apply Forall_forall. intros n Hn. apply in_map_iff in Hn. destruct Hn as (b & <- & Hb). apply in_split in Hb.
      destruct Hb as (l2 & l3 & ->). now apply (H [] a l2 b l3).
  - intros l1 a l2 b l3 E. rewrite E in H. clear E. rewrite map_app in H. simpl in H.
    induction l1 as [|x l1 IH]; simpl in H; inversion H as [|? ? S F]; subst; [|now apply IH].
    rewrite map_app in F. simpl in F. apply Forall_app in F. destruct F as [_ F]. now inversion F.
Qed.

Section P.
Context {V O : Type} (init : O -> tree V -> V).
Notation state := (state V O).
Notation repo := (repo V O).
Notation fs := (fs V).
Notation save := (save (V:=V) (O:=O)).

Lemma save_latest d (w : fs) (s : state) keep : sorted (dir_files d w) ->
  latest (dir_files d (apply_actions w (save_actions d w s keep))) = Some (s_step s, to_file s).
Proof.
  intros S. rewrite save_files by exact S. apply latest_skip. rewrite app_length. cbn [List.length]. rewrite Nat.add_1_r. apply to_drop_lt.
Qed.
Lemma save_other d d' (w : fs) (s : state) keep : d' <> d ->
  dir_files d' (apply_actions w (save_actions d w s keep)) = dir_files d' w.
Proof. intros N. now apply (proj2 (apply_local d _ (save_actions_in d w s keep) w w eq_refl)). Qed.
Lemma save_ordered d (w : fs) (s : state) keep : ordered w -> ordered (apply_actions w (save_actions d w s keep)).
Proof.
  rewrite !ordered_sorted. intros H d'. destruct (string_dec d' d) as [->|N]; [now apply save_sorted|]. now rewrite save_other.
Qed.

Lemma do_save_ordered d (v : save) (w : fs) : ordered w -> ordered (snd (do_save d v w)).
Proof. intros H. unfold do_save. destruct d as [d|]; [|exact H]. destruct (_ && _); [exact H|]. now apply save_ordered. Qed.
Lemma do_save_other d (v : save) (w : fs) d' : d <> Some d' -> dir_files d' (snd (do_save d v w)) = dir_files d' w.
Proof. intros H. unfold do_save. destruct d as [d|]; [|reflexivity]. destruct (_ && _); [reflexivity|]. apply save_other. congruence. Qed.

Lemma do_saves_ordered d (vs : list save) : forall w : fs, ordered w -> ordered (snd (do_saves d vs w)).
Proof.
  induction vs as [|v vs IH]; intros w H; simpl; [exact H|]. pose proof (do_save_ordered d v w H) as H'.
  destruct (do_save d v w) as [[e|] w']; [exact H'|now apply IH].
Qed.
Lemma do_saves_other d (vs : list save) d' : d <> Some d' -> forall w : fs, dir_files d' (snd (do_saves d vs w)) = dir_files d' w.
Proof.
  intros N. induction vs as [|v vs IH]; intros w; simpl; [reflexivity|]. pose proof (do_save_other d v w d' N) as H'.
  destruct (do_save d v w) as [[e|] w']; [exact H'|]. rewrite IH. exact H'.
Qed.
Lemma do_saves_app d (vs vs' : list save) : forall w : fs, do_saves d (vs ++ vs') w = match do_saves d vs w with (None, w') => do_saves d vs' w' | failed => failed end.
Proof. induction vs as [|v vs IH]; intros w; simpl; [reflexivity|]. destruct (do_save d v w) as [[e|] w']; [reflexivity|apply IH]. Qed.
Lemma do_saves_last d vs (s : state) keep (w w' : fs) : ordered w ->
  do_saves (Some d) (vs ++ [mk_save s keep true]) w = (None, w') -> latest (dir_files d w') = Some (s_step s, to_file s).
Proof.
  intros H. rewrite do_saves_app. pose proof (do_saves_ordered (Some d) vs w H) as H1.
  destruct (do_saves (Some d) vs w) as [[e|] w1]; [discriminate|]. simpl. intros E. injection E as <-.
  apply save_latest. now apply ordered_sorted.
Qed.
Lemma do_saves_none (vs : list save) : forall w : fs, do_saves None vs w = (None, w).
Proof. induction vs as [|v vs IH]; intros w; simpl; [reflexivity|apply IH]. Qed.

Lemma restore_latest d o (w : fs) (s : state) : latest (dir_files d w) = Some (s_step s, to_file s) ->
  restore init d o w = Ok (on_disk init s o).
Proof. intros E. unfold restore. rewrite E. reflexivity. Qed.

Lemma joint_on_disk (s : state) o : joint_of (on_disk init s o) = joint_of s.
Proof. reflexivity. Qed.

(** what a successful fit leaves *)
Lemma fit_single_ok g ck o fresh train (w w' : fs) p p' s : ordered w ->
  fit_single init g ck o fresh train w p = (Ok s, (w', p')) ->
  exists s0 w1, start_state init ck o fresh w p = Ok s0 /\ s = n_final (train s0) /\ bad_config ck = false /\
    do_saves (k_save ck) (training_saves ck (train s0)) w = (None, w1) /\ ordered w1 /\
    match stored_in g ck with
    | None => w' = w1 /\ p' = Some (mk_repo None (Some s))
    | Some d => w' = apply_actions w1 (save_actions d w1 s (k_keep ck)) /\ p' = Some (mk_repo (Some d) None)
    end.
Proof.
  intros H. unfold fit_single. destruct (bad_config ck) eqn:B; [discriminate|].
  destruct (start_state init ck o fresh w p) as [s0|e] eqn:E; [|discriminate].
  pose proof (do_saves_ordered (k_save ck) (training_saves ck (train s0)) w H) as H1.
  destruct (do_saves (k_save ck) (training_saves ck (train s0)) w) as [[e|] w1] eqn:D; [discriminate|].
  simpl. unfold put, put_actions, place. simpl. intros X. injection X as <- <- <-.
  exists s0, w1. repeat split; auto. destruct (stored_in g ck) as [d|]; split; reflexivity.
Qed.

Lemma stored_in_save g ck d : stored_in g ck = Some d -> k_save ck = Some d.
Proof. destruct g; simpl; [destruct (k_dump ck); [auto|discriminate]|auto]. Qed.

Lemma final_latest g ck o fresh train (w w' : fs) p p' s d : ordered w ->
  fit_single init g ck o fresh train w p = (Ok s, (w', p')) -> k_save ck = Some d ->
  latest (dir_files d w') = Some (s_step s, to_file s).
Proof.
  intros H F K. destruct (fit_single_ok _ _ _ _ _ _ _ _ _ _ H F) as (s0 & w1 & E & -> & B & D & H1 & R).
  destruct (stored_in g ck) as [d'|] eqn:S.
  - apply stored_in_save in S. assert (d' = d) by congruence. subst d'. destruct R as [-> _]. apply save_latest. now apply ordered_sorted.
  - destruct R as [-> _]. rewrite K in D. unfold training_saves in D. now apply (do_saves_last d _ _ _ w w1 H) in D.
Qed.

Lemma fit_stored g ck o fresh train (w w' : fs) p p' s : ordered w ->
  fit_single init g ck o fresh train w p = (Ok s, (w', p')) ->
  (stored_in g ck = None /\ p' = Some (mk_repo None (Some s))) \/
  (exists d, stored_in g ck = Some d /\ p' = Some (mk_repo (Some d) None) /\ latest (dir_files d w') = Some (s_step s, to_file s)).
Proof.
  intros H F. destruct (fit_single_ok _ _ _ _ _ _ _ _ _ _ H F) as (s0 & w1 & E & Es & B & D & H1 & R).
  destruct (stored_in g ck) as [d|] eqn:S; [right|left].
  - exists d. destruct R as [_ ->]. repeat split; auto. apply (final_latest _ _ _ _ _ _ _ _ _ _ d H F). now apply stored_in_save in S.
  - destruct R as [_ ->]. auto.
Qed.
End P.

(** C114 *)
Lemma fit_result : forall V O (init : O -> tree V -> V) g ck o fresh train (w w' : fs V) p p' s,
  fit_single init g ck o fresh train w p = (Ok s, (w', p')) ->
  exists s0, start_state init ck o fresh w p = Ok s0 /\ s = n_final (train s0).
Proof.
  intros V O init g ck o fresh train w w' p p' s. unfold fit_single. destruct (bad_config ck); [discriminate|].
  destruct (start_state init ck o fresh w p) as [s0|e] eqn:E; [|discriminate].
  destruct (do_saves _ _ w) as [[e|] w1]; [discriminate|]. simpl. intros X. injection X as <- _ _. now exists s0.
Qed.

Lemma fit_sample : forall V O (init : O -> tree V -> V) g ck o fresh train (w w' : fs V) p p' s, ordered w ->
  fit_single init g ck o fresh train w p = (Ok s, (w', p')) -> sample_single init w' p' = Ok (joint_of s).
Proof.
  intros V O init g ck o fresh train w w' p p' s H F.
  destruct (fit_stored init g ck o fresh train w w' p p' s H F) as [[_ ->]|(d & _ & -> & L)]; unfold sample_single, stored, get; simpl.
  - reflexivity.
  - rewrite (restore_latest init d None w' s L). reflexivity.
Qed.

Lemma fit_load : forall V O (init : O -> tree V -> V) g ck o fresh train (w w' : fs V) p p' s d, ordered w ->
  fit_single init g ck o fresh train w p = (Ok s, (w', p')) -> k_save ck = Some d ->
  forall p0, exists p1, load_state init d w' p0 = (Ok tt, p1) /\ sample_single init w' p1 = Ok (joint_of s).
Proof.
  intros V O init g ck o fresh train w w' p p' s d H F K p0.
  pose proof (final_latest init g ck o fresh train w w' p p' s d H F K) as L.
  exists (Some (mk_repo (Some d) None)). unfold load_state, sample_single, stored, get. simpl.
  rewrite !(restore_latest init d None w' s L). split; reflexivity.
Qed.

Lemma fit_memory : forall V O (init : O -> tree V -> V) ck o fresh train (w w' w2 : fs V) p p' s, ordered w ->
  fit_single init DumpState ck o fresh train w p = (Ok s, (w', p')) -> k_dump ck = false -> stored init w2 p' = Ok s.
Proof.
  intros V O init ck o fresh train w w' w2 p p' s H F K.
  destruct (fit_stored init _ ck o fresh train w w' p p' s H F) as [[_ ->]|(d & S & _)]; [reflexivity|].
  unfold stored_in in S. rewrite K in S. discriminate.
Qed.

Lemma fit_dirs : forall V O (init : O -> tree V -> V) g ck o fresh train (w : fs V) p d, k_save ck <> Some d ->
  dir_files d (fst (snd (fit_single init g ck o fresh train w p))) = dir_files d w.
Proof.
  intros V O init g ck o fresh train w p d N. unfold fit_single. destruct (bad_config ck); [reflexivity|].
  destruct (start_state init ck o fresh w p) as [s0|e]; [|reflexivity].
  pose proof (do_saves_other (k_save ck) (training_saves ck (train s0)) d N w) as H1.
  destruct (do_saves _ _ w) as [[e|] w1]; [exact H1|]. simpl in *. unfold put_actions, place. simpl.
  destruct (stored_in g ck) as [d'|] eqn:S; [|exact H1]. apply stored_in_save in S. rewrite save_other; [exact H1|congruence].
Qed.

Lemma fit_resume : forall V O (init : O -> tree V -> V) g ck o fresh train (w w' : fs V) p p' s ck2 o2 fresh2, ordered w ->
  fit_single init g ck o fresh train w p = (Ok s, (w', p')) ->
  (k_restore ck2 = None /\ k_current ck2 = true) \/ (k_restore ck2 = k_save ck /\ k_save ck <> None) ->
  exists s2, start_state init ck2 o2 fresh2 w' p' = Ok s2 /\ continues init s o2 s2.
Proof.
  intros V O init g ck o fresh train w w' p p' s ck2 o2 fresh2 H F [[R C]|[R N]].
  - unfold start_state. rewrite R, C.
    destruct (fit_stored init g ck o fresh train w w' p p' s H F) as [[_ ->]|(d & _ & -> & L)]; unfold get; simpl.
    + eexists. split; [reflexivity|]. destruct s. repeat split.
    + rewrite (restore_latest init d (Some o2) w' s L). eexists. split; [reflexivity|]. repeat split.
  - unfold start_state. rewrite R. destruct (k_save ck) as [d|] eqn:K; [|now destruct N].
    pose proof (final_latest init g ck o fresh train w w' p p' s d H F K) as L.
    rewrite (restore_latest init d (Some o2) w' s L). eexists. split; [reflexivity|]. repeat split.
Qed.

Lemma fit_errors : forall V O (init : O -> tree V -> V) g ck o fresh train (w : fs V) p,
  (k_dump ck = true -> k_save ck = None -> fit_single init g ck o fresh train w p = (Err ValueError, (w, p))) /\
  (k_dump ck = false \/ k_save ck <> None ->
   (forall d, k_restore ck = Some d -> empty_dir d w -> fit_single init g ck o fresh train w p = (Err ValueError, (w, p))) /\
   (k_restore ck = None -> k_current ck = true -> p = None -> fit_single init g ck o fresh train w p = (Err AttributeError, (w, p)))).
Proof.
  intros V O init g ck o fresh train w p. unfold fit_single, bad_config. split.
  - intros -> ->. reflexivity.
  - intros B. assert (E : k_dump ck && match k_save ck with Some _ => false | None => true end = false).
    { destruct (k_dump ck); [|reflexivity]. destruct (k_save ck); [reflexivity|]. destruct B; congruence. }
    rewrite E. unfold start_state. split.
    + intros d -> M. unfold restore. rewrite M. reflexivity.
    + intros -> -> ->. reflexivity.
Qed.

Lemma fit_failed : forall V O (init : O -> tree V -> V) g ck o fresh train (w w' : fs V) p p' e,
  fit_single init g ck o fresh train w p = (Err e, (w', p')) ->
  (forall r d, p = Some r -> r_dir r = Some d -> k_save ck <> Some d) ->
  sample_single init w' p' = sample_single init w p.
Proof.
  intros V O init g ck o fresh train w w' p p' e F N.
  pose proof (fun d => fit_dirs V O init g ck o fresh train w p d) as DD. rewrite F in DD. simpl in DD.
  assert (P : p' = p \/ p' = touched init ck o w p).
  { revert F. unfold fit_single. destruct (bad_config ck); [intros X; injection X; auto|].
    destruct (start_state init ck o fresh w p) as [s0|e']; [|intros X; injection X; auto].
    destruct (do_saves _ _ w) as [[e'|] w1]; [intros X; injection X; auto|]. destruct (put _ _ _ _ _). discriminate. }
  assert (Q : sample_single init w' p' = sample_single init w' p).
  { destruct P as [-> | ->]; [reflexivity|]. unfold touched. destruct (k_restore ck); [reflexivity|]. destruct (k_current ck); [|reflexivity].
    destruct p as [r|]; [|reflexivity]. unfold sample_single, stored, get, place. destruct r as [[d|] m]; simpl; [reflexivity|].
    destruct m as [s|]; simpl; [|reflexivity]. destruct s. reflexivity. }
  rewrite Q. unfold sample_single, stored. destruct p as [r|]; [|reflexivity]. unfold get, place. destruct (r_dir r) as [d|] eqn:D; simpl.
  - unfold restore. rewrite DD; [reflexivity|]. now apply (N r).
  - destruct (r_mem r); reflexivity.
Qed.

(** periodic checkpoints *)
Lemma dir_after_save {V O} d (w : fs V) (s : state V O) keep : sorted (dir_files d w) -> (forall p, In p (dir_files d w) -> fst p < s_step s) ->
  forall p, In p (dir_files d (apply_actions w (save_actions d w s keep))) -> fst p <= s_step s.
Proof.
  intros S B p. rewrite save_files by exact S. intros H.
  assert (H' : In p (below (s_step s) (dir_files d w) ++ [(s_step s, to_file s)])).
  { rewrite <- (firstn_skipn (to_drop keep (length (below (s_step s) (dir_files d w) ++ [(s_step s, to_file s)])))). apply in_or_app. now right. }
  apply in_app_or in H'. destruct H' as [H'|[<-|[]]]; [|simpl; lia]. apply filter_In in H'. destruct H' as [H' _]. specialize (B _ H'). lia.
Qed.

Lemma periodic_ok {V O} d (vs : list (save (V:=V) (O:=O))) : forall w : fs V, ordered w ->
  increasing (map (fun v => s_step (v_state v)) vs) ->
  (forall p v, In p (dir_files d w) -> In v vs -> fst p < s_step (v_state v)) ->
  fst (do_saves (Some d) vs w) = None.
Proof.
  induction vs as [|v vs IH]; intros w H I B; simpl; [reflexivity|].
  assert (E : existsb (fun p => s_step (v_state v) <=? fst p) (dir_files d w) = false).
  { destruct (existsb _ _) eqn:E; [|reflexivity]. apply existsb_exists in E. destruct E as (p & Hp & E). apply Nat.leb_le in E.
    specialize (B p v Hp (or_introl eq_refl)). lia. }
  rewrite E, andb_false_r. simpl in I. destruct I as [F I]. apply IH.
  - now apply save_ordered.
  - exact I.
  - intros p v' Hp Hv. pose proof (proj1 (ordered_sorted w) H d) as S.
    assert (X : fst p <= s_step (v_state v)).
    { apply (dir_after_save d w (v_state v) (v_keep v) S); [|exact Hp]. intros q Hq. apply B; [exact Hq|now left]. }
    rewrite Forall_forall in F. specialize (F (s_step (v_state v'))).
    assert (Y : In (s_step (v_state v')) (map (fun v => s_step (v_state v)) vs)) by (apply in_map_iff; exists v'; auto).
    specialize (F Y). lia.
Qed.

Lemma fit_fresh_dir : forall V O (init : O -> tree V -> V) g ck o fresh train (w : fs V) p s0, ordered w ->
  start_state init ck o fresh w p = Ok s0 -> (k_dump ck = false \/ k_save ck <> None) ->
  (forall d, k_save ck = Some d -> forall q v, In q (dir_files d w) -> In v (n_saves (train s0)) -> fst q < s_step (v_state v)) ->
  increasing (map (fun v => s_step (v_state v)) (n_saves (train s0))) ->
  fst (fit_single init g ck o fresh train w p) = Ok (n_final (train s0)).
Proof.
  intros V O init g ck o fresh train w p s0 H E B D I. unfold fit_single.
  assert (X : bad_config ck = false).
  { unfold bad_config. destruct (k_dump ck); [|reflexivity]. destruct (k_save ck); [reflexivity|]. destruct B; congruence. }
  rewrite X, E. destruct (k_save ck) as [d|] eqn:K.
  - assert (Y : fst (do_saves (Some d) (training_saves ck (train s0)) w) = None).
    { unfold training_saves. rewrite do_saves_app. pose proof (periodic_ok d (n_saves (train s0)) w H I (D d eq_refl)) as N.
      destruct (do_saves (Some d) (n_saves (train s0)) w) as [[e|] w1]; [discriminate|]. reflexivity. }
    destruct (do_saves (Some d) (training_saves ck (train s0)) w) as [[e|] w1]; [discriminate|]. simpl. reflexivity.
  - rewrite do_saves_none. simpl. reflexivity.
Qed.

Lemma latest_in {V} (l : files V) x : latest l = Some x -> In x l.
Proof.
  unfold latest. intros H. destruct l as [|a l] using rev_ind; [discriminate|]. rewrite map_app in H. simpl in H. rewrite last_last in H.
  injection H as ->. apply in_or_app. right. now left.
Qed.

Lemma fit_same_dir : forall V O (init : O -> tree V -> V) g ck o fresh train (w w' : fs V) p p' s d g2 ck2 o2 fresh2 train2 p2 s2 v vs, ordered w ->
  fit_single init g ck o fresh train w p = (Ok s, (w', p')) -> k_save ck = Some d -> k_save ck2 = Some d ->
  start_state init ck2 o2 fresh2 w' p2 = Ok s2 -> n_saves (train2 s2) = v :: vs -> v_force v = false -> s_step (v_state v) <= s_step s ->
  exists p3, fit_single init g2 ck2 o2 fresh2 train2 w' p2 = (Err RuntimeError, (w', p3)).
Proof.
  intros V O init g ck o fresh train w w' p p' s d g2 ck2 o2 fresh2 train2 p2 s2 v vs H F K K2 E2 N Fo L.
  pose proof (final_latest init g ck o fresh train w w' p p' s d H F K) as La. apply latest_in in La.
  unfold fit_single. assert (X : bad_config ck2 = false) by (unfold bad_config; rewrite K2; apply andb_false_r).
  rewrite X, E2, K2. unfold training_saves. rewrite N. simpl do_saves.
  assert (Y : existsb (fun p => s_step (v_state v) <=? fst p) (dir_files d w') = true).
  { apply existsb_exists. exists (s_step s, to_file s). split; [exact La|]. now apply Nat.leb_le. }
  rewrite Fo, Y. simpl. eexists. reflexivity.
Qed.

(** saving and loading *)
Lemma save_load : forall V O (init : O -> tree V -> V) d keep (w w' : fs V) p, ordered w ->
  save_state init d keep w p = (Ok tt, w') ->
  (forall p0, exists p1, load_state init d w' p0 = (Ok tt, p1) /\ sample_single init w' p1 = sample_single init w p) /\
  (forall d', d' <> d -> dir_files d' w' = dir_files d' w) /\
  sample_single init w' p = sample_single init w p.
Proof.
  intros V O init d keep w w' p H. unfold save_state. destruct p as [r|]; [|discriminate].
  destruct (get init None None w r) as [[s|e] r'] eqn:G; [|discriminate]. unfold put, put_actions, place. cbn [fst]. intros X. assert (W : apply_actions w (save_actions d w s keep) = w') by congruence. clear X.

  assert (L : latest (dir_files d w') = Some (s_step s, to_file s)) by (rewrite <- W; apply save_latest; now apply ordered_sorted).
  assert (SS : sample_single init w (Some r) = Ok (joint_of s)) by (unfold sample_single, stored; now rewrite G).
  split; [|split].
  - intros p0. exists (Some (mk_repo (Some d) None)). unfold load_state. rewrite (restore_latest init d None w' s L). split; [reflexivity|].
    rewrite SS. unfold sample_single, stored, get, place. cbn [r_dir fst]. rewrite (restore_latest init d None w' s L). reflexivity.
  - intros d' N. rewrite <- W. now apply save_other.
  - rewrite SS. unfold sample_single, stored. revert G. unfold get, place. destruct (r_dir r) as [d0|] eqn:D; simpl.
    + intros G. injection G as G _. destruct (string_dec d0 d) as [->|N].
      * rewrite (restore_latest init d None w' s L). reflexivity.
      * unfold restore in *. rewrite <- W, save_other by exact N. rewrite G. reflexivity.
    + destruct (r_mem r) as [t|]; [|discriminate]. intros G. injection G as -> _. reflexivity.
Qed.

Lemma load_none : forall V O (init : O -> tree V -> V) d (w : fs V) (p : option (repo V O)) keep, 
  (empty_dir d w -> load_state init d w p = (Err ValueError, p)) /\ save_state init d keep w None = (Err ValueError, w) /\
  sample_single init w None = Err AttributeError.
Proof.
  intros V O init d w p keep. split; [|split; reflexivity]. intros E. unfold load_state, restore. rewrite E. reflexivity.
Qed.
