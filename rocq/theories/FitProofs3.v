From Coq Require Import List Arith Lia Bool String Ascii Sorted DecimalString.
From Verif Require Import Lib NestedModel RepoModel RepoSpec RepoProofs RepoProofs2 FitModel FitSpec FitProofs FitProofs2.
Import ListNotations.
Open Scope list_scope.
Local Notation length := List.length.

(** names of member directories *)
Fixpoint digits (s : string) : bool :=
  match s with EmptyString => true | String a r => (48 <=? nat_of_ascii a) && (nat_of_ascii a <=? 57) && digits r end.
Lemma decimal_digits n : digits (decimal n) = true.
Proof.
  unfold decimal, NilZero.string_of_uint. assert (H : forall u, digits (NilEmpty.string_of_uint u) = true).
  { induction u; simpl; auto. }
  destruct (Nat.to_uint n) as [|u|u|u|u|u|u|u|u|u|u] eqn:E; [reflexivity|..]; apply H.
Qed.
Lemma digits_slash r : digits (String "/" r) = false. Proof. reflexivity. Qed.
Lemma digits_app a b : digits (a ++ b) = digits a && digits b.
Proof. induction a as [|x a IH]; simpl; [reflexivity|]. rewrite IH. now rewrite andb_assoc. Qed.

Fixpoint slashes (s : string) : nat := match s with EmptyString => 0 | String a r => (if (a =? "/")%char then 1 else 0) + slashes r end.
Lemma digits_slashes s : digits s = true -> slashes s = 0.
Proof.
  induction s as [|a s IH]; simpl; [reflexivity|]. intros H. apply andb_prop in H. destruct H as [H1 H2]. rewrite IH by exact H2.
  destruct (Ascii.eqb_spec a "/"%char) as [->|]; [discriminate|reflexivity].
Qed.
Lemma slashes_app a b : slashes (a ++ b) = slashes a + slashes b.
Proof. induction a as [|x a IH]; simpl; [reflexivity|]. rewrite IH. lia. Qed.
Lemma last_part b b' x y : slashes x = 0 -> slashes y = 0 -> (b ++ "/" ++ x = b' ++ "/" ++ y)%string -> b = b' /\ x = y.
Proof.
  revert b'. induction b as [|a b IH]; intros [|a' b'] X Y E.
  - simpl in E. injection E as E. auto.
  - simpl in E. injection E as _ E. exfalso. subst x. rewrite slashes_app in X. simpl in X. lia.
  - simpl in E. injection E as _ E. exfalso. subst y. rewrite slashes_app in Y. simpl in Y. lia.
  - change (String a (b ++ "/" ++ x) = String a' (b' ++ "/" ++ y))%string in E. injection E as <- E.
    destruct (IH b' X Y E) as [-> ->]. auto.
Qed.
Lemma member_dir_inj b b' i j : member_dir b i = member_dir b' j -> b = b' /\ i = j.
Proof.
  unfold member_dir. intros E. apply last_part in E; [|apply digits_slashes, decimal_digits|apply digits_slashes, decimal_digits].
  destruct E as [-> E]. apply NestedProofs2.decimal_inj in E. auto.
Qed.
Lemma chain_dir_member b b' i : chain_dir b <> member_dir b' i.
Proof.
  unfold chain_dir, member_dir. intros E. change ("/c")%string with ("/" ++ "c")%string in E. apply last_part in E.
  - destruct E as [_ E]. pose proof (decimal_digits i) as D. rewrite <- E in D. discriminate.
  - reflexivity.
  - apply digits_slashes, decimal_digits.
Qed.
Lemma chain_dir_inj b b' : chain_dir b = chain_dir b' -> b = b'.
Proof.
  unfold chain_dir. intros E. change ("/c")%string with ("/" ++ "c")%string in E. apply last_part in E; [tauto|reflexivity|reflexivity].
Qed.

Section P.
Context {V O : Type} (init : O -> tree V -> V).
Notation state := (state V O).
Notation repo := (repo V O).
Notation fs := (fs V).
Notation save := (save (V:=V) (O:=O)).

(** a repository holds a state *)
Definition gives (w : fs) (r : repo) (s : state) : Prop :=
  (r_dir r = None /\ r_mem r = Some s) \/ (exists d, r_dir r = Some d /\ latest (dir_files d w) = Some (s_step s, to_file s)).

Lemma gives_get w r s : gives w r s -> exists t, run_op init (Get None) w r = (Got t, (w, r)) /\ joint_of t = joint_of s.
Proof.
  intros [[D M]|(d & D & L)]; unfold run_op, get, place; rewrite D.
  - rewrite M. exists s. auto.
  - rewrite (restore_latest init d None w s L). exists (on_disk init s None). auto.
Qed.
Lemma gives_resume w r s o : gives w r s -> exists t r', run_op init (Get (Some o)) w r = (Got t, (w, r')) /\ continues init s o t.
Proof.
  intros [[D M]|(d & D & L)]; unfold run_op, get, place; rewrite D.
  - rewrite M. eexists. eexists. split; [reflexivity|]. destruct s. repeat split.
  - rewrite (restore_latest init d (Some o) w s L). eexists. eexists. split; [reflexivity|]. repeat split.
Qed.
Lemma gives_put w r s keep : ordered w -> let y := run_op init (Put s keep) w r in
  fst y = Done /\ gives (fst (snd y)) (snd (snd y)) s /\ r_dir (snd (snd y)) = r_dir r /\ ordered (fst (snd y)) /\
  (forall d, r_dir r <> Some d -> dir_files d (fst (snd y)) = dir_files d w) /\
  (forall d, r_dir r = Some d -> latest (dir_files d (fst (snd y))) = Some (s_step s, to_file s)).
Proof.
  intros H. unfold run_op, put, put_actions, place. destruct (r_dir r) as [d|] eqn:D; cbn [fst snd].
  - assert (L : latest (dir_files d (apply_actions w (save_actions d w s keep))) = Some (s_step s, to_file s)).
    { apply save_latest. now apply ordered_sorted. }
    repeat split; auto.
    + right. now exists d.
    + now apply save_ordered.
    + intros d' N. apply save_other. congruence.
    + intros d' E. injection E as <-. exact L.
  - repeat split; auto; [|discriminate]. left. auto.
Qed.

Definition places (ck : checkpointer) (size : nat) (rs : list repo) : Prop :=
  length rs = size /\ forall i r, nth_error rs i = Some r -> r_dir r = member_place ck i.

Lemma places_replace ck size rs i r : places ck size rs -> i < size -> r_dir r = member_place ck i ->
  places ck size (firstn i rs ++ r :: skipn (S i) rs).
Proof.
  intros [L P] I D. split; [rewrite length_replace; lia|]. intros j r' H. rewrite nth_replace in H by lia.
  destruct (Nat.eqb_spec j i) as [->|N]; [congruence|now apply P].
Qed.

Lemma member_place_dir ck i d : member_place ck i = Some d -> exists b, k_save ck = Some b /\ d = member_dir b i.
Proof.
  unfold member_place. destruct (k_dump ck); [|discriminate]. destruct (k_save ck) as [b|]; [|discriminate]. simpl.
  intros E. injection E as <-. now exists b.
Qed.

(** only the directories of member [i] differ *)
Definition same_but (i : nat) (w w' : fs) : Prop := forall d, (forall b, d <> member_dir b i) -> dir_files d w' = dir_files d w.
Lemma same_but_trans i w1 w2 w3 : same_but i w1 w2 -> same_but i w2 w3 -> same_but i w1 w3.
Proof. intros A B d N. rewrite B by exact N. now apply A. Qed.

Lemma ens_start_local ck o fresh i w w' (rs rs' : list repo) size : places ck size rs -> i < size ->
  (forall b, dir_files (member_dir b i) w' = dir_files (member_dir b i) w) -> nth_error rs' i = nth_error rs i ->
  fst (ens_start init ck o fresh i w' rs') = fst (ens_start init ck o fresh i w rs).
Proof.
  intros [L P] I D E. unfold ens_start. destruct (k_restore ck) as [d|].
  - simpl. unfold restore. now rewrite D.
  - destruct (k_current ck); [|reflexivity].
    destruct (nth_error rs i) as [r|] eqn:R; [|apply nth_error_None in R; lia].
    rewrite (run_member_step init i (Get (Some o)) w rs r R), (run_member_step init i (Get (Some o)) w' rs' r E).
    assert (X : fst (run_op init (Get (Some o)) w' r) = fst (run_op init (Get (Some o)) w r)).
    { unfold run_op, get, place. rewrite (P i r R). destruct (member_place ck i) as [d|] eqn:M.
      - apply member_place_dir in M. destruct M as (b & _ & ->). unfold restore. rewrite D. now destruct (latest _) as [[n f]|].
      - now destruct (r_mem r). }
    rewrite X. now destruct (fst (run_op init (Get (Some o)) w r)).
Qed.

Lemma ens_start_rs ck o fresh i w (rs : list repo) size : places ck size rs -> i < size ->
  let rs' := snd (ens_start init ck o fresh i w rs) in
  places ck size rs' /\ forall j, j <> i -> nth_error rs' j = nth_error rs j.
Proof.
  intros PL I. pose proof PL as [L P]. unfold ens_start. destruct (k_restore ck) as [d|]; [simpl; auto|].
  destruct (k_current ck); [|simpl; auto].
  destruct (nth_error rs i) as [r|] eqn:R; [|apply nth_error_None in R; lia].
  rewrite (run_member_step init i (Get (Some o)) w rs r R).
  destruct (run_op_local init (Get (Some o)) w w r eq_refl) as (_ & _ & K & _).
  assert (X : let rs' := firstn i rs ++ snd (snd (run_op init (Get (Some o)) w r)) :: skipn (S i) rs in
    places ck size rs' /\ forall j, j <> i -> nth_error rs' j = nth_error rs j).
  { cbv zeta. split.
    - apply places_replace; auto. rewrite K. now apply P.
    - intros j N. rewrite nth_replace by lia. apply Nat.eqb_neq in N. now rewrite N. }
  destruct (fst (run_op init (Get (Some o)) w r)); exact X.
Qed.

Lemma ens_member_ok ck o fresh train i w rs size s w' rs' : ordered w -> places ck size rs -> i < size ->
  ens_member init ck o fresh train i w rs = (Ok s, (w', rs')) ->
  (exists s0, fst (ens_start init ck o fresh i w rs) = Ok s0 /\ s = n_final (train i s0)) /\
  ordered w' /\ places ck size rs' /\ same_but i w w' /\
  (forall j, j <> i -> nth_error rs' j = nth_error rs j) /\
  (exists r, nth_error rs' i = Some r /\ gives w' r s) /\
  (forall b, k_save ck = Some b -> latest (dir_files (member_dir b i) w') = Some (s_step s, to_file s)).
Proof.
  intros H PL I. unfold ens_member. destruct (ens_start_rs ck o fresh i w rs size PL I) as [PL1 O1].
  destruct (ens_start init ck o fresh i w rs) as [[s0|e] rs1] eqn:E; [|discriminate]. simpl in PL1, O1.
  pose proof (do_saves_ordered (option_map (fun b => member_dir b i) (k_save ck)) (training_saves ck (train i s0)) w H) as H1.
  assert (SB : same_but i w (snd (do_saves (option_map (fun b => member_dir b i) (k_save ck)) (training_saves ck (train i s0)) w))).
  { intros d N. apply do_saves_other. destruct (k_save ck) as [b|]; [|discriminate]. simpl. intros X. injection X as X. now apply (N b). }
  destruct (do_saves _ (training_saves ck (train i s0)) w) as [[e|] w1] eqn:D; [discriminate|]. simpl in H1, SB.
  pose proof PL1 as [L1 P1]. destruct (nth_error rs1 i) as [r|] eqn:R; [|apply nth_error_None in R; lia].
  rewrite (run_member_step init i _ w1 rs1 r R).
  pose proof (gives_put w1 r (n_final (train i s0)) (k_keep ck) H1) as G. cbv zeta in G.
  destruct (run_op init (Put (n_final (train i s0)) (k_keep ck)) w1 r) as [yo [yw yr]]. cbn [fst snd] in *.
  destruct G as (G1 & G2 & G3 & G4 & G5 & G6). rewrite G1. intros X.
  assert (X1 : n_final (train i s0) = s) by congruence. assert (X2 : yw = w') by congruence.
  assert (X3 : firstn i rs1 ++ yr :: skipn (S i) rs1 = rs') by congruence. clear X. subst s w' rs'.
  split; [now exists s0|]. split; [exact G4|]. split; [apply places_replace; auto; rewrite G3; now apply P1|].
  split.
  { apply (same_but_trans i w w1); [exact SB|]. intros d N. apply G5. rewrite (P1 i r R). intros M.
    apply member_place_dir in M. destruct M as (b & _ & M). now apply (N b). }
  split.
  { intros j N. rewrite nth_replace by lia. pose proof N as N'. apply Nat.eqb_neq in N'. rewrite N'. now apply O1. }
  split.
  { exists yr. split; [|exact G2]. rewrite nth_replace by lia. now rewrite Nat.eqb_refl. }
  intros b K. destruct (member_place ck i) as [d|] eqn:M.
  - pose proof M as M'. apply member_place_dir in M'. destruct M' as (b' & K' & ->). assert (b' = b) by congruence. subst b'.
    apply G6. rewrite (P1 i r R). exact M.
  - rewrite G5 by (rewrite (P1 i r R), M; discriminate). rewrite K in D. simpl in D. unfold training_saves in D.
    now apply (do_saves_last (member_dir b i) _ _ _ w w1 H) in D.
Qed.

Definition member_done (ck : checkpointer) (w : fs) (rs : list repo) (i : nat) (s : state) : Prop :=
  (exists r, nth_error rs i = Some r /\ gives w r s) /\
  (forall b, k_save ck = Some b -> latest (dir_files (member_dir b i) w) = Some (s_step s, to_file s)).

Lemma gives_local ck size w w' rs rs' i r s : places ck size rs -> nth_error rs i = Some r -> nth_error rs' i = nth_error rs i ->
  (forall b, dir_files (member_dir b i) w' = dir_files (member_dir b i) w) ->
  member_done ck w rs i s -> member_done ck w' rs' i s.
Proof.
  intros [L P] R E D [(r' & R' & G) B]. split.
  - exists r'. split; [now rewrite E|]. destruct G as [G|(d & G1 & G2)]; [now left|right]. exists d. split; [exact G1|].
    pose proof (P i r' R') as X. rewrite G1 in X. symmetry in X. apply member_place_dir in X. destruct X as (b & _ & ->). now rewrite D.
  - intros b K. rewrite D. now apply B.
Qed.

Lemma ens_loop_ok ck o fresh train size is : forall w rs ss w' rs', ordered w -> places ck size rs -> NoDup is -> Forall (fun i => i < size) is ->
  ens_loop init ck o fresh train is w rs = (Ok ss, (w', rs')) ->
  ordered w' /\ places ck size rs' /\
  (forall j, ~ In j is -> nth_error rs' j = nth_error rs j /\ forall b, dir_files (member_dir b j) w' = dir_files (member_dir b j) w) /\
  Forall2 (fun i s => (exists s0, fst (ens_start init ck o fresh i w rs) = Ok s0 /\ s = n_final (train i s0)) /\ member_done ck w' rs' i s) is ss.
Proof.
  induction is as [|i is IH]; intros w rs ss w' rs' H PL ND F; simpl.
  - intros X. injection X as <- <- <-. repeat split; auto; apply PL.
  - inversion ND as [|? ? NI ND']; subst. apply Forall_cons_iff in F. destruct F as [I F].
    destruct (ens_member init ck o fresh train i w rs) as [[s|e] [w1 rs1]] eqn:E; [|discriminate].
    destruct (ens_member_ok ck o fresh train i w rs size s w1 rs1 H PL I E) as (A1 & A2 & A3 & A4 & A5 & A6 & A7).
    destruct (ens_loop init ck o fresh train is w1 rs1) as [[ss'|e] [w2 rs2]] eqn:E2; simpl; [|discriminate].
    intros X. injection X as <- <- <-. destruct (IH w1 rs1 ss' w2 rs2 A2 A3 ND' F E2) as (B1 & B2 & B3 & B4).
    assert (LOC : forall j, j <> i -> nth_error rs1 j = nth_error rs j /\ forall b, dir_files (member_dir b j) w1 = dir_files (member_dir b j) w).
    { intros j N. split; [now apply A5|]. intros b. apply A4. intros b' X. apply member_dir_inj in X. now apply N. }
    split; [exact B1|]. split; [exact B2|]. split.
    + intros j N. simpl in N. destruct (B3 j) as [C1 C2]; [tauto|]. destruct (LOC j) as [D1 D2]; [intros ->; tauto|].
      split; [congruence|]. intros b. now rewrite C2, D2.
    + constructor.
      * split; [exact A1|]. destruct (B3 i NI) as [C1 C2]. destruct A6 as (r & R & G).
        apply (gives_local ck size w1 w2 rs1 rs2 i r s A3 R C1 C2). split; [now exists r|exact A7].
      * clear - B4 LOC NI PL F. induction B4 as [|j s' is' ss' HX B4 IH']; constructor.
        -- destruct HX as [(s0 & HX1 & HX2) HX3]. split; [|exact HX3]. exists s0. split; [|exact HX2]. rewrite <- HX1. symmetry.
           apply Forall_cons_iff in F. destruct F as [J F]. destruct (LOC j) as [D1 D2]; [intros ->; apply NI; now left|].
           apply (ens_start_local ck o fresh j w w1 rs rs1 size PL J D2 D1).
        -- apply IH'; first [intros X; apply NI; now right | now apply Forall_cons_iff in F].
Qed.

Lemma ens_repos_places ck size p : (forall rs, p = Some rs -> length rs = size) -> places ck size (ens_repos (V:=V) (O:=O) ck size p).
Proof.
  intros L. unfold ens_repos. destruct p as [rs|].
  - specialize (L rs eq_refl). split; [rewrite map_length, combine_length, seq_length; lia|].
    intros i r. rewrite nth_error_map. rewrite <- L. unfold member_place.
    assert (NC : nth_error (combine (seq 0 (length rs)) rs) i = option_map (fun x => (i, x)) (nth_error rs i)).
    { assert (G : forall (l : list repo) s i, nth_error (combine (seq s (length l)) l) i = option_map (fun x => (s + i, x)) (nth_error l i)).
      { induction l as [|a l IH]; intros s k; simpl; [now destruct k|]. destruct k as [|k]; simpl; [now rewrite Nat.add_0_r|].
        rewrite IH. destruct (nth_error l k); simpl; [|reflexivity]. do 2 f_equal. lia. }
      apply (G rs 0 i). }
    rewrite NC. destruct (nth_error rs i); simpl; [|discriminate]. intros E. injection E as <-. reflexivity.
  - split; [unfold init_multi; now rewrite map_length, seq_length|]. intros i r H.
    assert (I : i < size).
    { assert (X : i < length (init_multi (V:=V) (O:=O) size (if k_dump ck then k_save ck else None))) by (apply nth_error_Some; congruence).
      unfold init_multi in X. now rewrite map_length, seq_length in X. }
    rewrite init_nth in H by exact I. injection H as <-. simpl. unfold member_place. now destruct (k_dump ck).
Qed.

Lemma Forall2_nth {A B} (R : A -> B -> Prop) l m : Forall2 R l m -> forall k b, nth_error m k = Some b -> exists a, nth_error l k = Some a /\ R a b.
Proof.
  induction 1 as [|a b l m H _ IH]; intros [|k] b' E; try discriminate.
  - injection E as <-. exists a. auto.
  - simpl in E. destruct (IH k b' E) as (a' & A1 & A2). exists a'. auto.
Qed.
Lemma nth_seq0 n k : k < n -> nth_error (seq 0 n) k = Some k.
Proof. intros L. rewrite (nth_error_nth' _ 0) by (rewrite seq_length; lia). now rewrite seq_nth. Qed.

Lemma ens_fit_ok ck o size fresh train (w w' : fs) p p' ss : ordered w -> (forall rs, p = Some rs -> length rs = size) ->
  ens_fit init ck o size fresh train w p = (Ok ss, (w', p')) ->
  length ss = size /\ ordered w' /\ exists rs', p' = Some rs' /\ places ck size rs' /\
  forall j s, nth_error ss j = Some s ->
    (exists s0, fst (ens_start init ck o fresh j w (ens_repos ck size p)) = Ok s0 /\ s = n_final (train j s0)) /\ member_done ck w' rs' j s.
Proof.
  intros H L. unfold ens_fit. destruct (bad_config ck); [discriminate|].
  destruct (ens_loop init ck o fresh train (seq 0 size) w (ens_repos ck size p)) as [res [w1 rs1]] eqn:E. simpl. intros X. injection X as -> <- <-.
  assert (F : Forall (fun i => i < size) (seq 0 size)) by (apply Forall_forall; intros i Hi; apply in_seq in Hi; lia).
  destruct (ens_loop_ok ck o fresh train size (seq 0 size) w _ ss w1 rs1 H (ens_repos_places ck size p L) (seq_NoDup size 0) F E) as (A & B & C & D).
  pose proof (Forall2_len _ _ _ D) as LL. rewrite seq_length in LL.
  split; [auto|]. split; [exact A|]. exists rs1. split; [reflexivity|]. split; [exact B|].
  intros j s Hj. destruct (Forall2_nth _ _ _ D j s Hj) as (i & Hi & R).
  assert (J : j < size) by (rewrite LL; apply nth_error_Some; congruence). rewrite nth_seq0 in Hi by exact J. injection Hi as <-. exact R.
Qed.

Lemma member_done_state ck w rs j s : member_done ck w rs j s -> exists t, member_state init w (Some rs) j = Ok t /\ joint_of t = joint_of s.
Proof.
  intros [(r & R & G) _]. destruct (gives_get w r s G) as (t & E & J). exists t. split; [|exact J].
  unfold member_state. rewrite (run_member_step init j _ w rs r R), E. reflexivity.
Qed.
End P.

(** C115 *)
Lemma ens_result : forall V O (init : O -> tree V -> V) ck o size fresh train (w w' : fs V) p p' ss, ordered w ->
  (forall rs, p = Some rs -> length rs = size) -> ens_fit init ck o size fresh train w p = (Ok ss, (w', p')) ->
  length ss = size /\
  forall j s, nth_error ss j = Some s ->
    exists s0, fst (ens_start init ck o fresh j w (ens_repos ck size p)) = Ok s0 /\ s = n_final (train j s0).
Proof.
  intros V O init ck o size fresh train w w' p p' ss H L F.
  destruct (ens_fit_ok init ck o size fresh train w w' p p' ss H L F) as (A & B & rs' & -> & C & D).
  split; [exact A|]. intros j s Hj. now apply D.
Qed.

Lemma ens_sample : forall V O (init : O -> tree V -> V) ck o size fresh train (w w' : fs V) p p' ss, ordered w ->
  (forall rs, p = Some rs -> length rs = size) -> ens_fit init ck o size fresh train w p = (Ok ss, (w', p')) ->
  forall j s, nth_error ss j = Some s -> sample_member init w' p' j = Ok (joint_of s).
Proof.
  intros V O init ck o size fresh train w w' p p' ss H L F j s Hj.
  destruct (ens_fit_ok init ck o size fresh train w w' p p' ss H L F) as (A & B & rs' & -> & C & D).
  destruct ss as [|s0 ss]; [destruct j; discriminate|].
  destruct (D 0 s0 eq_refl) as [_ M0]. destruct (D j s Hj) as [_ Mj].
  destruct (member_done_state init ck w' rs' 0 s0 M0) as (t0 & E0 & _). destruct (member_done_state init ck w' rs' j s Mj) as (t & E & J).
  unfold sample_member. rewrite E0, E. simpl. now rewrite J.
Qed.

Lemma ens_load_sample : forall V O (init : O -> tree V -> V) ck o size fresh train (w w' : fs V) p p' ss d, ordered w ->
  (forall rs, p = Some rs -> length rs = size) -> ens_fit init ck o size fresh train w p = (Ok ss, (w', p')) ->
  k_save ck = Some d -> 0 < size ->
  forall p0, exists p1, ens_load init size d w' p0 = (Ok tt, p1) /\
  forall j s, nth_error ss j = Some s -> sample_member init w' p1 j = Ok (joint_of s).
Proof.
  intros V O init ck o size fresh train w w' p p' ss d H L F K Z p0.
  destruct (ens_fit_ok init ck o size fresh train w w' p p' ss H L F) as (A & B & rs' & -> & C & D).
  assert (G : forall j s, nth_error ss j = Some s -> member_state init w' (Some (init_multi size (Some d))) j = Ok (on_disk init s None)).
  { intros j s Hj. destruct (D j s Hj) as [_ [_ M]]. specialize (M d K). assert (J : j < size) by (rewrite <- A; apply nth_error_Some; congruence).
    unfold member_state. rewrite (run_member_step init j _ w' _ _ (init_nth (V:=V) (O:=O) size (Some d) j J)).
    unfold run_op, get, place. cbn [r_dir option_map]. rewrite (restore_latest init _ None w' s M). reflexivity. }
  destruct ss as [|s0 ss]; [simpl in A; lia|].
  exists (Some (init_multi size (Some d))). split.
  - unfold ens_load. destruct (D 0 s0 eq_refl) as [_ [_ M]]. rewrite (restore_latest init _ None w' s0 (M d K)). reflexivity.
  - intros j s Hj. unfold sample_member. rewrite (G 0 s0 eq_refl), (G j s Hj). reflexivity.
Qed.

Lemma ens_resume : forall V O (init : O -> tree V -> V) ck o size fresh train (w w' : fs V) p p' ss ck2 o2 fresh2, ordered w ->
  (forall rs, p = Some rs -> length rs = size) -> ens_fit init ck o size fresh train w p = (Ok ss, (w', p')) ->
  (k_restore ck2 = None /\ k_current ck2 = true /\ (forall i, member_place ck2 i = member_place ck i)) \/
  (k_restore ck2 = k_save ck /\ k_save ck <> None) ->
  forall j s, nth_error ss j = Some s ->
    exists s2, fst (ens_start init ck2 o2 fresh2 j w' (ens_repos ck2 size p')) = Ok s2 /\ continues init s o2 s2.
Proof.
  intros V O init ck o size fresh train w w' p p' ss ck2 o2 fresh2 H L F R j s Hj.
  destruct (ens_fit_ok init ck o size fresh train w w' p p' ss H L F) as (A & B & rs' & -> & C & D).
  assert (J : j < size) by (rewrite <- A; apply nth_error_Some; congruence).
  destruct (D j s Hj) as [_ [(r & Rj & G) M]]. unfold ens_start. destruct R as [(R1 & R2 & R3)|[R1 R2]].
  - rewrite R1, R2. destruct C as [CL CP].
    assert (X : nth_error (ens_repos ck2 size (Some rs')) j = Some r).
    { unfold ens_repos. rewrite nth_error_map, <- CL, FitProofs.nth_combine_seq, Rj. simpl. rewrite R3, <- (CP j r Rj). now destruct r. }
    rewrite (run_member_step init j _ w' _ r X). destruct (gives_resume init w' r s o2 G) as (t & r' & E & CT). rewrite E. simpl. now exists t.
  - rewrite R1. destruct (k_save ck) as [d|]; [|now destruct R2]. simpl. rewrite (restore_latest init _ (Some o2) w' s (M d eq_refl)).
    eexists. split; [reflexivity|]. repeat split.
Qed.

(** repositories on disk are not changed by their operations *)
Lemma replace_self {A} (l : list A) i x : nth_error l i = Some x -> firstn i l ++ x :: skipn (S i) l = l.
Proof.
  revert i. induction l as [|a l IH]; intros [|i] E; try discriminate.
  - injection E as ->. reflexivity.
  - simpl. f_equal. now apply IH.
Qed.
Lemma disk_member {V O} (init : O -> tree V -> V) i x (w : fs V) rs : Forall (fun r : repo V O => r_dir r <> None) rs ->
  (exists o, x = Get o) \/ (exists s k, x = Put s k) -> snd (snd (run_member init i x w rs)) = rs.
Proof.
  intros F X. unfold run_member. destruct (nth_error rs i) as [r|] eqn:R; [|reflexivity].
  assert (D : r_dir r <> None) by (rewrite Forall_forall in F; apply F; now apply nth_error_In in R).
  assert (E : snd (snd (run_op init x w r)) = r).
  { unfold run_op, get, put, place. destruct X as [(o & ->)|(s & k & ->)]; (destruct (r_dir r) as [d|]; [|congruence]).
    - now destruct (restore init d o w).
    - reflexivity. }
  destruct (run_op init x w r) as [y wr]. simpl in *. rewrite E. now apply replace_self.
Qed.
Lemma disk_loop {V O} (init : O -> tree V -> V) ck o fresh train is : forall (w : fs V) rs, Forall (fun r : repo V O => r_dir r <> None) rs ->
  snd (snd (ens_loop init ck o fresh train is w rs)) = rs.
Proof.
  induction is as [|i is IH]; intros w rs F; simpl; [reflexivity|].
  assert (S1 : snd (ens_start init ck o fresh i w rs) = rs).
  { unfold ens_start. destruct (k_restore ck); [reflexivity|]. destruct (k_current ck); [|reflexivity].
    pose proof (disk_member init i (Get (Some o)) w rs F (or_introl (ex_intro _ _ eq_refl))) as X.
    destruct (run_member init i (Get (Some o)) w rs) as [[| |] [w1 rs1]]; exact X. }
  assert (M : snd (snd (ens_member init ck o fresh train i w rs)) = rs).
  { unfold ens_member. destruct (ens_start init ck o fresh i w rs) as [[s|e] rs1]; simpl in S1; subst rs1; [|reflexivity].
    destruct (do_saves _ _ w) as [[e|] w1]; [reflexivity|].
    pose proof (disk_member init i (Put (n_final (train i s)) (k_keep ck)) w1 rs F (or_intror (ex_intro _ _ (ex_intro _ _ eq_refl)))) as X.
    destruct (run_member init i _ w1 rs) as [[| |] wr]; exact X. }
  destruct (ens_member init ck o fresh train i w rs) as [[s|e] [w1 rs1]]; simpl in M; subst rs1; [|reflexivity].
  specialize (IH w1 rs F). destruct (ens_loop init ck o fresh train is w1 rs) as [res wr]. exact IH.
Qed.

(** continuing in another place *)
Lemma ens_changed : forall V O (init : O -> tree V -> V) ck o size fresh train (w w' : fs V) p p' ss ck2 o2 fresh2 train2, ordered w ->
  (forall rs, p = Some rs -> length rs = size) -> ens_fit init ck o size fresh train w p = (Ok ss, (w', p')) -> 0 < size ->
  k_restore ck2 = None -> k_current ck2 = true ->
  (k_dump ck = false /\ k_dump ck2 = true /\ exists d, k_save ck2 = Some d /\ empty_dir (member_dir d 0) w') \/
  (k_dump ck = true /\ k_dump ck2 = false /\ forall rs r, p = Some rs -> In r rs -> r_mem r = None) ->
  exists p2, ens_fit init ck2 o2 size fresh2 train2 w' p' = (Err ValueError, (w', p2)) /\
    forall j, sample_member init w' p2 j = Err ValueError.
Proof.
  intros V O init ck o size fresh train w w' p p' ss ck2 o2 fresh2 train2 H L F Z R C K.
  destruct (ens_fit_ok init ck o size fresh train w w' p p' ss H L F) as (A & B & rs' & -> & [CL CP] & D).
  destruct size as [|size]; [lia|].
  assert (MEM : k_dump ck = true -> (forall rs r, p = Some rs -> In r rs -> r_mem r = None) -> forall r, In r rs' -> r_mem r = None).
  { intros K1 K3. unfold ens_fit in F. destruct (bad_config ck) eqn:BC; [discriminate|].
    assert (DIR : Forall (fun q : repo V O => r_dir q <> None) (ens_repos ck (S size) p)).
    { destruct (ens_repos_places (V:=V) (O:=O) ck (S size) p L) as [PL1 PL2]. apply Forall_forall. intros q Hq. apply In_nth_error in Hq.
      destruct Hq as [i Hq]. rewrite (PL2 i q Hq). unfold member_place, bad_config in *. rewrite K1 in *.
      destruct (k_save ck); [discriminate|]. discriminate. }
    pose proof (disk_loop init ck o fresh train (seq 0 (S size)) w _ DIR) as X.
    destruct (ens_loop init ck o fresh train (seq 0 (S size)) w (ens_repos ck (S size) p)) as [res [w1 rs1]]. simpl in X, F.
    injection F as _ _ F. subst rs1. subst rs'. intros r Hr. unfold ens_repos in Hr. destruct p as [rs|].
    - apply in_map_iff in Hr. destruct Hr as ([i q] & <- & Hq). simpl. apply (K3 rs q eq_refl). now apply in_combine_r in Hq.
    - unfold init_multi in Hr. apply in_map_iff in Hr. destruct Hr as (i & <- & _). reflexivity. }
  destruct rs' as [|r rs']; [discriminate|].
  assert (E0 : exists r0 rest, ens_repos ck2 (S size) (Some (r :: rs')) = r0 :: rest /\ r_dir r0 = member_place ck2 0 /\ r_mem r0 = r_mem r).
  { unfold ens_repos. simpl. eexists. eexists. split; [reflexivity|]. auto. }
  destruct E0 as (r0 & rest & E0 & D0 & M0).
  assert (G : forall oo, get init None oo w' r0 = (Err ValueError, r0)).
  { intros oo. unfold get, place. rewrite D0. destruct K as [(K1 & K2 & d & K3 & K4)|(K1 & K2 & K3)]; unfold member_place; rewrite K2.
    - rewrite K3. simpl. unfold restore. rewrite K4. auto.
    - rewrite M0, (MEM K1 K3 r) by now left. reflexivity. }
  assert (BC : bad_config ck2 = false).
  { unfold bad_config. destruct K as [(_ & _ & d & -> & _)|(_ & -> & _)]; [apply andb_false_r|reflexivity]. }
  exists (Some (r0 :: rest)). split.
  - unfold ens_fit. rewrite BC, E0. cbn [seq ens_loop]. unfold ens_member, ens_start. rewrite R, C.
    unfold run_member. cbn [nth_error]. unfold run_op. rewrite G. reflexivity.
  - intros j. unfold sample_member, member_state, run_member. cbn [nth_error]. unfold run_op. rewrite G. reflexivity.
Qed.

(** saving *)
Lemma resave_memory {V O} (init : O -> tree V -> V) is keep : forall (w : fs V) (rs : list (repo V O)), Forall (fun r => r_dir r = None) rs ->
  fst (snd (resave init is keep w rs)) = w.
Proof.
  induction is as [|i is IH]; intros w rs F; [reflexivity|]. cbn [resave]. unfold run_member at 1.
  destruct (nth_error rs i) as [r|] eqn:R; [|reflexivity].
  assert (D : r_dir r = None) by (rewrite Forall_forall in F; apply F; now apply nth_error_In in R).
  unfold run_op, get, place. rewrite D. destruct (r_mem r) as [s|] eqn:M; [|reflexivity]. cbn [fst snd].
  rewrite (replace_self rs i r R). unfold run_member. rewrite R. unfold run_op, put, put_actions, place. rewrite D. cbn [fst snd apply_actions fold_left].
  apply IH. apply Forall_forall. intros q Hq. apply in_app_or in Hq. rewrite Forall_forall in F. destruct Hq as [Hq|[<-|Hq]].
  - apply F. rewrite <- (firstn_skipn i rs). apply in_or_app. now left.
  - reflexivity.
  - apply F. rewrite <- (firstn_skipn (S i) rs). apply in_or_app. now right.
Qed.

Lemma ens_save_nowhere : forall V O (init : O -> tree V -> V) ck o size fresh train (w w' : fs V) p p' ss d keep, ordered w ->
  (forall rs, p = Some rs -> length rs = size) -> ens_fit init ck o size fresh train w p = (Ok ss, (w', p')) -> k_dump ck = false ->
  fst (snd (ens_save init size d keep w' p')) = w'.
Proof.
  intros V O init ck o size fresh train w w' p p' ss d keep H L F K.
  destruct (ens_fit_ok init ck o size fresh train w w' p p' ss H L F) as (A & B & rs' & -> & [CL CP] & D).
  unfold ens_save. pose proof (resave_memory init (seq 0 size) keep w' rs') as X.
  destruct (resave init (seq 0 size) keep w' rs') as [res wr]. simpl in *. apply X.
  apply Forall_forall. intros r Hr. apply In_nth_error in Hr. destruct Hr as [i Hr]. rewrite (CP i r Hr). unfold member_place. now rewrite K.
Qed.
