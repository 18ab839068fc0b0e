From Coq Require Import List Arith Lia Bool String.
From Verif Require Import Lib NestedModel NestedSpec NestedProofs NestedProofs2 LoaderProofs RepoModel RepoSpec RepoProofs.
Import ListNotations.
Open Scope list_scope.
Local Notation length := List.length.

Section Multi.
Context {V O : Type} (init : O -> tree V -> V).
Notation state := (state V O).
Notation repo := (repo V O).
Notation op := (op (V:=V) (O:=O)).
Notation out := (out (V:=V) (O:=O)).

(** the part of the file system a repository looks at *)
Definition view (w : fs V) (r : repo) : files V :=
  match r_dir r with Some d => dir_files d w | None => [] end.

Lemma save_actions_local d w1 w2 (s : state) keep : dir_files d w1 = dir_files d w2 ->
  save_actions d w1 s keep = save_actions d w2 s keep.
Proof. intros E. unfold save_actions. now rewrite E. Qed.

Lemma apply_local d acts : Forall (fun a : action V => match a with AWrite d' _ _ => d' = d | ARemove d' _ => d' = d end) acts ->
  forall w1 w2, dir_files d w1 = dir_files d w2 ->
  dir_files d (apply_actions w1 acts) = dir_files d (apply_actions w2 acts) /\
  (forall d' w, d' <> d -> dir_files d' (apply_actions w acts) = dir_files d' w).
Proof.
  induction 1 as [|a acts Ha _ IH]; intros w1 w2 E; [split; auto|].
  unfold apply_actions in *. cbn [fold_left].
  destruct (IH (apply_action w1 a) (apply_action w2 a)) as (I1 & I2).
  - destruct a as [d' n f|d' n]; subst d'; unfold apply_action; etransitivity; [apply dir_set_same| |apply dir_set_same|]; rewrite E; symmetry; apply dir_set_same.
  - split; [exact I1|]. intros d' w N. rewrite I2 by assumption.
    destruct a as [d2 n f|d2 n]; subst d2; unfold apply_action; now apply dir_set_other.
Qed.

Lemma save_actions_in d w (s : state) keep :
  Forall (fun a : action V => match a with AWrite d' _ _ => d' = d | ARemove d' _ => d' = d end) (save_actions d w s keep).
Proof.
  unfold save_actions. constructor; [reflexivity|]. apply Forall_forall. intros a H.
  apply in_map_iff in H. destruct H as (n & <- & _). reflexivity.
Qed.

(** an operation depends only on the repository's own directory, changes only it,
    and keeps the repository's directory name *)
Lemma run_op_local x w1 w2 (r : repo) : view w1 r = view w2 r ->
  fst (run_op init x w1 r) = fst (run_op init x w2 r) /\
  snd (snd (run_op init x w1 r)) = snd (snd (run_op init x w2 r)) /\
  r_dir (snd (snd (run_op init x w1 r))) = r_dir r /\
  view (fst (snd (run_op init x w1 r))) r = view (fst (snd (run_op init x w2 r))) r /\
  (forall d, Some d <> r_dir r -> dir_files d (fst (snd (run_op init x w1 r))) = dir_files d w1).
Proof.
  unfold view. destruct (r_dir r) as [d|] eqn:D; intros E.
  - assert (P : forall (s : state) keep,
      dir_files d (apply_actions w1 (save_actions d w1 s keep)) = dir_files d (apply_actions w2 (save_actions d w2 s keep)) /\
      (forall d', d' <> d -> dir_files d' (apply_actions w1 (save_actions d w1 s keep)) = dir_files d' w1)).
    { intros s keep. rewrite (save_actions_local d w2 w1 s keep (eq_sym E)).
      destruct (apply_local d _ (save_actions_in d w1 s keep) w1 w2 E) as (A & B). split; [exact A|auto]. }
    assert (Q : forall n,
      dir_files d (apply_actions w1 [ARemove d n]) = dir_files d (apply_actions w2 [ARemove d n]) /\
      (forall d', d' <> d -> dir_files d' (apply_actions w1 [ARemove d n]) = dir_files d' w1)).
    { intros n. destruct (apply_local d [ARemove d n]) with (w1 := w1) (w2 := w2) as (A & B); auto. }
    destruct x as [s keep|o|o|vs o keep];
      unfold run_op, put, put_actions, update, pull, pull_actions, get, place, restore; rewrite ?D, ?E.
    + simpl. rewrite D. destruct (P s keep) as (P1 & P2). repeat split; auto. intros d' N. apply P2. congruence.
    + destruct (latest (dir_files d w2)) as [[n f]|]; simpl; rewrite ?D; auto 10.
    + destruct (latest (dir_files d w2)) as [[n f]|]; simpl; rewrite ?D; auto 10.
      simpl. destruct (Q n) as (Q1 & Q2). repeat split; auto. intros d' N. apply Q2. congruence.
    + destruct (latest (dir_files d w2)) as [[n f]|]; simpl; rewrite ?D; auto 10.
      unfold put, put_actions, place. rewrite ?D. cbn [fst snd].
      set (s' := replace (from_file init n f o) vs).
      destruct (Q n) as (Q1 & Q2).
      change (assoc_set d (filter (fun p : nat * file V => negb (fst p =? n)) (dir_files d w1)) w1) with (apply_actions w1 [ARemove d n]).
      change (assoc_set d (filter (fun p : nat * file V => negb (fst p =? n)) (dir_files d w2)) w2) with (apply_actions w2 [ARemove d n]).
      set (u1 := apply_actions w1 [ARemove d n]) in *. set (u2 := apply_actions w2 [ARemove d n]) in *.
      rewrite (save_actions_local d u2 u1 s' keep (eq_sym Q1)).
      destruct (apply_local d _ (save_actions_in d u1 s' keep) u1 u2 Q1) as (A & B).
      repeat split; auto. intros d' N. rewrite B by congruence. apply Q2. congruence.
  - destruct (run_op_mem init x w1 r D) as (r1 & E1 & M1 & D1).
    destruct (run_op_mem init x w2 r D) as (r2 & E2 & M2 & D2).
    rewrite E1, E2. simpl. repeat split; auto; try congruence.
    destruct r1, r2; simpl in *; congruence.
Qed.

(** members have different directories *)
Definition distinct_dirs (rs : list repo) : Prop :=
  forall i j ri rj d, i <> j -> nth_error rs i = Some ri -> nth_error rs j = Some rj ->
    r_dir ri = Some d -> r_dir rj <> Some d.

Lemma nth_replace {A} (l : list A) i x j : i < length l ->
  nth_error (firstn i l ++ x :: skipn (S i) l) j = if j =? i then Some x else nth_error l j.
Proof.
  intros H. assert (Lf : length (firstn i l) = i) by (rewrite firstn_length; lia).
  destruct (Nat.eqb_spec j i) as [->|N].
  - rewrite nth_error_app2 by lia. now rewrite Lf, Nat.sub_diag.
  - destruct (lt_dec j i).
    + rewrite nth_error_app1 by lia. rewrite <- (firstn_skipn i l) at 2. rewrite nth_error_app1 by lia. reflexivity.
    + rewrite nth_error_app2 by lia. rewrite Lf. destruct (j - i) as [|k] eqn:K; [lia|]. simpl.
      rewrite <- (firstn_skipn (S i) l) at 2. rewrite nth_error_app2; rewrite firstn_length; [f_equal|]; lia.
Qed.

Lemma run_member_step i x w (rs : list repo) r : nth_error rs i = Some r ->
  run_member init i x w rs =
  (fst (run_op init x w r), (fst (snd (run_op init x w r)), firstn i rs ++ snd (snd (run_op init x w r)) :: skipn (S i) rs)).
Proof. intros H. unfold run_member. rewrite H. destruct (run_op init x w r). reflexivity. Qed.

Lemma run_member_out i x w (rs : list repo) : nth_error rs i = None ->
  run_member init i x w rs = (Raised IndexError, (w, rs)).
Proof. intros H. unfold run_member. now rewrite H. Qed.

Lemma distinct_step i x w rs r : distinct_dirs rs -> nth_error rs i = Some r ->
  distinct_dirs (firstn i rs ++ snd (snd (run_op init x w r)) :: skipn (S i) rs).
Proof.
  intros DD H a b ra rb d N Ha Hb Da.
  assert (L : i < length rs) by (apply nth_error_Some; congruence).
  rewrite nth_replace in Ha, Hb by assumption.
  destruct (run_op_local x w w r eq_refl) as (_ & _ & K & _).
  destruct (Nat.eqb_spec a i) as [->|Na], (Nat.eqb_spec b i) as [->|Nb]; try congruence.
  - injection Ha as <-. rewrite K in Da. eapply DD; [|exact H|exact Hb|exact Da]. congruence.
  - injection Hb as <-. rewrite K. eapply DD; [|exact Ha|exact H|exact Da]. congruence.
  - eapply DD; [|exact Ha|exact Hb|exact Da]. congruence.
Qed.

Lemma multi_project xs : forall w rs j r w',
  distinct_dirs rs -> nth_error rs j = Some r -> view w r = view w' r ->
  only j (fst (run_multi init xs w rs)) = fst (run init (only j xs) w' r) /\
  nth_error (snd (snd (run_multi init xs w rs))) j = Some (snd (snd (run init (only j xs) w' r))) /\
  view (fst (snd (run_multi init xs w rs))) r = view (fst (snd (run init (only j xs) w' r))) r.
Proof.
  induction xs as [|[i x] xs IH]; intros w rs j r w' DD Hj Vw; [simpl; auto|].
  simpl run_multi. destruct (nth_error rs i) as [ri|] eqn:Hi.
  - assert (Li : i < length rs) by (apply nth_error_Some; congruence).
    rewrite (run_member_step i x w rs ri Hi). cbn [fst snd].
    set (rs' := firstn i rs ++ snd (snd (run_op init x w ri)) :: skipn (S i) rs).
    set (w1 := fst (snd (run_op init x w ri))).
    assert (DD' : distinct_dirs rs') by now apply distinct_step.
    unfold only in *. cbn [filter fst].
    destruct (Nat.eqb_spec i j) as [->|N].
    + assert (ri = r) by congruence. subst ri.
      destruct (run_op_local x w w' r Vw) as (A1 & A2 & A3 & A4 & A5).
      set (r1 := snd (snd (run_op init x w r))) in *.
      assert (Hj' : nth_error rs' j = Some r1).
      { unfold rs'. rewrite nth_replace by assumption. now rewrite Nat.eqb_refl. }
      assert (Vr : forall u, view u r1 = view u r) by (intros u; unfold view; now rewrite A3).
      destruct (IH w1 rs' j r1 (fst (snd (run_op init x w' r))) DD' Hj') as (I1 & I2 & I3).
      { rewrite !Vr. exact A4. }
      cbn [map snd run]. 
      destruct (run_op init x w' r) as [y [w2 r2]] eqn:E2. cbn [fst snd] in *. subst r2.
      destruct (run_multi init xs w1 rs') as [ys wr] eqn:EM. cbn [fst snd] in *.
      destruct (run init (map snd (filter (fun p => fst p =? j) xs)) w2 r1) as [zs wr2] eqn:ER. cbn [fst snd] in *.
      cbn [filter fst]. rewrite Nat.eqb_refl. cbn [map snd].
      rewrite !Vr in I3. split; [f_equal; [exact A1|exact I1]|]. auto.
    + assert (Hj' : nth_error rs' j = Some r).
      { unfold rs'. rewrite nth_replace by assumption. destruct (Nat.eqb_spec j i); [congruence|exact Hj]. }
      destruct (run_op_local x w w ri eq_refl) as (_ & _ & _ & _ & A5).
      assert (Vw' : view w1 r = view w' r).
      { rewrite <- Vw. unfold view. destruct (r_dir r) as [d|] eqn:Dr; [|reflexivity]. unfold w1. apply A5.
        intros X. symmetry in X. exact (DD i j ri r d N Hi Hj X Dr). }
      destruct (IH w1 rs' j r w' DD' Hj' Vw') as (I1 & I2 & I3).
      destruct (run_multi init xs w1 rs') as [ys wr]. cbn [fst snd] in *.
      cbn [filter fst]. destruct (Nat.eqb_spec i j); [congruence|]. auto.
  - rewrite (run_member_out i x w rs Hi). cbn [fst snd].
    assert (N : i <> j) by congruence.
    destruct (IH w rs j r w' DD Hj Vw) as (I1 & I2 & I3).
    destruct (run_multi init xs w rs) as [ys wr]. cbn [fst snd] in *.
    unfold only in *. cbn [filter fst]. destruct (Nat.eqb_spec i j); [congruence|]. auto.
Qed.

Lemma string_app_inj (a b c : string) : (a ++ b = a ++ c)%string -> b = c.
Proof. induction a as [|x a IH]; simpl; [auto|]. intros H. injection H as H. auto. Qed.

Lemma init_nth size base i : i < size ->
  nth_error (init_multi (V:=V) (O:=O) size base) i = Some (mk_repo (option_map (fun b => member_dir b i) base) None).
Proof.
  intros H. unfold init_multi. erewrite map_nth_error; [reflexivity|].
  rewrite (nth_error_nth' _ 0) by (rewrite seq_length; lia). now rewrite seq_nth.
Qed.

Lemma init_distinct size base : distinct_dirs (init_multi size base).
Proof.
  intros i j ri rj d N Hi Hj Di Dj.
  assert (Li : i < size).
  { assert (X : i < length (init_multi (V:=V) (O:=O) size base)) by (apply nth_error_Some; congruence).
    unfold init_multi in X. now rewrite map_length, seq_length in X. }
  assert (Lj : j < size).
  { assert (X : j < length (init_multi (V:=V) (O:=O) size base)) by (apply nth_error_Some; congruence).
    unfold init_multi in X. now rewrite map_length, seq_length in X. }
  rewrite init_nth in Hi, Hj by assumption. injection Hi as <-. injection Hj as <-. simpl in *.
  destruct base as [b|]; [|discriminate]. simpl in *. injection Di as <-. injection Dj as E.
  unfold member_dir in E. apply string_app_inj in E. simpl in E. injection E as E. apply decimal_inj in E. congruence.
Qed.

Theorem members_independent size base w xs j : j < size ->
  only j (fst (run_multi init xs w (init_multi size base)))
  = fst (run init (only j xs) w (mk_repo (option_map (fun b => member_dir b j) base) None)).
Proof.
  intros H. apply multi_project; [apply init_distinct|now apply init_nth|reflexivity].
Qed.

Lemma length_replace {A} (l : list A) i x : i < length l -> length (firstn i l ++ x :: skipn (S i) l) = length l.
Proof.
  intros H. rewrite app_length, firstn_length. cbn [List.length]. rewrite skipn_length. lia.
Qed.

Lemma mapM_ok_inv {A B} (f : A -> result B) l ys : mapM f l = Ok ys -> Forall2 (fun x y => f x = Ok y) l ys.
Proof.
  revert ys. induction l as [|x l IH]; simpl; intros ys H; [injection H as <-; constructor|].
  destruct (f x) as [y|] eqn:E; [|discriminate]. simpl in H. destruct (mapM f l) as [zs|]; [|discriminate].
  injection H as <-. constructor; auto.
Qed.

Lemma Forall2_len {A B} (R : A -> B -> Prop) l m : Forall2 R l m -> length l = length m.
Proof. induction 1; simpl; auto. Qed.

Lemma run_multi_length xs : forall w rs, length (snd (snd (run_multi init xs w rs))) = length rs.
Proof.
  induction xs as [|[i x] xs IH]; intros w rs; [reflexivity|]. simpl.
  destruct (nth_error rs i) as [r|] eqn:Hi.
  - rewrite (run_member_step i x w rs r Hi). cbn [fst snd].
    specialize (IH (fst (snd (run_op init x w r))) (firstn i rs ++ snd (snd (run_op init x w r)) :: skipn (S i) rs)).
    destruct (run_multi _ _ _ _) as [ys wr]. cbn [fst snd] in *. rewrite IH.
    apply length_replace. apply nth_error_Some; congruence.
  - rewrite (run_member_out i x w rs Hi). cbn [fst snd]. specialize (IH w rs).
    destruct (run_multi _ _ _ _) as [ys wr]. exact IH.
Qed.

(** get() of all members: one state per member, in index order, each being what
    reading that member alone gives *)
Theorem get_all_spec size base w xs ss :
  let wr := snd (run_multi init xs w (init_multi size base)) in
  get_all init (fst wr) (snd wr) = Ok ss ->
  length ss = size /\
  forall j s, nth_error ss j = Some s ->
    run_member init j (Get None) (fst wr) (snd wr) = (Got s, wr).
Proof.
  intros wr H. unfold get_all in H.
  assert (Ln : length (snd wr) = size).
  { unfold wr. rewrite run_multi_length. unfold init_multi. now rewrite map_length, seq_length. }
  apply mapM_ok_inv in H.
  assert (F : Forall2 (fun r s => fst (get init None None (fst wr) r) = Ok s) (snd wr) ss) by exact H.
  split; [rewrite <- Ln; symmetry; eapply Forall2_len; exact F|].
  intros j s Hj. clear H Ln.
  assert (X : exists r, nth_error (snd wr) j = Some r /\ fst (get init None None (fst wr) r) = Ok s).
  { clear -F Hj. revert j Hj. induction F as [|r t rs ss Hr F IH]; intros [|j] Hj; simpl in *; try discriminate.
    - injection Hj as <-. eauto.
    - now apply IH. }
  destruct X as (r & Hr & G). unfold run_member. rewrite Hr.
  assert (GR : get init None None (fst wr) r = (Ok s, r)).
  { unfold get, place, restore in *. destruct (r_dir r) as [d|].
    - simpl in G. now rewrite G.
    - destruct (r_mem r); simpl in *; congruence. }
  unfold run_op. rewrite GR. cbn [fst snd]. destruct wr as [w1 rs1]. cbn [fst snd] in *. f_equal. f_equal.
  rewrite <- (firstn_skipn j rs1) at 3. f_equal.
  clear -Hr. revert j Hr. induction rs1 as [|a rs1 IH]; intros [|j] Hr; simpl in *; try discriminate; [congruence|auto].
Qed.
End Multi.

(** ---- SGMCMC partial parameters ---- *)
Section SG.
Context {V O : Type} (init : O -> tree V -> V).
Notation state := (state V O).

Lemma set_paths_reads allow pos (d d' : tree V) : set_paths allow d pos = Ok d' ->
  all_independent (map fst pos) ->
  Forall (fun po => at_path d' (fst po) = Some (snd po)) pos.
Proof.
  revert d. induction pos as [|[p o] pos IH]; intros d H I; simpl in *; [constructor|].
  inversion I as [|? ? I1 I2]; subst.
  destruct (set_path allow d p o) as [d1|] eqn:E; [|discriminate]. simpl in H.
  constructor; [|eapply IH; eassumption]. simpl.
  pose proof (set_read_same _ _ _ _ _ [] E) as R. rewrite app_nil_r in R. simpl in R. rewrite <- R.
  eapply read_after_untouched.
  - apply (set_paths_read allow pos d1 d' p H). rewrite Forall_forall in I1 |- *.
    intros x Hx r Nr Er. destruct (I1 (fst x)) as (A & B); [apply in_map, Hx|]. apply A. now exists r.
  - rewrite Forall_forall in I1 |- *. intros x Hx. destruct (I1 (fst x)) as (A & B); [apply in_map, Hx|]. exact B.
Qed.

Lemma set_paths_allow_total pos (d : tree V) : all_independent (map fst pos) -> Forall (fun po => fst po <> []) pos ->
  Forall (fun po => no_leaf_before d (fst po)) pos -> exists d', set_paths true d pos = Ok d'.
Proof.
  revert d. induction pos as [|[p o] pos IH]; intros d I NE NL; simpl; [eauto|].
  inversion I as [|? ? I1 I2]; subst. inversion NE as [|? ? N1 N2]; subst. inversion NL as [|? ? L1 L2]; subst.
  simpl in *. destruct (set_allow_ok d p o N1 L1) as (d1 & E). rewrite E. simpl. apply IH; auto.
  rewrite Forall_forall in *. intros x Hx. eapply no_leaf_after; [exact E| |now apply L2]. apply I1, in_map, Hx.
Qed.

Lemma mapM_nested_get (d : tree V) paths : Forall (fun p => p <> []) paths ->
  Forall (fun p => at_path d p <> None) paths ->
  exists objs, mapM (nested_get d) paths = Ok objs /\
    Forall2 (fun p o => at_path d p = Some o) paths objs.
Proof.
  induction paths as [|p paths IH]; intros N E; [exists []; split; [reflexivity|constructor]|].
  inversion N as [|? ? N1 N2]; subst. inversion E as [|? ? E1 E2]; subst.
  destruct (IH N2 E2) as (objs & M & F). destruct (at_path d p) as [o|] eqn:Ep; [|congruence].
  assert (G : nested_get d p = Ok o) by now apply nested_get_spec.
  exists (o :: objs). split; [|now constructor]. simpl. rewrite G. simpl. now rewrite M.
Qed.


(** put then get of one member *)
Lemma sg_round (all_params : tree V) paths (s : state) :
  all_independent paths -> Forall (fun p => p <> []) paths ->
  Forall (fun p => at_path (s_params s) p <> None) paths ->
  Forall (fun p => at_path all_params p <> None) paths ->
  exists sub, update_state all_params (Some paths) s Remove = Ok (replace s [VParams sub]) /\
   forall s2 : state, s_params s2 = sub ->
    exists back, update_state all_params (Some paths) s2 Add = Ok (replace s2 [VParams back]) /\
      (forall p q, In p paths -> at_path back (p ++ q) = at_path (s_params s) (p ++ q)) /\
      (forall q, Forall (fun p => independent p q) paths -> at_path back q = at_path all_params q) /\
      (forall q p r, In p paths -> p = q ++ r -> r <> [] -> exists kvs, at_path back q = Some (Dict kvs)).
Proof.
  intros I NE Es Ea.
  destruct (mapM_nested_get _ _ NE Es) as (objs & M & F). pose proof (Forall2_len _ _ _ F) as L.
  pose proof (combine_fst paths objs L) as C.
  assert (I' : all_independent (map fst (combine paths objs))) by now rewrite C.
  assert (NE' : Forall (fun po : path * tree V => fst po <> []) (combine paths objs))
    by (rewrite <- C in NE; rewrite Forall_map in NE; exact NE).
  destruct (set_paths_allow_total (combine paths objs) (Dict []) I' NE') as (sub & S).
  { apply Forall_forall. intros x Hx q r v Eq Nr. destruct q; simpl; discriminate. }
  exists sub. split.
  { unfold update_state, nested_set. rewrite M. cbn [bind]. rewrite L, Nat.eqb_refl. cbn [negb]. rewrite S.
    destruct s; reflexivity. }
  intros s2 Es2.
  pose proof (set_paths_reads true _ _ _ S I') as RS.
  assert (M2 : mapM (nested_get sub) paths = Ok objs).
  { clear -RS L NE C. revert objs L RS C. induction paths as [|p paths IH]; intros [|o objs] L RS C; try discriminate; [reflexivity|].
    simpl in *. inversion RS as [|? ? R1 R2]; subst. inversion NE as [|? ? N1 N2]; subst. simpl in R1.
    assert (G : nested_get sub p = Ok o) by (apply nested_get_spec; assumption).
    rewrite G. simpl. rewrite (IH N2 objs); auto. now injection C. }
  assert (X : exists back, set_paths false all_params (combine paths objs) = Ok back).
  { apply set_paths_ok; auto. rewrite <- C in Ea. rewrite Forall_map in Ea. exact Ea. }
  destruct X as (back & B). exists back. split.
  { unfold update_state, nested_set. rewrite Es2, M2. cbn [bind]. rewrite L, Nat.eqb_refl. cbn [negb]. now rewrite B. }
  pose proof (set_paths_reads false _ _ _ B I') as RB.
  split; [|split].
  - intros p q Hp.
    assert (Y : exists o, In (p, o) (combine paths objs) /\ at_path (s_params s) p = Some o).
    { clear -F Hp. induction F as [|p' o' ps os H F IH]; [contradiction|]. destruct Hp as [<-|Hp].
      - exists o'. split; [now left|assumption].
      - destruct (IH Hp) as (o & A1 & A2). exists o. split; [now right|assumption]. }
    destruct Y as (o & Hin & As). rewrite Forall_forall in RB. specialize (RB _ Hin). simpl in RB.
    now rewrite !at_app, RB, As.
  - intros q Fq. eapply read_after_untouched.
    + apply (set_paths_read false _ _ _ q B). apply Forall_forall. intros [p o] Hin r Nr Er.
      apply in_combine_l in Hin. rewrite Forall_forall in Fq. destruct (Fq p Hin) as (A1 & A2). apply A2. now exists r.
    + apply Forall_forall. intros [p o] Hin. apply in_combine_l in Hin. rewrite Forall_forall in Fq. now apply Fq.
  - intros q p r Hp -> Nr.
    assert (Y : exists o, at_path back (q ++ r) = Some o).
    { assert (Z : exists o, In (q ++ r, o) (combine paths objs)).
      { clear -F Hp. induction F as [|p' o' ps os H F IH]; [contradiction|]. destruct Hp as [<-|Hp].
        - exists o'. now left.
        - destruct (IH Hp) as (o & A1). exists o. now right. }
      destruct Z as (o & Hin). rewrite Forall_forall in RB. exists o. exact (RB _ Hin). }
    destruct Y as (o & Y). rewrite at_app in Y. destruct (at_path back q) as [[v|kvs]|]; [|eauto|discriminate].
    destruct r; [congruence|discriminate].
Qed.

Lemma params_replace (s : state) p : s_params (replace s [VParams p]) = p.
Proof. now destruct s. Qed.

Theorem sg_put_get (all_params : tree V) paths i (s : state) keep w rs r :
  all_independent paths -> Forall (fun p => p <> []) paths ->
  Forall (fun p => at_path (s_params s) p <> None) paths ->
  Forall (fun p => at_path all_params p <> None) paths ->
  nth_error rs i = Some r -> (forall d, r_dir r = Some d -> sorted (dir_files d w)) ->
  exists back, 
    let wr := snd (sg_put init all_params (Some paths) i s keep w rs) in
    fst (sg_put init all_params (Some paths) i s keep w rs) = Done /\
    (match r_dir r with
     | None => sg_get init all_params (Some paths) i None (fst wr) (snd wr) = Ok (replace s [VParams back])
     | Some _ => sg_get init all_params (Some paths) i None (fst wr) (snd wr) = Ok (on_disk init (replace s [VParams back]) None)
     end) /\
    (forall p q, In p paths -> at_path back (p ++ q) = at_path (s_params s) (p ++ q)) /\
    (forall q, Forall (fun p => independent p q) paths -> at_path back q = at_path all_params q) /\
    (forall q p r, In p paths -> p = q ++ r -> r <> [] -> exists kvs, at_path back q = Some (Dict kvs)).
Proof.
  intros I NE Es Ea Hi So.
  destruct (sg_round all_params paths s I NE Es Ea) as (sub & U & Hadd).
  unfold sg_put. rewrite U. rewrite (run_member_step init i _ w rs r Hi). cbn [fst snd].
  assert (Li : i < length rs) by (apply nth_error_Some; congruence).
  set (s1 := replace s [VParams sub]) in *.
  assert (P1 : s_params s1 = sub) by apply params_replace.
  unfold sg_get, run_member. rewrite nth_replace, Nat.eqb_refl by assumption.
  unfold run_op, put, put_actions, place. destruct (r_dir r) as [d|] eqn:D.
  - cbn [fst snd]. unfold get, place, restore. rewrite D.
    rewrite save_files by auto.
    assert (Lt : latest (skipn (to_drop keep (length (below (s_step s1) (dir_files d w) ++ [(s_step s1, to_file s1)])))
                   (below (s_step s1) (dir_files d w) ++ [(s_step s1, to_file s1)])) = Some (s_step s1, to_file s1)).
    { apply latest_skip. rewrite app_length. simpl length. rewrite Nat.add_1_r. apply to_drop_lt. }
    rewrite Lt. cbv iota beta.
    destruct (Hadd (from_file init (s_step s1) (to_file s1) None)) as (back & B & H1 & H2 & H3); [exact P1|].
    exists back. split; [reflexivity|]. split; [|auto]. rewrite B. unfold s1. now destruct s.
  - cbn [fst snd]. unfold get, place. cbn [r_dir r_mem]. rewrite ?D.
    destruct (Hadd s1 P1) as (back & B & H1 & H2 & H3).
    exists back. split; [reflexivity|]. split; [|auto]. rewrite B. unfold s1. now destruct s.
Qed.

(** a sample that agrees with the shared parameters elsewhere comes back leaf by leaf *)
Theorem sg_same_leaves (all_params : tree V) paths (P back : tree V) :
  Forall (fun p => at_path P p <> None) paths ->
  (forall p q, In p paths -> at_path back (p ++ q) = at_path P (p ++ q)) ->
  (forall q, Forall (fun p => independent p q) paths -> at_path back q = at_path all_params q) ->
  (forall q p r, In p paths -> p = q ++ r -> r <> [] -> exists kvs, at_path back q = Some (Dict kvs)) ->
  (forall q, Forall (fun p => independent p q) paths -> at_path P q = at_path all_params q) ->
  forall q v, at_path back q = Some (Leaf v) <-> at_path P q = Some (Leaf v).
Proof.
  intros Ex H1 H2 H3 Agree q v.
  destruct (Forall_dec (fun p => independent p q) (fun p => 
     match prefix_dec p q, prefix_dec q p with
     | left a, _ => right (fun h => proj1 h a)
     | _, left a => right (fun h => proj2 h a)
     | right a, right b => left (conj a b) end) paths) as [F|NF].
  - rewrite H2, Agree by assumption. reflexivity.
  - assert (X : exists p, In p paths /\ ~ independent p q).
    { clear -NF. induction paths as [|p ps IH]; [exfalso; apply NF; constructor|].
      destruct (prefix_dec p q) as [a|a]; [exists p; split; [now left|intros (B & _); contradiction]|].
      destruct (prefix_dec q p) as [b|b]; [exists p; split; [now left|intros (_ & B); contradiction]|].
      destruct IH as (p' & A & B); [intros F; apply NF; constructor; [split; assumption|exact F]|].
      exists p'. split; [now right|exact B]. }
    destruct X as (p & Hp & NI).
    destruct (prefix_dec p q) as [(r & ->)|a]; [now rewrite H1|].
    destruct (prefix_dec q p) as [(r & E)|b]; [|exfalso; apply NI; split; assumption].
    destruct r as [|x r]; [exfalso; apply a; exists []; now rewrite E, !app_nil_r|].
    destruct (H3 q p (x :: r) Hp E) as (kvs & K); [discriminate|].
    rewrite Forall_forall in Ex. specialize (Ex p Hp). rewrite E, at_app in Ex.
    rewrite K. split; [discriminate|]. intros Y. rewrite Y in Ex. simpl in Ex. congruence.
Qed.
End SG.
