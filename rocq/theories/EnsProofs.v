(** Proofs about ensembles with frozen parameters after a preliminary run. *)
From Coq Require Import List Arith Lia Bool String.
From Verif Require Import Lib NestedModel NestedSpec NestedProofs NestedProofs2 FreezeModel FreezeSpec FreezeProofs EnsModel EnsSpec.
Import ListNotations.
Open Scope list_scope.
Local Notation length := List.length.

Lemma st_refl {V} (t : tree V) : same_structure t t.
Proof. intros q. destruct (at_path t q) as [[?|?]|]; exact I. Qed.
Lemma st_trans {V} (a b c : tree V) : same_structure a b -> same_structure b c -> same_structure a c.
Proof. intros H K q. specialize (H q). specialize (K q). destruct (at_path a q) as [[?|?]|], (at_path b q) as [[?|?]|], (at_path c q) as [[?|?]|]; auto. Qed.

(** ---- the parameters a member starts from ---- *)
Section Start.
Context {V : Type}.
Variable f : path -> V -> string.
Hypothesis BP : by_path f.

Lemma init_member_paths t random st : parameters t -> same_structure t random -> labelled f t -> init_member t random f = Ok st ->
  unique_keys st /\ (forall q v, leaf_at st q v -> exists w, leaf_at t q w).
Proof.
  intros [U D] SS Lab H. unfold init_member, get_trainable_paths in H. rewrite paths_ok in H by assumption. cbn [bind] in H.
  pose proof (sel_leaf_paths f t "trainable" U D) as L.
  set (sel := map fst (filter (fun pv => String.eqb (f (fst pv) (snd pv)) "trainable") (leaves t))) in *.
  destruct L as [ND F].
  destruct (mapM_get_any random sel) as (objs & E & Ln & A).
  { rewrite Forall_forall in *. intros p Hp. destruct (F p Hp) as [N [v Hv]]. split; [exact N|].
    specialize (SS p). rewrite Hv in SS. destruct (at_path random p); [discriminate|contradiction]. }
  rewrite E in H. cbn [bind] in H.
  destruct (member_init f t random U D SS Lab) as (st' & HS' & _ & TR). unfold init_member, get_trainable_paths in HS'. rewrite paths_ok in HS' by assumption.
  cbn [bind] in HS'. fold sel in HS'. rewrite E in HS'. cbn [bind] in HS'. rewrite H in HS'. injection HS' as <-.
  assert (LS : forall p, In p sel -> exists w, at_path st p = Some (Leaf w)).
  { intros p Hp. rewrite Forall_forall in F. destruct (F p Hp) as [_ [v Hv]].
    destruct (TR p v Hv) as [w [_ Hw]]; [apply (sel_in f t "trainable" p v U Hv); exact Hp|]. eauto. }
  split.
  - unfold nested_set in H. destruct (negb (List.length sel =? List.length objs)); [discriminate|].
    eapply set_paths_unique; [|exact U|exact H]. rewrite Forall_forall in *. intros [p o] Hin. cbn [snd].
    pose proof (A _ Hin) as Ho. cbn [fst snd] in Ho. apply in_combine_l in Hin. destruct (F p Hin) as [_ [v Hv]].
    specialize (SS p). rewrite Hv, Ho in SS. destruct o; [exact I|contradiction].
  - intros q v Hq. destruct (Forall_Exists_dec (fun p => independent p q)) with (l := sel) as [FI|EX].
    { intros p. unfold independent. assert (Dp : forall a b : path, {prefix_of a b} + {~ prefix_of a b}).
      { induction a as [|x a IH]; intros b; [left; exists b; reflexivity|]. destruct b as [|y b]; [right; intros [r E0]; discriminate|].
        destruct (string_dec x y) as [->|N]; [|right; intros [r E0]; injection E0; congruence].
        destruct (IH b) as [Y|N]; [left; destruct Y as [r ->]; exists r; reflexivity|right; intros [r E0]; apply N; injection E0; eauto]. intros ->. exists r. reflexivity. }
      destruct (Dp p q); [right; tauto|]. destruct (Dp q p); [right; tauto|left; tauto]. }
    + unfold leaf_at in Hq. rewrite (nested_set_other false sel objs t st q H FI) in Hq. eauto.
    + apply Exists_exists in EX. destruct EX as (p & Hp & NI). destruct (LS p Hp) as [w Hw]. rewrite Forall_forall in F. destruct (F p Hp) as [_ [v0 Hv0]].
      unfold leaf_at in Hq. assert (q = p); [|subst; eauto].
      destruct (list_eq_dec string_dec q p) as [e|ne]; [exact e|]. exfalso. apply NI. split; intros [r Er]; subst.
      * rewrite at_app, Hw in Hq. destruct r as [|x r]; [|discriminate]. rewrite app_nil_r in ne. congruence.
      * rewrite at_app, Hq in Hw. destruct r as [|x r]; [|discriminate]. rewrite app_nil_r in ne. congruence.
Qed.
Lemma init_member_spec t random st : parameters t -> same_structure t random -> labelled f t -> init_member t random f = Ok st ->
  parameters st /\ labelled f st /\
  (forall q v, leaf_at st q v /\ f q v = "frozen"%string <-> leaf_at t q v /\ f q v = "frozen"%string) /\
  (forall q v, leaf_at st q v /\ f q v = "trainable"%string <-> leaf_at random q v /\ f q v = "trainable"%string).
Proof.
  intros P SS Lab H. destruct (init_member_paths t random st P SS Lab H) as [Us Src]. destruct P as [U D].
  destruct (member_init f t random U D SS Lab) as (st' & HS' & FR & TR). rewrite H in HS'. injection HS' as <-.
  split.
  { split; [exact Us|]. destruct st as [v|kvs]; [|eauto]. exfalso. destruct (Src [] v) as [w Hw]; [reflexivity|]. destruct D as [kvs ->]. discriminate. }
  split. { intros q v Hq. destruct (Src q v Hq) as [w Hw]. rewrite (BP q v w). exact (Lab q w Hw). }
  split; intros q v; split; intros [A Fq].
  - destruct (Src q v A) as [w Hw]. split; [|exact Fq]. assert (X : leaf_at st q w) by (apply FR; [exact Hw|rewrite (BP q w v); exact Fq]).
    unfold leaf_at in *. rewrite A in X. injection X as <-. exact Hw.
  - split; [|exact Fq]. apply FR; assumption.
  - destruct (Src q v A) as [w Hw]. split; [|exact Fq]. destruct (TR q w Hw) as [x [X1 X2]]; [rewrite (BP q w v); exact Fq|].
    unfold leaf_at in *. rewrite A in X2. injection X2 as <-. exact X1.
  - split; [|exact Fq]. pose proof (SS q) as S. unfold leaf_at in A. rewrite A in S. destruct (at_path t q) as [[w|?]|] eqn:E; [|contradiction|contradiction].
    destruct (TR q w E) as [x [X1 X2]]; [rewrite (BP q w v); exact Fq|]. unfold leaf_at in X1. rewrite A in X1. injection X1 as <-. exact X2.
Qed.
End Start.

Section Ens.
Context {V M C B O OS L : Type}.
Variable o_init : O -> tree V -> OS.
Variable o_update : O -> tree V -> OS -> tree V -> result (tree V * OS).
Variable loss : nat -> tree V -> option M -> C -> B -> nat -> L * option M.
Variable diff : (tree V -> L) -> tree V -> tree V.
Variable gadd : tree V -> tree V -> result (tree V).
Variable gdiv : nat -> tree V -> tree V.
Variable zeros : tree V -> tree V.
Notation tstate := (tstate V M C O OS).
Notation step := (train_step o_update loss diff gadd gdiv zeros).
Notation run := (train_run o_update loss diff gadd gdiv zeros).
Notation mapfit := (map_fit o_init o_update loss diff gadd gdiv zeros).
Notation ensemble := (ensemble_fit o_init o_update loss diff gadd gdiv zeros).
Notation member := (member_fit o_init o_update loss diff gadd gdiv zeros).
Notation frzopt := (freeze_optimizer_in_state o_init).

(** ---- what steps keep ---- *)
Lemma step_kept cfg r fr (s : tstate) b s' : step cfg r fr s b = Ok s' -> t_tx s' = t_tx s /\ t_calib s' = t_calib s /\ t_tx s <> None.
Proof.
  unfold train_step. set (g := diff _ _). set (m := snd _). intros H.
  assert (A : forall g m acc s', apply_gradients o_update g m acc s = Ok s' -> t_tx s' = t_tx s /\ t_calib s' = t_calib s /\ t_tx s <> None).
  { unfold apply_gradients. intros g0 m0 acc s0 H0. destruct (t_tx s) as [o|] eqn:E; [|discriminate]. destruct (o_update o g0 (t_opt s) (t_params s)) as [[p os]|]; [|discriminate].
    cbn [bind] in H0. injection H0 as <-. cbn. split; [reflexivity|]. split; [reflexivity|discriminate]. }
  destruct (1 <? fc_accumulation cfg); [|exact (A _ _ _ _ H)].
  destruct (match t_grad s with Some a => gadd g a | None => Ok g end) as [acc|]; [|discriminate]. cbn [bind] in H.
  destruct (apply_gradients o_update _ _ _ s) as [u|] eqn:E; [|discriminate]. cbn [bind] in H. destruct (A _ _ _ _ E) as (_ & _ & N).
  destruct (_ =? 0); injection H as <-; [exact (A _ _ _ _ E)|]. cbn. auto.
Qed.
Lemma steps_kept cfg r fr bs : forall s s', foldM (step cfg r fr) bs s = Ok s' -> t_tx s' = t_tx s /\ t_calib s' = t_calib s.
Proof.
  induction bs as [|b bs IH]; intros s s' H; cbn [foldM] in H; [injection H as <-; auto|].
  destruct (step cfg r fr s b) as [s1|] eqn:E; [|discriminate]. cbn [bind] in H. destruct (IH _ _ H) as [A1 A2]. destruct (step_kept _ _ _ _ _ _ E) as (B1 & B2 & _). split; congruence.
Qed.
Lemma run_kept cfg r bs s s' : run cfg r bs s = Ok s' -> t_tx s' = t_tx s /\ t_calib s' = t_calib s.
Proof.
  unfold train_run. destruct (fc_freeze cfg) as [f|]; [|apply steps_kept]. destruct (on_train_start (t_params s) f) as [[fr tr]|]; [|discriminate]. cbn [bind].
  destruct (foldM _ bs _) as [s1|] eqn:E; [|discriminate]. cbn [bind]. intros H. injection H as <-. apply steps_kept in E. exact E.
Qed.
Lemma frzopt_kept cfg (s s' : tstate) : frzopt cfg s = Ok s' -> t_tx s' = t_tx s /\ t_calib s' = t_calib s /\ t_step s' = t_step s /\ t_params s' = t_params s /\ t_mutable s' = t_mutable s /\ t_grad s' = t_grad s.
Proof.
  unfold freeze_optimizer_in_state. destruct (fc_freeze cfg) as [f|]; [|intros H; injection H as <-; auto 6]. destruct (get_trainable_paths (t_params s) (Some f)) as [tp|]; [|discriminate]. cbn [bind].
  destruct (extract (t_params s) tp) as [tr|]; [|discriminate]. cbn [bind]. intros H. injection H as <-. cbn. auto 6.
Qed.
Lemma map_kept cfg r bs x s : mapfit cfg r bs x = Ok s -> t_tx s = Some (fc_method cfg) /\ t_calib s = st_calib x.
Proof.
  unfold map_fit. destruct (frzopt cfg (fresh_state o_init (fc_method cfg) x)) as [s0|] eqn:E; [|discriminate]. cbn [bind]. intros H. apply run_kept in H. apply frzopt_kept in E. cbn in E. destruct E as (E1 & E2 & _). destruct H. split; congruence.
Qed.

(** ---- steps without accumulation are descent ---- *)
Definition at_point (s : tstate) : @point V M OS := (t_step s, t_params s, t_opt s, t_mutable s).
Lemma steps_descent cfg r fr bs : fc_accumulation cfg <= 1 -> forall s s' o, t_tx s = Some o -> foldM (step cfg r fr) bs s = Ok s' ->
  descent (o_update o) (fc_clip cfg) diff (fun p m b n => loss r (all_params fr p) m (t_calib s) b n) bs (at_point s) (at_point s') /\ t_grad s' = t_grad s.
Proof.
  intros K. induction bs as [|b bs IH]; intros s s' o T H; cbn [foldM] in H; [injection H as <-; split; [constructor|reflexivity]|].
  destruct (step cfg r fr s b) as [s1|] eqn:E; [|discriminate]. cbn [bind] in H. pose proof (step_kept _ _ _ _ _ _ E) as (K1 & K2 & _).
  unfold train_step in E. destruct (1 <? fc_accumulation cfg) eqn:K0; [apply Nat.ltb_lt in K0; lia|].
  unfold apply_gradients in E. rewrite T in E. match type of E with bind ?u _ = _ => destruct u as [[p os]|] eqn:Eu; [|discriminate] end. cbn [bind] in E. injection E as <-. cbn [t_tx t_calib] in *.
  match type of H with foldM _ _ ?s1 = _ => destruct (IH s1 s' o eq_refl H) as [D G] end. cbn [t_calib t_grad] in D, G. split; [|exact G]. unfold at_point at 1. econstructor; [exact Eu|exact D].
Qed.
Lemma descent_structure upd clip (obj : tree V -> option M -> B -> nat -> L * option M) bs : keeps_structure upd -> forall s s' : @point V M OS, descent upd clip diff obj bs s s' -> unique_keys (snd (fst (fst s))) ->
  unique_keys (snd (fst (fst s'))) /\ same_structure (snd (fst (fst s))) (snd (fst (fst s'))).
Proof.
  intros K s s' H. induction H as [s|b bs n p os m p' os' s E H IH]; intros U; [split; [exact U|apply st_refl]|]. cbn [fst snd] in *.
  destruct (K _ _ _ _ _ E U) as [U1 S1]. destruct (IH U1) as [U2 S2]. split; [exact U2|]. eapply st_trans; [exact S1|exact S2].
Qed.

(** ---- one frozen run ---- *)
Lemma frozen_run cfg f r bs (s0 s1 s' : tstate) o : fc_freeze cfg = Some f -> by_path f -> fc_accumulation cfg <= 1 -> t_tx s0 = Some o -> keeps_structure (o_update o) -> parameters (t_params s0) ->
  frzopt cfg s0 = Ok s1 -> run cfg r bs s1 = Ok s' ->
  exists fr tr tr', (forall q v, leaf_at fr q v <-> leaf_at (t_params s0) q v /\ f q v = "frozen"%string) /\
    (forall q v, leaf_at tr q v <-> leaf_at (t_params s0) q v /\ f q v = "trainable"%string) /\
    descent (o_update o) (fc_clip cfg) diff (fun p m b n => loss r (get_all_params fr p) m (t_calib s0) b n) bs
      (t_step s0, tr, o_init (fc_method cfg) tr, t_mutable s0) (t_step s', tr', t_opt s', t_mutable s') /\
    t_params s' = get_all_params fr tr' /\ t_calib s' = t_calib s0 /\
    (forall q v, leaf_at (t_params s0) q v -> f q v = "frozen"%string -> leaf_at (t_params s') q v) /\
    (forall q v, leaf_at (t_params s0) q v -> f q v = "trainable"%string -> exists w, leaf_at tr' q w /\ leaf_at (t_params s') q w).
Proof.
  intros FF BP K T KS [U D] E1 E2. unfold freeze_optimizer_in_state in E1. rewrite FF in E1. unfold train_run in E2. rewrite FF in E2.
  destruct (get_trainable_paths (t_params s0) (Some f)) as [tp|] eqn:Etp; [|discriminate]. cbn [bind] in E1.
  destruct (extract (t_params s0) tp) as [tr|] eqn:Etr; [|discriminate]. cbn [bind] in E1. injection E1 as <-.
  cbn [t_params with_opt] in E2. destruct (on_train_start (t_params s0) f) as [[fr tr0]|] eqn:Es; [|discriminate]. cbn [bind] in E2.
  assert (tr0 = tr).
  { pose proof Es as Es'. unfold on_train_start in Es'. destruct (get_frozen_paths _ _) as [fp|]; [|discriminate]. cbn [bind] in Es'. rewrite Etp in Es'. cbn [bind] in Es'.
    destruct (extract (t_params s0) fp) as [fr'|]; [|discriminate]. cbn [bind] in Es'. rewrite Etr in Es'. cbn [bind] in Es'. congruence. }
  subst tr0. destruct (foldM _ bs _) as [s2|] eqn:Ef; [|discriminate]. cbn [bind] in E2. injection E2 as <-.
  destruct (split_spec f (t_params s0) fr tr U D Es) as (Lab & Ufr & Utr & _ & _ & LF & LT & _).
  destruct (steps_descent cfg r (Some fr) bs K (with_params tr (with_opt (o_init (fc_method cfg) tr) s0)) _ o T Ef) as [De _]. destruct (steps_kept _ _ _ _ _ _ Ef) as [_ Kc].
  destruct (descent_structure _ _ _ _ KS _ _ De Utr) as [U2 S2]. cbn [at_point fst snd with_params with_opt t_params t_step t_opt t_mutable t_calib] in *.
  destruct (frozen_never_change f (t_params s0) fr tr (t_params s2) U D Es U2 S2) as (A1 & A2 & _).
  exists fr, tr, (t_params s2). split; [exact LF|]. split; [exact LT|]. split; [exact De|]. split; [reflexivity|]. split; [exact Kc|]. split; [exact A1|exact A2].
Qed.

Lemma mapM_nth {A R} (g : A -> result R) l rs : mapM g l = Ok rs -> length rs = length l /\ forall i a, nth_error l i = Some a -> exists x, g a = Ok x /\ nth_error rs i = Some x.
Proof.
  revert rs. induction l as [|a l IH]; intros rs H; cbn [mapM] in H; [injection H as <-; split; [reflexivity|intros [|?] a Ha; discriminate]|].
  destruct (g a) as [x|] eqn:E; [|discriminate]. cbn [bind] in H. destruct (mapM g l) as [xs|] eqn:El; [|discriminate]. cbn [bind] in H. injection H as <-.
  destruct (IH xs eq_refl) as [L1 N]. split; [cbn; lia|]. intros [|i] a' Ha; cbn in *; [injection Ha as <-; eauto|apply N; exact Ha].
Qed.
Lemma nth_seq0 n j : j < n -> nth_error (seq 0 n) j = Some j.
Proof. intros H. rewrite (nth_error_nth' _ 0) by (rewrite seq_length; exact H). rewrite seq_nth by exact H. reflexivity. Qed.

Theorem frozen_members cfg p f random passes size ms : fc_freeze cfg = Some f -> by_path f -> fc_accumulation cfg <= 1 -> pr_dumped p = false -> keeps_structure (o_update (fc_method (pr_cfg p))) ->
  ensemble cfg (Some p) random passes size = Ok ms ->
  exists mst, mapfit (pr_cfg p) 0 (pr_batches p) (random 0) = Ok mst /\ length ms = size /\
  (parameters (t_params mst) -> labelled f (t_params mst) -> forall j, j < size -> same_structure (t_params mst) (st_params (random (S j))) ->
   exists s fr tr tr', nth_error ms j = Some s /\
    (forall q v, leaf_at fr q v <-> leaf_at (t_params mst) q v /\ f q v = "frozen"%string) /\
    (forall q v, leaf_at tr q v <-> leaf_at (st_params (random (S j))) q v /\ f q v = "trainable"%string) /\
    descent (o_update (fc_method (pr_cfg p))) (fc_clip cfg) diff (fun ps m b n => loss (S j) (get_all_params fr ps) m (st_calib (random 0)) b n) (passes j)
      (t_step mst, tr, o_init (fc_method cfg) tr, t_mutable mst) (t_step s, tr', t_opt s, t_mutable s) /\
    t_params s = get_all_params fr tr' /\
    (forall q v, leaf_at (t_params mst) q v -> f q v = "frozen"%string -> leaf_at (t_params s) q v) /\
    (forall q v, leaf_at (t_params mst) q v -> f q v = "trainable"%string -> exists w, leaf_at tr' q w /\ leaf_at (t_params s) q w)).
Proof.
  intros FF BP K ND KS H. unfold ensemble_fit, run_preliminary in H. rewrite FF in H. destruct (mapfit (pr_cfg p) 0 (pr_batches p) (random 0)) as [mst|] eqn:Em; [|discriminate].
  cbn [rmap bind] in H. rewrite ND in H. cbn [read_back] in H. exists mst. split; [reflexivity|]. destruct (mapM_nth _ _ _ H) as [Ln N]. rewrite seq_length in Ln. split; [exact Ln|].
  intros P Lab j Hj SS. destruct (N j j (nth_seq0 size j Hj)) as (s & Es & En). unfold runs_before in Es. rewrite FF in Es. cbn [Nat.add] in Es. cbv zeta in Es.
  unfold member_fit, init_map_state in Es. rewrite FF in Es. destruct (init_member (t_params mst) (st_params (random (S j))) f) as [st|] eqn:Ei; [|discriminate]. cbn [bind] in Es.
  destruct (frzopt cfg (with_params st mst)) as [s1|] eqn:Ez; [|discriminate]. cbn [bind] in Es. destruct (init_member_spec f BP _ _ _ P SS Lab Ei) as (Ps & Ls & L1 & L2).
  destruct (map_kept _ _ _ _ _ Em) as [Tm Cm].
  destruct (frozen_run cfg f (S j) (passes j) (with_params st mst) s1 s (fc_method (pr_cfg p)) FF BP K Tm KS Ps Ez Es) as (fr & tr & tr' & F1 & F2 & De & F3 & F4 & F5 & F6). cbn [with_params t_params t_step t_mutable t_calib] in *. rewrite Cm in De.
  exists s, fr, tr, tr'. split; [exact En|]. split; [intros q v; rewrite F1; apply L1|]. split; [intros q v; rewrite F2; apply L2|]. split; [exact De|]. split; [exact F3|]. split.
  - intros q v Hq Hf. apply F5; [|exact Hf]. apply (proj2 (L1 q v)). split; assumption.
  - intros q v Hq Hf. pose proof (SS q) as Sq. unfold leaf_at in Hq. rewrite Hq in Sq. destruct (at_path (st_params (random (S j))) q) as [[w|?]|] eqn:E; [|contradiction|contradiction].
    assert (Fw : f q w = "trainable"%string) by (rewrite (BP q w v); exact Hf). apply (F6 q w); [|exact Fw]. apply (proj2 (L2 q w)). split; [exact E|exact Fw].
Qed.

(** the optimizer of the configuration plays no role except for its initial state *)
Theorem optimizer_ignored cfg m p f random passes size : fc_freeze cfg = Some f -> (forall t, o_init m t = o_init (fc_method cfg) t) ->
  ensemble {| fc_method := m; fc_freeze := fc_freeze cfg; fc_accumulation := fc_accumulation cfg; fc_clip := fc_clip cfg |} (Some p) random passes size = ensemble cfg (Some p) random passes size.
Proof.
  intros FF I. unfold ensemble_fit, run_preliminary, runs_before. cbn [fc_freeze]. rewrite FF. destruct (rmap _ _) as [mst|] eqn:Em; [|reflexivity]. cbn [bind].
  assert (Some_ : exists s, mst = Some s) by (destruct (mapfit (pr_cfg p) 0 (pr_batches p) (random 0)); cbn in Em; [injection Em as <-; eauto|discriminate]). destruct Some_ as [ms ->].
  induction (seq 0 size) as [|j l IH]; [reflexivity|]. cbn [mapM]. rewrite IH. clear IH. f_equal. unfold member_fit, init_map_state. cbn [fc_freeze]. rewrite FF. destruct (init_member _ _ _) as [st|]; [|reflexivity]. cbn [bind].
  unfold freeze_optimizer_in_state. cbn [fc_freeze fc_method]. rewrite FF. destruct (get_trainable_paths _ _) as [tp|]; [|reflexivity]. cbn [bind]. destruct (extract _ _) as [tr|]; [|reflexivity]. cbn [bind]. rewrite I.
  unfold train_run. cbn [fc_freeze]. rewrite FF. reflexivity.
Qed.

(** without a preliminary run, or without a freeze function *)
Theorem no_freeze_members cfg prelim random passes size : fc_freeze cfg = None ->
  ensemble cfg prelim random passes size = ensemble cfg None random passes size /\
  forall ms, ensemble cfg None random passes size = Ok ms -> fc_accumulation cfg <= 1 -> length ms = size /\
  forall j, j < size -> exists s, nth_error ms j = Some s /\ t_tx s = Some (fc_method cfg) /\
    descent (o_update (fc_method cfg)) (fc_clip cfg) diff (fun ps m b n => loss j ps m (st_calib (random j)) b n) (passes j)
      (0, st_params (random j), o_init (fc_method cfg) (st_params (random j)), st_mutable (random j)) (t_step s, t_params s, t_opt s, t_mutable s).
Proof.
  intros FF. split.
  { unfold ensemble_fit, run_preliminary, runs_before. rewrite FF. destruct prelim; reflexivity. }
  intros ms H K. unfold ensemble_fit, run_preliminary, runs_before in H. cbn [bind] in H. destruct (mapM_nth _ _ _ H) as [Ln N]. rewrite seq_length in Ln. split; [exact Ln|].
  intros j Hj. destruct (N j j (nth_seq0 size j Hj)) as (s & Es & En). cbn [Nat.add] in Es. cbv zeta in Es. exists s. split; [exact En|].
  unfold member_fit, init_map_state in Es. cbn [bind] in Es. unfold freeze_optimizer_in_state in Es. rewrite FF in Es. cbn [bind] in Es. unfold train_run in Es. rewrite FF in Es.
  destruct (steps_descent cfg j None (passes j) K (fresh_state o_init (fc_method cfg) (random j)) _ (fc_method cfg) eq_refl Es) as [De _]. split; [apply steps_kept in Es; exact (proj1 Es)|exact De].
Qed.
Theorem own_members cfg f random passes size ms : fc_freeze cfg = Some f -> by_path f -> fc_accumulation cfg <= 1 -> keeps_structure (o_update (fc_method cfg)) ->
  ensemble cfg None random passes size = Ok ms -> length ms = size /\
  forall j, j < size -> parameters (st_params (random j)) -> exists s fr tr tr', nth_error ms j = Some s /\
    (forall q v, leaf_at fr q v <-> leaf_at (st_params (random j)) q v /\ f q v = "frozen"%string) /\
    (forall q v, leaf_at tr q v <-> leaf_at (st_params (random j)) q v /\ f q v = "trainable"%string) /\
    descent (o_update (fc_method cfg)) (fc_clip cfg) diff (fun ps m b n => loss j (get_all_params fr ps) m (st_calib (random j)) b n) (passes j)
      (0, tr, o_init (fc_method cfg) tr, st_mutable (random j)) (t_step s, tr', t_opt s, t_mutable s) /\
    t_params s = get_all_params fr tr' /\
    (forall q v, leaf_at (st_params (random j)) q v -> f q v = "frozen"%string -> leaf_at (t_params s) q v) /\
    (forall q v, leaf_at (st_params (random j)) q v -> f q v = "trainable"%string -> exists w, leaf_at tr' q w /\ leaf_at (t_params s) q w).
Proof.
  intros FF BP K KS H. unfold ensemble_fit, run_preliminary, runs_before in H. cbn [bind] in H. destruct (mapM_nth _ _ _ H) as [Ln N]. rewrite seq_length in Ln. split; [exact Ln|].
  intros j Hj P. destruct (N j j (nth_seq0 size j Hj)) as (s & Es & En). cbn [Nat.add] in Es. cbv zeta in Es. unfold member_fit, init_map_state in Es. cbn [bind] in Es.
  destruct (frzopt cfg (fresh_state o_init (fc_method cfg) (random j))) as [s1|] eqn:Ez; [|discriminate]. cbn [bind] in Es.
  destruct (frozen_run cfg f j (passes j) _ s1 s (fc_method cfg) FF BP K (eq_refl : t_tx (fresh_state o_init (fc_method cfg) (random j)) = _) KS P Ez Es) as (fr & tr & tr' & F1 & F2 & De & F3 & F4 & F5 & F6).
  exists s, fr, tr, tr'. cbn in *. auto 8.
Qed.

(** a smaller ensemble is the beginning of a larger one *)
Lemma mapM_app {A R} (g : A -> result R) l l' rs : mapM g (l ++ l') = Ok rs -> mapM g l = Ok (firstn (length l) rs).
Proof.
  revert rs. induction l as [|a l IH]; intros rs H; [reflexivity|]. cbn [app mapM] in H |- *. destruct (g a) as [x|]; [|discriminate]. cbn [bind] in *.
  destruct (mapM g (l ++ l')) as [xs|]; [|discriminate]. cbn [bind] in H. injection H as <-. rewrite (IH xs eq_refl). reflexivity.
Qed.
Theorem prefixes cfg prelim random passes n k ms : ensemble cfg prelim random passes (n + k) = Ok ms -> ensemble cfg prelim random passes n = Ok (firstn n ms).
Proof.
  unfold ensemble_fit. destruct (run_preliminary _ _ _ _ _ _ _ _ _ _) as [m|]; [|discriminate]. cbn [bind]. rewrite seq_app. intros H. apply mapM_app in H. rewrite seq_length in H. exact H.
Qed.

(** the samplers start with their own integrator *)
Theorem chain_own cfg prelim random s : chain_state o_init o_update loss diff gadd gdiv zeros cfg prelim random = Ok s ->
  t_tx s = Some (fc_method cfg) /\ t_step s = 0 /\ t_grad s = None /\
  (fc_freeze cfg = None -> t_opt s = o_init (fc_method cfg) (t_params s)) /\
  (forall f, fc_freeze cfg = Some f -> parameters (t_params s) -> labelled f (t_params s) ->
     exists tr, (forall q v, leaf_at tr q v <-> leaf_at (t_params s) q v /\ f q v = "trainable"%string) /\ t_opt s = o_init (fc_method cfg) tr).
Proof.
  unfold chain_state. destruct (run_preliminary _ _ _ _ _ _ _ _ _ _) as [m|]; [|discriminate]. cbn [bind]. destruct (init_map_state _ _ _ _) as [s0|]; [|discriminate]. cbn [bind]. intros H.
  pose proof (frzopt_kept _ _ _ H) as (K1 & K2 & K3 & K4 & K5 & K6). cbn in K1, K3, K4, K6. split; [exact K1|]. split; [exact K3|]. split; [exact K6|]. unfold freeze_optimizer_in_state in H. split.
  - intros FF. rewrite FF in H. injection H as <-. reflexivity.
  - intros f FF [U D] Lab. rewrite FF in H. destruct (get_trainable_paths _ _) as [tp|] eqn:Etp; [|discriminate]. cbn [bind] in H. destruct (extract _ _) as [tr|] eqn:Etr; [|discriminate]. cbn [bind] in H. injection H as <-. cbn [with_opt convert_from_map_state fresh_state st_params st_mutable st_calib t_params t_opt] in *.
    exists tr. split; [|reflexivity]. destruct (proj2 (proj1 (split_total f _ U D)) Lab) as [[fr tr0] Es].
    assert (tr0 = tr). { pose proof Es as E. unfold on_train_start in E. destruct (get_frozen_paths _ _) as [fp|]; [|discriminate]. cbn [bind] in E. rewrite Etp in E. cbn [bind] in E.
      destruct (extract _ fp) as [fr'|]; [|discriminate]. cbn [bind] in E. rewrite Etr in E. cbn [bind] in E. congruence. }
    subst tr0. exact (proj2 (split_partition f _ _ _ U D Es)).
Qed.

(** and from the frozen parameters of the MAP with newly initialised trainable ones *)
Theorem chain_start cfg prelim random s : chain_state o_init o_update loss diff gadd gdiv zeros cfg prelim random = Ok s ->
  match prelim, fc_freeze cfg with
  | Some p, Some f => exists mst, mapfit (pr_cfg p) 0 (pr_batches p) (random 0) = Ok mst /\ t_mutable s = t_mutable mst /\ t_calib s = st_calib (random 0) /\
      (by_path f -> parameters (t_params mst) -> labelled f (t_params mst) -> same_structure (t_params mst) (st_params (random 1)) ->
       parameters (t_params s) /\ labelled f (t_params s) /\
       (forall q v, leaf_at (t_params s) q v /\ f q v = "frozen"%string <-> leaf_at (t_params mst) q v /\ f q v = "frozen"%string) /\
       (forall q v, leaf_at (t_params s) q v /\ f q v = "trainable"%string <-> leaf_at (st_params (random 1)) q v /\ f q v = "trainable"%string))
  | _, _ => t_params s = st_params (random 0) /\ t_mutable s = st_mutable (random 0) /\ t_calib s = st_calib (random 0)
  end.
Proof.
  unfold chain_state, run_preliminary, runs_before, init_map_state.
  assert (N : forall s0, frzopt cfg (convert_from_map_state o_init (fc_method cfg) s0) = Ok s -> t_params s = t_params s0 /\ t_mutable s = t_mutable s0 /\ t_calib s = t_calib s0).
  { intros s0 H. apply frzopt_kept in H. cbn in H. tauto. }
  destruct prelim as [p|], (fc_freeze cfg) as [f|] eqn:FF; cbn [bind]; [|intros H; exact (N _ H)..].
  destruct (mapfit (pr_cfg p) 0 (pr_batches p) (random 0)) as [mst|] eqn:Em; [|discriminate]. cbn [rmap bind]. intros H. exists mst. split; [reflexivity|].
  assert (R : t_params (read_back (pr_dumped p) mst) = t_params mst /\ t_mutable (read_back (pr_dumped p) mst) = t_mutable mst /\ t_calib (read_back (pr_dumped p) mst) = t_calib mst) by (destruct (pr_dumped p); cbn; auto).
  destruct R as (R1 & R2 & R3). rewrite R1 in H. destruct (init_member (t_params mst) (st_params (random 1)) f) as [st|] eqn:Ei; [|discriminate]. cbn [bind] in H. destruct (N _ H) as (N1 & N2 & N3).
  cbn [with_params t_params t_mutable t_calib] in N1, N2, N3. split; [congruence|]. split. { rewrite N3, R3. exact (proj2 (map_kept _ _ _ _ _ Em)). }
  intros BP P Lab SS. rewrite N1. exact (init_member_spec f BP _ _ _ P SS Lab Ei).
Qed.

(** ---- what does not work ---- *)
Lemma frozen_member_start cfg p f random mst x : fc_freeze cfg = Some f -> by_path f -> mapfit (pr_cfg p) 0 (pr_batches p) x = Ok mst -> parameters (t_params mst) -> labelled f (t_params mst) ->
  same_structure (t_params mst) (st_params random) -> forall s0 : tstate, t_params s0 = t_params mst ->
  exists st s1 fr tr, init_map_state o_init (Some s0) cfg random = Ok (with_params st s0) /\ frzopt cfg (with_params st s0) = Ok s1 /\ t_tx s1 = t_tx s0 /\ t_grad s1 = t_grad s0 /\ on_train_start (t_params s1) f = Ok (fr, tr) /\ (forall q v, leaf_at tr q v -> f q v = "trainable"%string).
Proof.
  intros FF BP Em P Lab SS s0 E0. unfold init_map_state. rewrite FF, E0. destruct (member_init f (t_params mst) (st_params random) (proj1 P) (proj2 P) SS Lab) as (st & Hs & _).
  rewrite Hs. cbn [bind]. destruct (init_member_spec f BP _ _ _ P SS Lab Hs) as (Ps & Ls & _). destruct Ps as [Us Ds].
  destruct (proj2 (proj1 (split_total f _ Us Ds)) Ls) as [[fr tr] Es]. exists st.
  assert (Z : exists s1, frzopt cfg (with_params st s0) = Ok s1).
  { unfold freeze_optimizer_in_state. rewrite FF. cbn [with_params t_params]. unfold on_train_start in Es. destruct (get_frozen_paths st (Some f)); [|discriminate]. cbn [bind] in Es.
    destruct (get_trainable_paths st (Some f)) as [tp|]; [|discriminate]. cbn [bind] in *. destruct (extract st l); [|discriminate]. cbn [bind] in Es. destruct (extract st tp); [|discriminate]. cbn [bind]. eauto. }
  destruct Z as [s1 Z]. pose proof (frzopt_kept _ _ _ Z) as (K1 & _ & _ & K4 & _ & K6). cbn in K1, K4, K6. exists s1, fr, tr. split; [reflexivity|]. split; [exact Z|]. split; [exact K1|]. split; [exact K6|].
  rewrite K4. split; [exact Es|]. intros q v Hq. apply (proj2 (split_partition f _ _ _ Us Ds Es)) in Hq. exact (proj2 Hq).
Qed.
Theorem dumped cfg p f random passes size mst b bs : fc_freeze cfg = Some f -> by_path f -> pr_dumped p = true -> 0 < size -> passes 0 = b :: bs ->
  mapfit (pr_cfg p) 0 (pr_batches p) (random 0) = Ok mst -> parameters (t_params mst) -> labelled f (t_params mst) -> same_structure (t_params mst) (st_params (random 1)) ->
  ensemble cfg (Some p) random passes size = Err AttributeError.
Proof.
  intros FF BP Du Sz Pa Em P Lab SS. unfold ensemble_fit, run_preliminary, runs_before. rewrite FF, Em. cbn [rmap bind]. rewrite Du. destruct size as [|size]; [lia|].
  cbn [seq mapM Nat.add]. cbv zeta. destruct (frozen_member_start cfg p f (random 1) mst (random 0) FF BP Em P Lab SS (read_back true mst) eq_refl) as (st & s1 & fr & tr & H1 & H2 & H3 & H4 & H5 & _).
  cbn in H3, H4. unfold member_fit. rewrite H1. cbn [bind]. rewrite H2. cbn [bind]. unfold train_run. rewrite FF, H5. cbn [bind]. rewrite Pa. cbn [foldM].
  unfold train_step, apply_gradients. cbn [with_params t_tx t_grad]. rewrite H3, H4. destruct (1 <? fc_accumulation cfg); reflexivity.
Qed.
Lemma same_structure_sym (a b : tree V) : same_structure a b -> same_structure b a.
Proof. intros H q. specialize (H q). destruct (at_path a q) as [[?|?]|], (at_path b q) as [[?|?]|]; auto. Qed.

Definition accumulates_like (s : tstate) : Prop := exists g, t_grad s = Some g /\ same_structure (t_params s) g.
Lemma accumulating_step cfg r (s s' : tstate) b : 1 < fc_accumulation cfg -> (forall l, keeps (diff l)) -> keeps (fc_clip cfg) -> (forall n, keeps (gdiv n)) -> keeps zeros -> adds gadd ->
  (forall o, t_tx s = Some o -> keeps_structure (o_update o)) -> unique_keys (t_params s) -> (t_grad s = None \/ accumulates_like s) -> step cfg r None s b = Ok s' ->
  accumulates_like s' /\ unique_keys (t_params s').
Proof.
  intros K Kd Kc Kg Kz Ka KS U G H. unfold train_step in H. apply Nat.ltb_lt in K. rewrite K in H. set (g := diff _ (t_params s)) in H.
  assert (Sg : same_structure (t_params s) g) by apply Kd.
  assert (A : exists acc, (match t_grad s with Some a => gadd g a | None => Ok g end) = Ok acc /\ same_structure (t_params s) acc).
  { destruct G as [-> |(a & -> & Sa)]; [eauto|]. destruct (Ka g a) as [Y _]. destruct Y as (c & Hc & Sc). { eapply st_trans; [apply same_structure_sym; exact Sg|exact Sa]. }
    exists c. split; [exact Hc|]. eapply st_trans; [exact Sg|exact Sc]. }
  destruct A as (acc & Ea & Sa). rewrite Ea in H. cbn [bind] in H. unfold apply_gradients in H. destruct (t_tx s) as [o|] eqn:T; [|discriminate].
  match type of H with bind (bind ?u _) _ = _ => destruct u as [[p os]|] eqn:Eu; [|discriminate] end. cbn [bind] in H. destruct (KS o eq_refl _ _ _ _ _ Eu U) as [U' S'].
  destruct (_ =? 0); injection H as <-; unfold accumulates_like; cbn [t_grad t_params].
  - split; [|exact U']. eexists. split; [reflexivity|]. eapply st_trans; [apply same_structure_sym; exact S'|]. eapply st_trans; [exact Sa|].
    eapply st_trans; [apply Kg|]. eapply st_trans; [apply Kc|apply Kz].
  - split; [|exact U]. eauto.
Qed.
Lemma accumulating_run cfg r bs : 1 < fc_accumulation cfg -> (forall l, keeps (diff l)) -> keeps (fc_clip cfg) -> (forall n, keeps (gdiv n)) -> keeps zeros -> adds gadd ->
  forall s s' : tstate, (forall o, t_tx s = Some o -> keeps_structure (o_update o)) -> unique_keys (t_params s) -> (t_grad s = None \/ accumulates_like s) -> foldM (step cfg r None) bs s = Ok s' -> (bs <> [] \/ accumulates_like s) -> accumulates_like s'.
Proof.
  intros K Kd Kc Kg Kz Ka. induction bs as [|b bs IH]; intros s s' KS U G H N; cbn [foldM] in H; [injection H as <-; destruct N as [N|N]; [congruence|exact N]|].
  destruct (step cfg r None s b) as [s1|] eqn:E; [|discriminate]. cbn [bind] in H. destruct (accumulating_step cfg r s s1 b K Kd Kc Kg Kz Ka KS U G E) as [A U1].
  apply (IH s1 s'); [|exact U1|right; exact A|exact H|right; exact A]. destruct (step_kept _ _ _ _ _ _ E) as (T & _). rewrite T. exact KS.
Qed.
Theorem accumulated cfg p f random passes size mst b bs q v : fc_freeze cfg = Some f -> by_path f -> pr_dumped p = false -> fc_freeze (pr_cfg p) = None ->
  1 < fc_accumulation cfg -> 1 < fc_accumulation (pr_cfg p) -> pr_batches p <> [] -> 0 < size -> passes 0 = b :: bs ->
  (forall l, keeps (diff l)) -> keeps (fc_clip (pr_cfg p)) -> (forall n, keeps (gdiv n)) -> keeps zeros -> adds gadd -> keeps_structure (o_update (fc_method (pr_cfg p))) ->
  unique_keys (st_params (random 0)) -> mapfit (pr_cfg p) 0 (pr_batches p) (random 0) = Ok mst -> parameters (t_params mst) -> labelled f (t_params mst) -> same_structure (t_params mst) (st_params (random 1)) ->
  leaf_at (t_params mst) q v -> f q v = "frozen"%string ->
  ensemble cfg (Some p) random passes size = Err ValueError.
Proof.
  intros FF BP Du FN K KM NB Sz Pa Kd Kc Kg Kz Ka KS U Em P Lab SS Hq Fq.
  assert (A : accumulates_like mst).
  { pose proof Em as E. unfold map_fit, freeze_optimizer_in_state in E. rewrite FN in E. cbn [bind] in E. unfold train_run in E. rewrite FN in E.
    eapply (accumulating_run _ 0 (pr_batches p) KM Kd Kc Kg Kz Ka); [| | |exact E|left; exact NB]; cbn; [|exact U|left; reflexivity]. intros o T. injection T as <-. exact KS. }
  destruct A as (a & Ta & Sa). unfold ensemble_fit, run_preliminary, runs_before. rewrite FF, Em. cbn [rmap bind]. rewrite Du. destruct size as [|size]; [lia|].
  cbn [seq mapM Nat.add read_back]. cbv zeta. destruct (frozen_member_start cfg p f (random 1) mst (random 0) FF BP Em P Lab SS mst eq_refl) as (st & s1 & fr & tr & H1 & H2 & H3 & H4 & H5 & H6).
  unfold member_fit. rewrite H1. cbn [bind]. rewrite H2. cbn [bind]. unfold train_run. rewrite FF, H5. cbn [bind]. rewrite Pa. cbn [foldM].
  unfold train_step. cbn [with_params t_tx t_grad]. apply Nat.ltb_lt in K. rewrite K, H4, Ta. cbn [t_params with_params]. set (g := diff _ tr).
  assert (Sg : same_structure tr g) by apply Kd. rewrite (proj2 (Ka g a)); [reflexivity|]. intros X.
  assert (Y : same_structure tr (t_params mst)) by (eapply st_trans; [exact Sg|]; eapply st_trans; [exact X|apply same_structure_sym; exact Sa]).
  specialize (Y q). unfold leaf_at in Hq. rewrite Hq in Y. destruct (at_path tr q) as [[w|?]|] eqn:E; [|contradiction|contradiction]. pose proof (H6 q w E) as F. rewrite (BP q w v), Fq in F. discriminate.
Qed.
End Ens.
