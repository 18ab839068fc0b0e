From Coq Require Import List Arith Lia Bool String Sorted.
From Verif Require Import Lib NestedModel RepoModel RepoSpec RepoProofs RepoProofs2 FitModel FitSpec FitProofs FitProofs2 FitProofs3.
Import ListNotations.
Open Scope list_scope.
Local Notation length := List.length.

Section P.
Context {V O : Type} (init : O -> tree V -> V).
Notation state := (state V O).
Notation repo := (repo V O).
Notation fs := (fs V).
Notation chain_event := (chain_event (V:=V) (O:=O)).

Definition event_samples (es : list chain_event) : list state := flat_map (fun e => match e with Sample s => [s] | Checkpoint _ => [] end) es.
Definition lives (base : option string) (size : nat) (rs : list repo) : Prop :=
  length rs = size /\ forall i r, nth_error rs i = Some r -> r_dir r = option_map (fun b => member_dir b i) base.

Lemma init_lives base size : lives base size (init_multi size base).
Proof.
  split; [unfold init_multi; now rewrite map_length, seq_length|]. intros i r H.
  assert (I : i < size).
  { assert (X : i < length (init_multi (V:=V) (O:=O) size base)) by (apply nth_error_Some; congruence).
    unfold init_multi in X. now rewrite map_length, seq_length in X. }
  rewrite init_nth in H by exact I. injection H as <-. reflexivity.
Qed.
Lemma lives_replace base size rs i r : lives base size rs -> i < size -> r_dir r = option_map (fun b => member_dir b i) base ->
  lives base size (firstn i rs ++ r :: skipn (S i) rs).
Proof.
  intros [L P] I D. split; [rewrite length_replace; lia|]. intros j r' H. rewrite nth_replace in H by lia.
  destruct (Nat.eqb_spec j i) as [->|N]; [congruence|now apply P].
Qed.

Definition same_members (w w' : fs) : Prop := forall b j, dir_files (member_dir b j) w' = dir_files (member_dir b j) w.

Lemma gives_same base size w w' rs i r s : lives base size rs -> nth_error rs i = Some r ->
  (forall b, dir_files (member_dir b i) w' = dir_files (member_dir b i) w) -> gives w r s -> gives w' r s.
Proof.
  intros [L P] R D [G|(d & G1 & G2)]; [now left|right]. exists d. split; [exact G1|].
  pose proof (P i r R) as X. rewrite G1 in X. destruct base as [b|]; [|discriminate]. injection X as ->. now rewrite D.
Qed.

Lemma run_chain_ok ck size es : forall count w rs w' rs', ordered w -> lives (k_save ck) size rs ->
  run_chain init ck es count w rs = (None, (w', rs')) ->
  ordered w' /\ lives (k_save ck) size rs' /\
  (forall k s, nth_error (event_samples es) k = Some s -> exists r, nth_error rs' (count + k) = Some r /\ gives w' r s) /\
  (forall j, j < count \/ count + length (event_samples es) <= j ->
     nth_error rs' j = nth_error rs j /\ forall b, dir_files (member_dir b j) w' = dir_files (member_dir b j) w).
Proof.
  induction es as [|e es IH]; intros count w rs w' rs' H LV.
  - cbn [run_chain]. intros X. assert (w = w') by congruence. assert (rs = rs') by congruence. subst w' rs'.
    split; [exact H|]. split; [exact LV|]. split; [intros [|k] s E; discriminate|]. auto.
  - destruct e as [v|s]; cbn [run_chain].
    + pose proof (do_save_ordered (option_map chain_dir (k_save ck)) v w H) as H1.
      assert (SM : same_members w (snd (do_save (option_map chain_dir (k_save ck)) v w))).
      { intros b j. apply do_save_other. destruct (k_save ck) as [b'|]; [|discriminate]. simpl. intros X. injection X as X. now apply chain_dir_member in X. }
      destruct (do_save (option_map chain_dir (k_save ck)) v w) as [[e|] w1]; [discriminate|]. cbn [snd] in H1, SM. intros E.
      destruct (IH count w1 rs w' rs' H1 LV E) as (A & B & C & D). split; [exact A|]. split; [exact B|]. split; [exact C|].
      intros j J. destruct (D j J) as [D1 D2]. split; [exact D1|]. intros b. now rewrite D2, SM.
    + destruct (nth_error rs count) as [r|] eqn:R; [|rewrite (run_member_out init count _ w rs R); discriminate].
      rewrite (run_member_step init count _ w rs r R). pose proof (gives_put init w r s (k_keep ck) H) as G. cbv zeta in G.
      destruct (run_op init (Put s (k_keep ck)) w r) as [yo [yw yr]]. cbn [fst snd] in *. destruct G as (G1 & G2 & G3 & G4 & G5 & G6). rewrite G1.
      intros E. pose proof LV as [LL LP].
      assert (I : count < size) by (rewrite <- LL; apply nth_error_Some; congruence).
      assert (LV1 : lives (k_save ck) size (firstn count rs ++ yr :: skipn (S count) rs)) by (apply lives_replace; auto; rewrite G3; now apply LP).
      assert (LOC : forall j, j <> count -> nth_error (firstn count rs ++ yr :: skipn (S count) rs) j = nth_error rs j /\
                forall b, dir_files (member_dir b j) yw = dir_files (member_dir b j) w).
      { intros j N. split; [rewrite nth_replace by lia; apply Nat.eqb_neq in N; now rewrite N|]. intros b. apply G5.
        rewrite (LP count r R). destruct (k_save ck) as [b'|]; [|discriminate]. simpl. intros X. injection X as X. apply member_dir_inj in X. destruct X. congruence. }
      destruct (IH (S count) yw _ w' rs' G4 LV1 E) as (A & B & C & D). split; [exact A|]. split; [exact B|]. split.
      * intros [|k] s' Hk.
        -- simpl in Hk. injection Hk as <-. rewrite Nat.add_0_r. destruct (D count) as [D1 D2]; [left; lia|].
           exists yr. split; [rewrite D1, nth_replace by lia; now rewrite Nat.eqb_refl|].
           apply (gives_same (k_save ck) size yw w' rs' count yr s B); [rewrite D1, nth_replace by lia; now rewrite Nat.eqb_refl|exact D2|exact G2].
        -- simpl in Hk. replace (count + S k) with (S count + k) by lia. now apply C.
      * simpl. intros j J. destruct (D j) as [D1 D2]; [lia|]. destruct (LOC j) as [L1 L2]; [lia|]. split; [congruence|]. intros b. now rewrite D2, L2.
Qed.

Lemma run_chain_app ck es es' : forall count w rs, run_chain init ck (es ++ es') count w rs =
  match run_chain init ck es count w rs with
  | (None, (w', rs')) => run_chain init ck es' (count + length (event_samples es)) w' rs'
  | failed => failed end.
Proof.
  induction es as [|e es IH]; intros count w rs; cbn [run_chain app].
  - now rewrite Nat.add_0_r.
  - destruct e as [v|s].
    + destruct (do_save _ v w) as [[e|] w1]; [reflexivity|]. rewrite IH. reflexivity.
    + destruct (run_member init count (Put s (k_keep ck)) w rs) as [y [w1 rs1]]. simpl length. destruct y; rewrite ?IH; try reflexivity;
      (replace (S count + length (event_samples es)) with (count + S (length (event_samples es))) by lia; reflexivity).
Qed.

Lemma chain_fit_ok ck o size ok fresh train (w w' : fs) p p' s : ordered w ->
  chain_fit init ck o size ok fresh train w p = (Ok s, (w', p')) ->
  exists s0 rs', chain_start init ck o fresh w p = Ok s0 /\ s = ch_final (train (chain_init init o s0)) /\ p' = Some rs' /\
    ordered w' /\ lives (k_save ck) size rs' /\
    (forall k t, nth_error (kept (train (chain_init init o s0))) k = Some t -> exists r, nth_error rs' k = Some r /\ gives w' r t) /\
    (forall j, length (kept (train (chain_init init o s0))) <= j ->
       nth_error rs' j = nth_error (init_multi size (k_save ck)) j /\ forall b, dir_files (member_dir b j) w' = dir_files (member_dir b j) w) /\
    (forall d, k_save ck = Some d -> latest (dir_files (chain_dir d) w') = Some (s_step s, to_file s)).
Proof.
  intros H. unfold chain_fit. destruct (bad_config ck); [discriminate|].
  destruct (chain_start init ck o fresh w p) as [s0|e]; [|discriminate]. destruct ok; [|discriminate]. cbn [negb].
  set (n := train (chain_init init o s0)). set (last := Checkpoint (mk_save (ch_final n) (k_keep ck) true)).
  destruct (run_chain init ck (ch_events n ++ [last]) 0 w (init_multi size (k_save ck))) as [[e|] [w1 rs1]] eqn:E; [discriminate|].
  intros X. assert (X1 : ch_final n = s) by congruence. assert (X2 : w1 = w') by congruence. assert (X3 : Some rs1 = p') by congruence. clear X. subst s w1 p'.
  assert (EV : event_samples (ch_events n ++ [last]) = kept n).
  { unfold event_samples, kept. rewrite flat_map_app. simpl. now rewrite app_nil_r. }
  destruct (run_chain_ok ck size _ 0 w _ w' rs1 H (init_lives (k_save ck) size) E) as (A & B & C & D). rewrite EV in C, D.
  exists s0, rs1. split; [reflexivity|]. split; [reflexivity|]. split; [reflexivity|]. split; [exact A|]. split; [exact B|]. split; [exact C|].
  split; [intros j J; apply D; right; exact J|]. intros d K. rewrite run_chain_app in E.
  destruct (run_chain init ck (ch_events n) 0 w (init_multi size (k_save ck))) as [[e|] [w2 rs2]] eqn:E2; [discriminate|].
  destruct (run_chain_ok ck size _ 0 w _ w2 rs2 H (init_lives (k_save ck) size) E2) as (A2 & _).
  unfold last in E. cbn [run_chain] in E. rewrite K in E. cbn [option_map do_save v_force negb andb v_state v_keep] in E.
  assert (Y : apply_actions w2 (save_actions (chain_dir d) w2 (ch_final n) (k_keep ck)) = w') by congruence. rewrite <- Y.
  apply save_latest. now apply ordered_sorted.
Qed.

Lemma member_state_gives w rs j r s : nth_error rs j = Some r -> gives w r s -> exists t, member_state init w (Some rs) j = Ok t /\ joint_of t = joint_of s.
Proof.
  intros R G. destruct (gives_get init w r s G) as (t & E & J). exists t. split; [|exact J].
  unfold member_state. rewrite (run_member_step init j _ w rs r R), E. reflexivity.
Qed.
End P.

(** C116 *)
Lemma chain_sample : forall V O (init : O -> tree V -> V) ck o size ok fresh train (w w' : fs V) p p' s, ordered w ->
  chain_fit init ck o size ok fresh train w p = (Ok s, (w', p')) ->
  exists s0 s1, chain_start init ck o fresh w p = Ok s0 /\
  joint_of s1 = joint_of s0 /\ s_step s1 = 0 /\ s_opt s1 = init o (s_params s0) /\ s_tx s1 = Some o /\
  let n := train s1 in
  s = ch_final n /\ forall k t, nth_error (kept n) k = Some t -> sample_member init w' p' k = Ok (joint_of t).
Proof.
  intros V O init ck o size ok fresh train w w' p p' s H F.
  destruct (chain_fit_ok init ck o size ok fresh train w w' p p' s H F) as (s0 & rs & A & B & -> & C & D & E & G & L).
  exists s0, (chain_init init o s0). split; [exact A|]. do 4 (split; [reflexivity|]). split; [exact B|]. intros k t Hk.
  destruct (kept (train (chain_init init o s0))) as [|t0 l] eqn:K; [destruct k; discriminate|].
  destruct (E 0 t0 eq_refl) as (r0 & R0 & G0). destruct (E k t Hk) as (r & R & Gk).
  destruct (member_state_gives init w' rs 0 r0 t0 R0 G0) as (u0 & U0 & _). destruct (member_state_gives init w' rs k r t R Gk) as (u & U & J).
  unfold sample_member. rewrite U0, U. simpl. now rewrite J.
Qed.

(** samples that were not taken in this run *)
Lemma chain_missing : forall V O (init : O -> tree V -> V) ck o size ok fresh train (w w' : fs V) p p' s s0 k, ordered w ->
  chain_fit init ck o size ok fresh train w p = (Ok s, (w', p')) -> chain_start init ck o fresh w p = Ok s0 ->
  length (kept (train (chain_init init o s0))) <= k -> k < size ->
  member_state init w' p' k =
    match k_save ck with
    | None => Err ValueError
    | Some d => restore init (member_dir d k) None w
    end.
Proof.
  intros V O init ck o size ok fresh train w w' p p' s s0 k H F S N L.
  destruct (chain_fit_ok init ck o size ok fresh train w w' p p' s H F) as (s0' & rs & A & B & -> & C & D & E & G & _).
  rewrite S in A. injection A as <-. destruct (G k N) as [G1 G2]. rewrite init_nth in G1 by exact L.
  unfold member_state. rewrite (run_member_step init k _ w' rs _ G1). unfold run_op, get, place. cbn [r_dir r_mem].
  destruct (k_save ck) as [d|]; cbn [option_map]; [|reflexivity]. unfold restore. rewrite G2. now destruct (latest _) as [[m f]|].
Qed.

Lemma chain_load_sample : forall V O (init : O -> tree V -> V) ck o size ok fresh train (w w' : fs V) p p' s d, ordered w ->
  chain_fit init ck o size ok fresh train w p = (Ok s, (w', p')) -> k_save ck = Some d ->
  forall p0, exists p1, chain_load init size d w' p0 = (Ok tt, p1) /\ forall k, sample_member init w' p1 k = sample_member init w' p' k.
Proof.
  intros V O init ck o size ok fresh train w w' p p' s d H F K p0.
  destruct (chain_fit_ok init ck o size ok fresh train w w' p p' s H F) as (s0 & rs & A & B & -> & C & [D1 D2] & E & G & L).
  exists (Some (init_multi size (Some d))). split; [unfold chain_load; now rewrite (restore_latest init _ None w' s (L d K))|].
  assert (X : forall k, member_state init w' (Some (init_multi size (Some d))) k = member_state init w' (Some rs) k).
  { intros k. unfold member_state. destruct (nth_error rs k) as [r|] eqn:R.
    - assert (J : k < size) by (rewrite <- D1; apply nth_error_Some; congruence).
      rewrite (run_member_step init k _ w' rs r R), (run_member_step init k _ w' _ _ (init_nth (V:=V) (O:=O) size (Some d) k J)).
      unfold run_op, get, place. rewrite (D2 k r R), K. cbn [r_dir option_map]. now destruct (restore init (member_dir d k) None w').
    - assert (J : nth_error (init_multi (V:=V) (O:=O) size (Some d)) k = None).
      { apply nth_error_None. apply nth_error_None in R. unfold init_multi. rewrite map_length, seq_length. lia. }
      now rewrite (run_member_out init k _ w' rs R), (run_member_out init k _ w' _ J). }
  intros k. unfold sample_member. now rewrite !X.
Qed.

Lemma chain_resume : forall V O (init : O -> tree V -> V) ck o size ok fresh train (w w' : fs V) p p' s ck2 o2 fresh2, ordered w ->
  chain_fit init ck o size ok fresh train w p = (Ok s, (w', p')) ->
  (k_restore ck2 = k_save ck -> k_save ck <> None -> exists s2, chain_start init ck2 o2 fresh2 w' p' = Ok s2 /\ continues init s o2 s2) /\
  (k_restore ck2 = None -> k_current ck2 = true -> forall s0 t, chain_start init ck o fresh w p = Ok s0 ->
   length (kept (train (chain_init init o s0))) = size -> nth_error (kept (train (chain_init init o s0))) (size - 1) = Some t ->
   exists s2, chain_start init ck2 o2 fresh2 w' p' = Ok s2 /\ continues init t o2 s2).
Proof.
  intros V O init ck o size ok fresh train w w' p p' s ck2 o2 fresh2 H F.
  destruct (chain_fit_ok init ck o size ok fresh train w w' p p' s H F) as (s0 & rs & A & B & -> & C & [D1 D2] & E & G & L).
  unfold chain_start at 1 3. split.
  - intros R N. rewrite R. destruct (k_save ck) as [d|]; [|congruence]. rewrite (restore_latest init _ (Some o2) w' s (L d eq_refl)).
    eexists. split; [reflexivity|]. repeat split.
  - intros R CU s0' t S Z T. rewrite R, CU. rewrite S in A. injection A as <-. destruct (E _ t T) as (r & Rr & Gr).
    rewrite D1, (run_member_step init _ _ w' rs r Rr). destruct (gives_resume init w' r t o2 Gr) as (u & r' & X & CT). rewrite X.
    exists u. split; [reflexivity|exact CT].
Qed.

Lemma chain_rejected : forall V O (init : O -> tree V -> V) ck o size fresh train (w : fs V) p s0,
  bad_config ck = false -> chain_start init ck o fresh w p = Ok s0 -> k_save ck = None ->
  exists p', chain_fit init ck o size false fresh train w p = (Err ValueError, (w, p')) /\
  forall k, 0 < size -> sample_member init w p' k = Err ValueError.
Proof.
  intros V O init ck o size fresh train w p s0 B S K. unfold chain_fit. rewrite B, S, K. cbn [negb].
  exists (Some (init_multi size None)). split; [reflexivity|]. intros k Z. unfold sample_member, member_state.
  rewrite (run_member_step init 0 _ w _ _ (init_nth (V:=V) (O:=O) size None 0 Z)). reflexivity.
Qed.

Lemma chain_save_nowhere : forall V O (init : O -> tree V -> V) ck o size ok fresh train (w w' : fs V) p p' s d keep, ordered w ->
  chain_fit init ck o size ok fresh train w p = (Ok s, (w', p')) -> k_save ck = None -> fst (snd (ens_save init size d keep w' p')) = w'.
Proof.
  intros V O init ck o size ok fresh train w w' p p' s d keep H F K.
  destruct (chain_fit_ok init ck o size ok fresh train w w' p p' s H F) as (s0 & rs & A & B & -> & C & [D1 D2] & E & G & L).
  unfold ens_save. pose proof (resave_memory init (seq 0 size) keep w' rs) as X.
  destruct (resave init (seq 0 size) keep w' rs) as [res wr]. simpl in *. apply X.
  apply Forall_forall. intros r Hr. apply In_nth_error in Hr. destruct Hr as [i Hr]. rewrite (D2 i r Hr), K. reflexivity.
Qed.

Lemma chain_stale : forall V O (init : O -> tree V -> V) ck o size fresh train train2 (w w1 w2 : fs V) p p1 p2 s s2 s0 s02 d k t, ordered w ->
  k_save ck = Some d ->
  chain_fit init ck o size true fresh train w p = (Ok s, (w1, p1)) -> chain_start init ck o fresh w p = Ok s0 ->
  nth_error (kept (train (chain_init init o s0))) k = Some t ->
  chain_fit init ck o size true fresh train2 w1 p1 = (Ok s2, (w2, p2)) -> chain_start init ck o fresh w1 p1 = Ok s02 ->
  0 < length (kept (train2 (chain_init init o s02))) <= k ->
  sample_member init w2 p2 k = Ok (joint_of t).
Proof.
  intros V O init ck o size fresh train train2 w w1 w2 p p1 p2 s s2 s0 s02 d k t H K F S T F2 S2 [N1 N2].
  destruct (chain_fit_ok init ck o size true fresh train w w1 p p1 s H F) as (a & rs & A & B & -> & C & [D1 D2] & E & G & L).
  rewrite S in A. injection A as <-. destruct (E k t T) as (r & R & Gr).
  assert (J : k < size) by (rewrite <- D1; apply nth_error_Some; congruence).
  pose proof (chain_missing V O init ck o size true fresh train2 w1 w2 _ p2 s2 s02 k C F2 S2 N2 J) as M. rewrite K in M.
  destruct (chain_fit_ok init ck o size true fresh train2 w1 w2 _ p2 s2 C F2) as (a & rs2 & A2 & B2 & -> & C2 & D3 & E2 & G2 & L2).
  rewrite S2 in A2. injection A2 as <-.
  destruct (kept (train2 (chain_init init o s02))) as [|t0 l] eqn:KE; [simpl in N1; lia|].
  destruct (E2 0 t0 eq_refl) as (r0 & R0 & G0). destruct (member_state_gives init w2 rs2 0 r0 t0 R0 G0) as (u0 & U0 & _).
  unfold sample_member. rewrite U0, M. pose proof (D2 k r R) as P. rewrite K in P. cbn [option_map] in P.
  destruct Gr as [[Gr _]|(b & Gr1 & Gr2)]; [congruence|]. rewrite P in Gr1. injection Gr1 as <-.
  rewrite (restore_latest init _ None w1 t Gr2). reflexivity.
Qed.
