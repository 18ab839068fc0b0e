(** Proofs about several calibrations of a calibration model. *)
From Coq Require Import List Arith Bool String Lia.
From Verif Require Import Lib NestedModel NestedSpec FreezeModel FreezeSpec FreezeProofs EnsModel EnsSpec EnsProofs ContModel ContSpec ContProofs CmRunModel CmRunSpec.
Import ListNotations.
Open Scope list_scope.
Local Notation length := List.length.
Local Notation concat := List.concat.

Section CmRun.
Context {V M X T K Out O OS L : Type}.
Variable o_init : O -> tree V -> OS.
Variable o_update : O -> tree V -> OS -> tree V -> result (tree V * OS).
Variable diff : (tree V -> L) -> tree V -> tree V.
Variable gadd : tree V -> tree V -> result (tree V).
Variable gdiv : nat -> tree V -> tree V.
Variable zeros : tree V -> tree V.
Variable net : tree V -> K -> X -> Out.
Variable key : nat -> nat -> K.
Variable loss_fn : Out -> T -> L.
Notation state := (tstate V M unit O OS).
Notation call := (cm_call V M X T O OS).
Notation repo := (repository V M O OS).
Notation objective := (cm_objective (M := M) net key loss_fn).
Notation calibrate := (cm_calibrate o_init o_update diff gadd gdiv zeros net key loss_fn).
Notation calibrations := (cm_calibrations o_init o_update diff gadd gdiv zeros net key loss_fn).
Notation continue := (continue_fit o_init o_update objective diff gadd gdiv zeros).
Notation allfits := (fits o_init o_update objective diff gadd gdiv zeros).

(** what a call starts from, as a state; its optimizer does not matter *)
Lemma init_restored (k : call) (r : repo) s : cm_init_state o_init k r = Ok s -> exists f s0, s = restored o_init f (k_method k) s0 /\ starts k r = Some (t_step s0, t_params s0, t_mutable s0) /\
  ((forall f' s', r = Some (f', s') -> t_grad s' = None) -> t_grad s = None).
Proof.
  unfold cm_init_state, starts. destruct (k_checkpoint k) as [[c|]|]; [|discriminate|].
  - intros [= <-]. exists true, c. repeat split.
  - destruct (k_current k).
    + destruct r as [[f s0]|]; [|discriminate]. intros [= <-]. exists f, s0. split; [reflexivity|]. split; [reflexivity|]. intros G. cbn [restored t_grad]. destruct f; [reflexivity|]. exact (G _ _ eq_refl).
    + intros [= <-]. exists false, (fresh_state o_init (k_method k) {| st_params := fst (k_init k); st_mutable := snd (k_init k); st_calib := tt |}). repeat split.
Qed.
Lemma restored_twice f o (s : state) : restored o_init false o (restored o_init f o s) = restored o_init f o s.
Proof. reflexivity. Qed.
Lemma frz_mutable cfg (s s1 : state) : freeze_optimizer_in_state o_init cfg s = Ok s1 -> t_mutable s1 = t_mutable s.
Proof. intros H. destruct (frzopt_kept o_init _ _ _ H) as (_ & _ & _ & _ & E & _). exact E. Qed.
Lemma calibrate_continue (k : call) r r' : calibrate k r = Ok r' -> exists s0 s', cm_init_state o_init k r = Ok s0 /\ r' = Some (k_dump k, s') /\ (k_batches k = [] \/ t_mutable s0 = None) /\
  (k_dump k = true -> k_dir k = true) /\ continue (cm_config k) (k_run k) (k_batches k) false s0 = Ok s'.
Proof.
  unfold cm_calibrate. destruct (k_dump k && negb (k_dir k)) eqn:D; [discriminate|]. destruct (cm_init_state o_init k r) as [s0|] eqn:E; [|discriminate]. cbn [bind].
  destruct (init_restored _ _ _ E) as (f & s00 & -> & _). destruct (freeze_optimizer_in_state _ _ _) as [s1|] eqn:E1; [|discriminate]. cbn [bind].
  destruct (cm_train _ _ _ _ _ _ _ _ k s1) as [s'|] eqn:E2; [|discriminate]. cbn [bind]. intros [= <-]. exists (restored o_init f (k_method k) s00), s'.
  split; [reflexivity|]. split; [reflexivity|]. unfold cm_train in E2. rewrite (frz_mutable _ _ _ E1) in E2. cbn [restored t_mutable] in *.
  assert (A : (k_batches k = [] \/ t_mutable s00 = None) /\ train_run o_update objective diff gadd gdiv zeros (cm_config k) (k_run k) (k_batches k) s1 = Ok s').
  { destruct (t_mutable s00); [|now split; [right|]]. destruct (k_batches k); [now split; [left|]|discriminate]. }
  split; [exact (proj1 A)|]. split; [intros Hd; rewrite Hd in D; now destruct (k_dir k)|]. unfold continue_fit. cbn [cm_config fc_method]. rewrite restored_twice, E1. exact (proj2 A).
Qed.

Theorem calibrate_descent (k : call) r r' : k_freeze k = None -> calibrate k r = Ok r' ->
  exists s n p m, r' = Some (k_dump k, s) /\ starts k r = Some (n, p, m) /\ (k_batches k = [] \/ m = None) /\ (k_dump k = true -> k_dir k = true) /\
  descent (o_update (k_method k)) (fun g => g) diff (fun q m b i => (loss_fn (net q (key (k_run k) i) (fst b)) (snd b), m)) (k_batches k)
    (n, p, o_init (k_method k) p, m) (t_step s, t_params s, t_opt s, t_mutable s).
Proof.
  intros F H. destruct (calibrate_continue _ _ _ H) as (s0 & s' & E & -> & Hm & Hd & C). destruct (init_restored _ _ _ E) as (f & s00 & -> & S & _).
  exists s', (t_step s00), (t_params s00), (t_mutable s00). split; [reflexivity|]. split; [exact S|]. split; [exact Hm|]. split; [exact Hd|].
  refine (proj1 (continue_plain o_init o_update objective diff gadd gdiv zeros (cm_config k) (k_run k) (k_batches k) false _ s' F _ C)). cbn. lia.
Qed.
Theorem calibrate_frozen (k : call) f r r' n p m : k_freeze k = Some f -> by_path f -> keeps_structure (o_update (k_method k)) -> starts k r = Some (n, p, m) -> parameters p -> calibrate k r = Ok r' ->
  exists s fr tr tr', r' = Some (k_dump k, s) /\ (forall q v, leaf_at fr q v <-> leaf_at p q v /\ f q v = "frozen"%string) /\
    (forall q v, leaf_at tr q v <-> leaf_at p q v /\ f q v = "trainable"%string) /\
    descent (o_update (k_method k)) (fun g => g) diff (fun q m b i => (loss_fn (net (get_all_params fr q) (key (k_run k) i) (fst b)) (snd b), m)) (k_batches k)
      (n, tr, o_init (k_method k) tr, m) (t_step s, tr', t_opt s, t_mutable s) /\ t_params s = get_all_params fr tr' /\
    (forall q v, leaf_at p q v -> f q v = "frozen"%string -> leaf_at (t_params s) q v) /\
    (forall q v, leaf_at p q v -> f q v = "trainable"%string -> exists w, leaf_at tr' q w /\ leaf_at (t_params s) q w).
Proof.
  intros F Bp Ks St Pp H. destruct (calibrate_continue _ _ _ H) as (s0 & s' & E & -> & Hm & Hd & C). destruct (init_restored _ _ _ E) as (g & s00 & -> & S & _).
  rewrite St in S. injection S as -> -> ->. assert (A0 : fc_accumulation (cm_config k) <= 1) by (cbn; lia).
  destruct (continue_frozen o_init o_update objective diff gadd gdiv zeros (cm_config k) f (k_run k) (k_batches k) false (restored o_init g (k_method k) s00) s' F Bp A0 Ks Pp C) as (fr & tr & tr' & A & B & D & Ep & _ & Q1 & Q2).
  exists s', fr, tr, tr'. auto 10.
Qed.

(** ---- any number of calls ---- *)
Lemma calibrate_kept (k : call) r r' n p m : keeps_structure (o_update (k_method k)) -> starts k r = Some (n, p, m) -> parameters p -> calibrate k r = Ok r' ->
  exists s, r' = Some (k_dump k, s) /\ parameters (t_params s) /\ (forall q, (exists v, leaf_at (t_params s) q v) <-> (exists v, leaf_at p q v)) /\
  t_step s = n + length (k_batches k) /\ (forall q v, leaf_at p q v -> (exists f, k_freeze k = Some f /\ f q v = "frozen"%string) -> leaf_at (t_params s) q v).
Proof.
  intros Ks St Pp H. destruct (calibrate_continue _ _ _ H) as (s0 & s' & E & -> & Hm & Hd & C). destruct (init_restored _ _ _ E) as (g & s00 & -> & S & _).
  rewrite St in S. injection S as -> -> ->. exists s'. split; [reflexivity|].
  destruct (fits_kept o_init o_update objective diff gadd gdiv zeros [{| a_cfg := cm_config k; a_run := k_run k; a_batches := k_batches k; a_file := false |}] (restored o_init g (k_method k) s00) s') as (A1 & A2 & A3 & _ & A5).
  - intros a [<-|[]]. exact Ks.
  - exact Pp.
  - cbn [fits a_cfg a_run a_batches a_file]. rewrite C. reflexivity.
  - split; [exact A1|]. split; [exact A2|]. split; [cbn in A3; rewrite Nat.add_0_r in A3; exact A3|]. intros q v Hl Hf. apply A5; [exact Hl|]. intros a [<-|[]]. exact Hf.
Qed.
Theorem any_number (l : list call) : forall k r r' n p m, (forall a, In a l -> continues a) -> (forall a, In a (k :: l) -> keeps_structure (o_update (k_method a))) -> starts k r = Some (n, p, m) -> parameters p ->
  calibrations (k :: l) r = Ok r' ->
  exists f s, r' = Some (f, s) /\ parameters (t_params s) /\ (forall q, (exists v, leaf_at (t_params s) q v) <-> (exists v, leaf_at p q v)) /\
  t_step s = n + list_sum (map (fun a => length (k_batches a)) (k :: l)) /\
  (forall q v, leaf_at p q v -> (forall a, In a (k :: l) -> exists f, k_freeze a = Some f /\ f q v = "frozen"%string) -> leaf_at (t_params s) q v).
Proof.
  induction l as [|a l IH]; intros k r r' n p m Hc Ks St Pp H; cbn [cm_calibrations] in H; (destruct (calibrate k r) as [r1|] eqn:E; [|discriminate]); cbn [bind] in H;
    destruct (calibrate_kept k r r1 n p m (Ks k (or_introl eq_refl)) St Pp E) as (s & -> & A1 & A2 & A3 & A4).
  - injection H as <-. exists (k_dump k), s. split; [reflexivity|]. split; [exact A1|]. split; [exact A2|]. split; [cbn; lia|]. intros q v Hl Hf. apply A4; [exact Hl|]. apply Hf. now left.
  - destruct (IH a (Some (k_dump k, s)) r' (t_step s) (t_params s) (t_mutable s)) as (f & s' & -> & B1 & B2 & B3 & B4).
    + intros x Hx. apply Hc. now right.
    + intros x Hx. apply Ks. now right.
    + unfold starts. destruct (Hc a (or_introl eq_refl)) as [-> ->]. reflexivity.
    + exact A1.
    + exact H.
    + exists f, s'. split; [reflexivity|]. split; [exact B1|]. split; [intros q; rewrite B2; apply A2|]. split; [rewrite B3, A3; cbn; lia|].
      intros q v Hl Hf. apply B4; [apply A4; [exact Hl|apply Hf; now left]|]. intros x Hx. apply Hf. now right.
Qed.

(** ---- starting anew ---- *)
Theorem forgets (l : list call) (k : call) r0 r' : ~ continues k -> calibrations (l ++ [k]) r0 = Ok r' -> forall r, calibrate k r = Ok r'.
Proof.
  intros N. revert r0. induction l as [|a l IH]; intros r0 H r; cbn [app cm_calibrations] in H.
  - destruct (calibrate k r0) as [r1|] eqn:E; [|discriminate]. cbn [bind] in H. injection H as <-. rewrite <- E. unfold cm_calibrate, cm_init_state. unfold continues in N.
    destruct (k_checkpoint k); [reflexivity|]. destruct (k_current k); [|reflexivity]. exfalso. apply N. now split.
  - destruct (calibrate a r0) as [r1|]; [|discriminate]. exact (IH r1 H r).
Qed.

(** ---- files and memory ---- *)
Definition no_grad (r : repo) : Prop := forall f s, r = Some (f, s) -> t_grad s = None.
Lemma calibrate_no_grad (k : call) r r' : no_grad r -> calibrate k r = Ok r' -> no_grad r'.
Proof.
  intros G H. destruct (calibrate_continue _ _ _ H) as (s0 & s' & E & -> & _ & _ & C). intros f s [= _ <-].
  assert (A0 : fc_accumulation (cm_config k) <= 1) by (cbn; lia). rewrite (continue_grad o_init o_update objective diff gadd gdiv zeros _ _ _ _ _ _ A0 C). destruct (init_restored _ _ _ E) as (_ & _ & _ & _ & D). exact (D G).
Qed.
Lemma calibrations_no_grad (l : list call) : forall r r', no_grad r -> calibrations l r = Ok r' -> no_grad r'.
Proof. induction l as [|k l IH]; intros r r' G H; cbn [cm_calibrations] in H; [now injection H as <-|]. destruct (calibrate k r) as [r1|] eqn:E; [|discriminate]. cbn [bind] in H. exact (IH _ _ (calibrate_no_grad _ _ _ G E) H). Qed.
Lemma init_flag (k : call) f f' s : t_grad s = None -> cm_init_state o_init k (Some (f, s)) = cm_init_state o_init k (Some (f', s)).
Proof. intros G. unfold cm_init_state, restored. rewrite G. now destruct f, f'. Qed.
Theorem storage (l : list call) : forall r1 r2 : repo, no_grad r1 -> option_map snd r1 = option_map snd r2 -> (forall k, In k l -> k_dump k = true -> k_dir k = true) ->
  rmap (option_map snd) (calibrations l r1) = rmap (option_map snd) (calibrations (map undumped l) r2).
Proof.
  induction l as [|k l IH]; intros r1 r2 G E D; cbn [map cm_calibrations]; [cbn [rmap]; now rewrite E|].
  assert (I : cm_init_state o_init (undumped k) r2 = cm_init_state o_init k r1).
  { change (cm_init_state o_init k r2 = cm_init_state o_init k r1). destruct r1 as [[f s]|], r2 as [[f' s']|]; try discriminate E; [|reflexivity]. cbn in E. injection E as <-. apply init_flag. exact (G _ _ eq_refl). }
  assert (B : rmap (option_map snd) (calibrate k r1) = rmap (option_map snd) (calibrate (undumped k) r2)).
  { unfold cm_calibrate. rewrite I. cbn [undumped k_dump k_dir andb]. destruct (k_dump k && negb (k_dir k)) eqn:X1.
    - exfalso. apply andb_true_iff in X1. destruct X1 as [X1 X2]. rewrite (D k (or_introl eq_refl) X1) in X2. discriminate X2.
    - change (cm_config (undumped k)) with (cm_config k). destruct (bind (cm_init_state o_init k r1) _) as [s1|]; [|reflexivity]. cbn [bind].
      change (cm_train o_update diff gadd gdiv zeros net key loss_fn (undumped k) s1) with (cm_train o_update diff gadd gdiv zeros net key loss_fn k s1). now destruct (cm_train _ _ _ _ _ _ _ _ k s1). }
  destruct (calibrate k r1) as [q1|] eqn:E1, (calibrate (undumped k) r2) as [q2|] eqn:E2; cbn [rmap] in B; try discriminate B; [|exact B].
  cbn [bind]. apply IH; [exact (calibrate_no_grad _ _ _ G E1)|now injection B|intros x Hx; apply D; now right].
Qed.
Theorem storage_start (l : list call) : (forall k, In k l -> k_dump k = true -> k_dir k = true) ->
  rmap (option_map snd) (calibrations l None) = rmap (option_map snd) (calibrations (map undumped l) None).
Proof. intros D. apply storage; [intros f s; discriminate|reflexivity|exact D]. Qed.

(** ---- when calibrations succeed ---- *)
Lemma steps_succeed cfg r fr bs o : fc_accumulation cfg = 0 -> (forall g os q, exists x, o_update o g os q = Ok x) ->
  forall s : state, t_tx s = Some o -> exists s', foldM (train_step o_update objective diff gadd gdiv zeros cfg r fr) bs s = Ok s'.
Proof.
  intros A U. induction bs as [|b bs IH]; intros s Tx; cbn [foldM]; [now exists s|]. unfold train_step at 1. rewrite A. cbn [Nat.ltb Nat.leb]. unfold apply_gradients. rewrite Tx.
  match goal with |- context [o_update o ?g ?a ?q] => destruct (U g a q) as [[p os] ->] end. cbn [bind]. apply IH. reflexivity.
Qed.
Theorem succeeds (k : call) r n p m : k_freeze k = None -> (forall g os q, exists x, o_update (k_method k) g os q = Ok x) -> starts k r = Some (n, p, m) -> (k_batches k = [] \/ m = None) -> (k_dump k = true -> k_dir k = true) ->
  exists r', calibrate k r = Ok r'.
Proof.
  intros F U S Hm D. unfold cm_calibrate. assert (E : k_dump k && negb (k_dir k) = false) by (destruct (k_dump k); [now rewrite (D eq_refl)|reflexivity]). rewrite E.
  assert (I : exists s, cm_init_state o_init k r = Ok s /\ t_tx s = Some (k_method k) /\ t_mutable s = m).
  { unfold cm_init_state. unfold starts in S. destruct (k_checkpoint k) as [[c|]|]; [|discriminate|].
    - injection S as _ _ <-. eexists. split; [reflexivity|now split].
    - destruct (k_current k); [destruct r as [[f s]|]; [|discriminate]|]; injection S as _ _ <-; eexists; (split; [reflexivity|now split]). }
  destruct I as (s & -> & Tx & Em). unfold freeze_optimizer_in_state. cbn [bind cm_config fc_freeze]. rewrite F. cbn [bind]. unfold cm_train. rewrite Em. unfold train_run. cbn [cm_config fc_freeze]. rewrite F.
  destruct (steps_succeed (cm_config k) (k_run k) None (k_batches k) (k_method k) eq_refl U s Tx) as [s' H]. cbn [cm_config] in H. exists (Some (k_dump k, s')).
  destruct m as [mu|]; [destruct Hm as [Hb|Hb]; [rewrite Hb in *|discriminate Hb]|]; unfold cm_config in *; rewrite ?F in *; rewrite H; reflexivity.
Qed.
Theorem succeeds_exactly (k : call) r : k_freeze k = None -> (forall g os q, exists x, o_update (k_method k) g os q = Ok x) ->
  ((exists r', calibrate k r = Ok r') <-> (exists n p m, starts k r = Some (n, p, m) /\ (k_batches k = [] \/ m = None)) /\ (k_dump k = true -> k_dir k = true)).
Proof.
  intros F U. split.
  - intros [r' H]. destruct (calibrate_descent k r r' F H) as (s & n & p & m & _ & S & B & D & _). split; [now exists n, p, m|exact D].
  - intros [(n & p & m & S & B) D]. exact (succeeds k r n p m F U S B D).
Qed.

Theorem succeeds_frozen (k : call) f r n p m : k_freeze k = Some f -> (forall g os q, exists x, o_update (k_method k) g os q = Ok x) -> starts k r = Some (n, p, m) -> parameters p ->
  ((exists r', calibrate k r = Ok r') <-> labelled f p /\ (k_batches k = [] \/ m = None) /\ (k_dump k = true -> k_dir k = true)).
Proof.
  intros F U S [Up Dp]. split.
  - intros [r' H]. destruct (calibrate_continue _ _ _ H) as (s0 & s' & E & -> & Hm & Hd & C). destruct (init_restored _ _ _ E) as (g & s00 & -> & S1 & _). rewrite S in S1. injection S1 as -> -> ->.
    split; [|now split]. refine (proj1 (proj1 (split_total f _ Up Dp)) _). unfold continue_fit, freeze_optimizer_in_state, train_run in C. cbn [cm_config fc_freeze] in C. rewrite F in C. cbn [restored t_params] in C.
    destruct (get_trainable_paths (t_params s00) (Some f)) as [tp|]; [|discriminate]. cbn [bind] in C. destruct (extract (t_params s00) tp); [|discriminate]. cbn [bind with_opt t_params restored] in C.
    destruct (on_train_start (t_params s00) f) as [x|]; [now exists x|discriminate].
  - intros (Lf & Hm & D). unfold cm_calibrate. assert (E : k_dump k && negb (k_dir k) = false) by (destruct (k_dump k); [now rewrite (D eq_refl)|reflexivity]). rewrite E.
    assert (I : exists s, cm_init_state o_init k r = Ok s /\ t_tx s = Some (k_method k) /\ t_mutable s = m /\ t_params s = p).
    { unfold cm_init_state. unfold starts in S. destruct (k_checkpoint k) as [[c|]|]; [|discriminate|].
      - injection S as _ <- <-. eexists. split; [reflexivity|now split].
      - destruct (k_current k); [destruct r as [[g s]|]; [|discriminate]|]; injection S as _ <- <-; eexists; (split; [reflexivity|now split]). }
    destruct I as (s & -> & Tx & Em & Ep). cbn [bind]. destruct (proj2 (proj1 (split_total f _ Up Dp)) Lf) as [[fr tr] Es].
    pose proof Es as Es'. unfold on_train_start in Es'. destruct (get_frozen_paths p (Some f)) as [fp|]; [|discriminate]. cbn [bind] in Es'. destruct (get_trainable_paths p (Some f)) as [tp|] eqn:Et; [|discriminate]. cbn [bind] in Es'. destruct (extract p fp); [|discriminate]. cbn [bind] in Es'. destruct (extract p tp) as [tr0|] eqn:Ex; [|discriminate].
    unfold freeze_optimizer_in_state. cbn [cm_config fc_freeze]. rewrite F, Ep, Et. cbn [bind]. rewrite Ex. cbn [bind]. unfold cm_train. cbn [with_opt t_mutable]. rewrite Em.
    assert (R : exists s', train_run o_update objective diff gadd gdiv zeros (cm_config k) (k_run k) (k_batches k) (with_opt (o_init (k_method k) tr0) s) = Ok s').
    { unfold train_run. change (fc_freeze (cm_config k)) with (k_freeze k). rewrite F. change (t_params (with_opt (o_init (k_method k) tr0) s)) with (t_params s). rewrite Ep, Es. cbn [bind].
      destruct (steps_succeed (cm_config k) (k_run k) (Some fr) (k_batches k) (k_method k) eq_refl U (with_params tr (with_opt (o_init (k_method k) tr0) s)) Tx) as [s' H].
      rewrite H. eexists. reflexivity. }
    destruct R as [s' R]. exists (Some (k_dump k, s')).
    match goal with |- bind ?a _ = _ => assert (A : a = Ok s'); [|rewrite A; reflexivity] end.
    rewrite <- R. destruct m as [mu|]; [|reflexivity]. destruct Hm as [Hb|Hb]; [rewrite Hb; reflexivity|discriminate Hb].
Qed.

(** ---- one longer calibration ---- *)
Section Longer.
Hypothesis diff_ext : forall f g p, (forall q, f q = g q) -> diff f p = diff g p.
Hypothesis no_key : forall p i j x, net p i x = net p j x.
Lemma step_run cfg r r' fr (s : state) b : train_step o_update objective diff gadd gdiv zeros cfg r fr s b = train_step o_update objective diff gadd gdiv zeros cfg r' fr s b.
Proof.
  unfold train_step. cbn [cm_objective fst snd].
  rewrite (diff_ext (fun p => loss_fn (net (all_params fr p) (key r (t_step s)) (fst b)) (snd b)) (fun p => loss_fn (net (all_params fr p) (key r' (t_step s)) (fst b)) (snd b)) (t_params s)); [reflexivity|].
  intros q. now rewrite (no_key _ (key r (t_step s)) (key r' (t_step s))).
Qed.
Lemma steps_run cfg r r' fr bs : forall s : state, foldM (train_step o_update objective diff gadd gdiv zeros cfg r fr) bs s = foldM (train_step o_update objective diff gadd gdiv zeros cfg r' fr) bs s.
Proof. induction bs as [|b bs IH]; intros s; cbn [foldM]; [reflexivity|]. rewrite (step_run cfg r r'). destruct (train_step _ _ _ _ _ _ _ _ _ s b); [cbn [bind]; apply IH|reflexivity]. Qed.
Lemma steps_mutable cfg r fr bs : fc_accumulation cfg = 0 -> forall s s' : state, foldM (train_step o_update objective diff gadd gdiv zeros cfg r fr) bs s = Ok s' -> t_mutable s' = t_mutable s.
Proof.
  intros A. induction bs as [|b bs IH]; intros s s' H; cbn [foldM] in H; [now injection H as <-|]. destruct (train_step _ _ _ _ _ _ _ _ _ s b) as [s1|] eqn:E; [|discriminate]. cbn [bind] in H. rewrite (IH _ _ H).
  unfold train_step in E. rewrite A in E. cbn [Nat.ltb Nat.leb] in E. unfold apply_gradients in E. destruct (t_tx s); [|discriminate]. destruct (o_update _ _ _ _) as [[p os]|]; [|discriminate]. cbn [bind] in E. injection E as <-. reflexivity.
Qed.
Lemma join (k : call) run bs r : no_grad r -> k_freeze k = None -> stateless o_init o_update (k_method k) ->
  bind (calibrate k r) (calibrate (continued k run bs)) = calibrate (on_batches k (k_batches k ++ bs)) r.
Proof.
  intros G F St. unfold cm_calibrate at 1 3. cbn [on_batches k_dump k_dir].
  destruct (k_dump k && negb (k_dir k)) eqn:D; [reflexivity|].
  change (cm_init_state o_init (on_batches k (k_batches k ++ bs)) r) with (cm_init_state o_init k r).
  destruct (cm_init_state o_init k r) as [s0|] eqn:E; [|reflexivity]. cbn [bind]. unfold freeze_optimizer_in_state. cbn [cm_config fc_freeze on_batches k_freeze]. rewrite F. cbn [bind].
  assert (CC : forall s' : state, calibrate (continued k run bs) (Some (k_dump k, s')) = bind (cm_train o_update diff gadd gdiv zeros net key loss_fn (continued k run bs) (restored o_init (k_dump k) (k_method k) s')) (fun s => Ok (Some (k_dump k, s)))).
  { intros s'. unfold cm_calibrate, cm_init_state, freeze_optimizer_in_state. cbn [continued k_dump k_dir k_checkpoint k_current cm_config fc_freeze k_freeze k_method]. rewrite D, F. reflexivity. }
  destruct (init_restored _ _ _ E) as (f & s00 & -> & _ & G0). specialize (G0 G). set (s1 := restored o_init f (k_method k) s00) in *.
  unfold cm_train at 1 2. cbn [on_batches k_batches k_run]. destruct (t_mutable s1) as [mu|] eqn:Em.
  - destruct (k_batches k) as [|b0 l0] eqn:Eb; [|reflexivity]. cbn [app]. unfold train_run at 1. cbn [cm_config fc_freeze]. rewrite F. cbn [foldM bind]. rewrite CC. 
    assert (R : restored o_init (k_dump k) (k_method k) s1 = s1). { unfold restored. rewrite G0. unfold s1. cbn [restored t_step t_params t_mutable t_calib]. unfold s1 in G0. cbn [restored t_grad] in G0. unfold restored. rewrite G0. now destruct (k_dump k). }
    rewrite R. unfold cm_train. rewrite Em. cbn [continued k_batches k_run]. destruct bs; [|reflexivity]. unfold train_run. cbn [cm_config fc_freeze continued on_batches k_freeze]. rewrite F. reflexivity.
  - unfold train_run at 1 2. cbn [cm_config fc_freeze on_batches k_freeze]. rewrite F. change (cm_config (on_batches k (k_batches k ++ bs))) with (cm_config k). rewrite foldM_app.
    destruct (foldM _ (k_batches k) s1) as [s2|] eqn:E2; [|reflexivity]. cbn [bind]. rewrite CC.
    destruct (stateless_steps o_init o_update objective diff gadd gdiv zeros (cm_config k) (k_run k) (k_batches k) (k_method k) St s1 s2 eq_refl E2) as [A1 A2].
    assert (A0 : fc_accumulation (cm_config k) <= 1) by (cbn; lia).
    pose proof (steps_grad o_update objective diff gadd gdiv zeros (cm_config k) (k_run k) None (k_batches k) A0 _ _ E2) as A3. rewrite G0 in A3.
    pose proof (steps_mutable (cm_config k) (k_run k) None (k_batches k) eq_refl _ _ E2) as A4. rewrite Em in A4.
    assert (R : restored o_init (k_dump k) (k_method k) s2 = s2).
    { unfold restored. rewrite (proj1 St (t_params s2) (t_params s00)). change (o_init (k_method k) (t_params s00)) with (t_opt s1). rewrite <- A1, <- A2, A3. destruct s2 as [? ? ? ? ? gr ?]. cbn in A3 |- *. rewrite A3. now destruct (k_dump k). }
    rewrite R. unfold cm_train. rewrite A4. cbn [continued k_batches k_run]. unfold train_run. cbn [cm_config fc_freeze continued k_freeze]. rewrite F.
    change (cm_config (continued k run bs)) with (cm_config k). rewrite (steps_run (cm_config k) run (k_run k)). reflexivity.
Qed.
Theorem longer (parts : list (nat * list (X * T))) : forall (k : call) l0 r, k_freeze k = None -> stateless o_init o_update (k_method k) -> calibrations l0 None = Ok r ->
  calibrations (k :: map (fun x => continued k (fst x) (snd x)) parts) r = calibrate (on_batches k (k_batches k ++ concat (map snd parts))) r.
Proof.
  induction parts as [|[run bs] parts IH]; intros k l0 r F St H.
  - cbn [map concat cm_calibrations]. rewrite app_nil_r. change (on_batches k (k_batches k)) with k || idtac. destruct k; cbn. destruct (cm_calibrate _ _ _ _ _ _ _ _ _ _ r) eqn:?; cbn; [reflexivity|assumption || reflexivity].
  - assert (G : no_grad r) by (refine (calibrations_no_grad l0 None r _ H); intros f s; discriminate).
    specialize (IH (on_batches k (k_batches k ++ bs)) l0 r F St H). cbn [map concat fst snd] in *. cbn [cm_calibrations] in IH |- *. rewrite <- (join k run bs r G F St) in IH.
    change (map (fun x => continued (on_batches k (k_batches k ++ bs)) (fst x) (snd x)) parts) with (map (fun x => continued k (fst x) (snd x)) parts) in IH. cbn [on_batches k_batches] in IH.
    rewrite app_assoc. change (on_batches k ((k_batches k ++ bs) ++ concat (map snd parts))) with (on_batches (on_batches k (k_batches k ++ bs)) ((k_batches k ++ bs) ++ concat (map snd parts))). rewrite <- IH. now destruct (calibrate k r).
Qed.
End Longer.
End CmRun.
