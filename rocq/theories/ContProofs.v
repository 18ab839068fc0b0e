(** Fits of MAP that continue an earlier fit. *)
From Coq Require Import List Arith Lia Bool String.
From Verif Require Import Lib NestedModel NestedSpec NestedProofs NestedProofs2 FreezeModel FreezeSpec FreezeProofs EnsModel EnsSpec EnsProofs ContModel ContSpec.
Import ListNotations.
Open Scope list_scope.
Local Notation length := List.length.

Section Unique.
Context {V : Type}.
Lemma in_set (k : string) (v : tree V) kvs x : In x (assoc_set k v kvs) -> x = (k, v) \/ In x kvs.
Proof.
  induction kvs as [|[k' v'] kvs IH]; cbn [assoc_set]; [intros [<-|[]]; now left|]. destruct (String.eqb k k') eqn:E; intros [<-|H].
  - left. apply String.eqb_eq in E. now subst.
  - right. now right.
  - right. now left.
  - destruct (IH H) as [->|]; [now left|right; now right].
Qed.
Lemma nodup_set (k : string) (v : tree V) kvs : NoDup (map fst kvs) -> NoDup (map fst (assoc_set k v kvs)).
Proof.
  induction kvs as [|[k' v'] kvs IH]; intros ND; cbn [assoc_set map fst]; [constructor; [intros []|constructor]|]. inversion ND as [|? ? N ND']; subst.
  destruct (String.eqb k k') eqn:E; [cbn; apply String.eqb_eq in E; subst; now constructor|]. cbn [map fst]. constructor; [|now apply IH].
  intros I. apply in_map_iff in I. destruct I as (x & Ex & I). destruct (in_set _ _ _ _ I) as [->|I']. { cbn in Ex. subst. rewrite String.eqb_refl in E. discriminate. }
  apply N. rewrite <- Ex. now apply in_map.
Qed.
Lemma unique_set (k : string) (v : tree V) kvs : unique_keys (Dict kvs) -> unique_keys v -> unique_keys (Dict (assoc_set k v kvs)).
Proof.
  intros U Uv. apply unique_dict in U. destruct U as [ND F]. apply unique_dict. split; [now apply nodup_set|]. rewrite Forall_forall in *. intros x Hx. destruct (in_set _ _ _ _ Hx) as [->|H]; [exact Uv|now apply F].
Qed.
Lemma update1_unique (u : tree V) : unique_keys u -> forall d, unique_keys d -> unique_keys (update1 u d).
Proof.
  induction u as [v|ukvs IH] using tree_rect'; intros Uu d Ud; [destruct d; exact Uu || exact Ud|]. destruct d as [x|kvs]; [exact Uu || exact Ud|]. rewrite update1_dict.
  apply unique_dict in Uu. destruct Uu as [_ F]. revert kvs Ud. induction ukvs as [|[k v] r IHr]; intros kvs Ud; cbn [update_kvs]; [exact Ud|].
  inversion IH as [|? ? I1 I2]; subst. inversion F as [|? ? F1 F2]; subst. cbn [snd] in *. apply IHr; [exact I2|exact F2|]. apply unique_set; [exact Ud|]. unfold merge1.
  destruct (assoc_get k kvs) as [[y|old]|] eqn:E; [exact F1| |exact F1]. destruct v as [z|vk]; [exact F1|]. apply I1; [exact F1|]. exact (unique_get _ _ _ Ud E).
Qed.
End Unique.

Section Cont.
Context {V M C B O OS L : Type}.
Variable o_init : O -> tree V -> OS.
Variable o_update : O -> tree V -> OS -> tree V -> result (tree V * OS).
Variable loss : nat -> tree V -> option M -> C -> B -> nat -> L * option M.
Variable diff : (tree V -> L) -> tree V -> tree V.
Variable gadd : tree V -> tree V -> result (tree V).
Variable gdiv : nat -> tree V -> tree V.
Variable zeros : tree V -> tree V.
Notation tstate := (tstate V M C O OS).
Notation step := (train_step o_update loss diff gadd gdiv zeros).
Notation run := (train_run o_update loss diff gadd gdiv zeros).
Notation mapfit := (map_fit o_init o_update loss diff gadd gdiv zeros).
Notation frzopt := (freeze_optimizer_in_state o_init).
Notation continue := (continue_fit o_init o_update loss diff gadd gdiv zeros).
Notation allfits := (fits o_init o_update loss diff gadd gdiv zeros).

(** ---- one fit ---- *)
Theorem continue_plain cfg r bs file (s s' : tstate) : fc_freeze cfg = None -> fc_accumulation cfg <= 1 -> continue cfg r bs file s = Ok s' ->
  descent (o_update (fc_method cfg)) (fc_clip cfg) diff (fun p m b n => loss r p m (t_calib s) b n) bs
    (t_step s, t_params s, o_init (fc_method cfg) (t_params s), t_mutable s) (t_step s', t_params s', t_opt s', t_mutable s') /\ t_calib s' = t_calib s.
Proof.
  intros F K H. unfold continue_fit, freeze_optimizer_in_state in H. rewrite F in H. cbn [bind] in H. unfold train_run in H. rewrite F in H.
  destruct (steps_descent o_update loss diff gadd gdiv zeros cfg r None bs K (restored o_init file (fc_method cfg) s) s' (fc_method cfg) eq_refl H) as [D _]. split; [exact D|]. destruct (steps_kept o_update loss diff gadd gdiv zeros _ _ _ _ _ _ H) as [_ E]. exact E.
Qed.
Theorem continue_frozen cfg f r bs file (s s' : tstate) : fc_freeze cfg = Some f -> by_path f -> fc_accumulation cfg <= 1 -> keeps_structure (o_update (fc_method cfg)) -> parameters (t_params s) ->
  continue cfg r bs file s = Ok s' ->
  exists fr tr tr', (forall q v, leaf_at fr q v <-> leaf_at (t_params s) q v /\ f q v = "frozen"%string) /\
    (forall q v, leaf_at tr q v <-> leaf_at (t_params s) q v /\ f q v = "trainable"%string) /\
    descent (o_update (fc_method cfg)) (fc_clip cfg) diff (fun p m b n => loss r (get_all_params fr p) m (t_calib s) b n) bs
      (t_step s, tr, o_init (fc_method cfg) tr, t_mutable s) (t_step s', tr', t_opt s', t_mutable s') /\
    t_params s' = get_all_params fr tr' /\ t_calib s' = t_calib s /\
    (forall q v, leaf_at (t_params s) q v -> f q v = "frozen"%string -> leaf_at (t_params s') q v) /\
    (forall q v, leaf_at (t_params s) q v -> f q v = "trainable"%string -> exists w, leaf_at tr' q w /\ leaf_at (t_params s') q w).
Proof.
  intros F BP K KS P H. unfold continue_fit in H. destruct (frzopt cfg (restored o_init file (fc_method cfg) s)) as [s1|] eqn:E; [|discriminate]. cbn [bind] in H.
  exact (frozen_run o_init o_update loss diff gadd gdiv zeros cfg f r bs (restored o_init file (fc_method cfg) s) s1 s' (fc_method cfg) F BP K eq_refl KS P E H).
Qed.

(** ---- any number of fits ---- *)
Lemma step_structure cfg r fr (s s' : tstate) b o : t_tx s = Some o -> keeps_structure (o_update o) -> unique_keys (t_params s) -> step cfg r fr s b = Ok s' ->
  unique_keys (t_params s') /\ same_structure (t_params s) (t_params s') /\ t_step s' = S (t_step s).
Proof.
  intros T KS U H. unfold train_step in H. set (g := diff _ _) in H. set (m := snd _) in H.
  assert (A : forall g m acc s', apply_gradients o_update g m acc s = Ok s' -> unique_keys (t_params s') /\ same_structure (t_params s) (t_params s') /\ t_step s' = S (t_step s)).
  { unfold apply_gradients. rewrite T. intros g0 m0 acc s0 H0. destruct (o_update o g0 (t_opt s) (t_params s)) as [[p os]|] eqn:E; [|discriminate]. cbn [bind] in H0. injection H0 as <-. cbn [t_params t_step].
    destruct (KS _ _ _ _ _ E U). auto. }
  destruct (1 <? fc_accumulation cfg); [|exact (A _ _ _ _ H)].
  destruct (match t_grad s with Some a => gadd g a | None => Ok g end) as [acc|]; [|discriminate]. cbn [bind] in H.
  destruct (apply_gradients o_update _ _ _ s) as [u|] eqn:E; [|discriminate]. cbn [bind] in H.
  destruct (_ =? 0); injection H as <-; [exact (A _ _ _ _ E)|]. cbn [t_params t_step]. split; [exact U|]. split; [apply st_refl|reflexivity].
Qed.
Lemma steps_structure cfg r fr bs o : keeps_structure (o_update o) -> forall s s' : tstate, t_tx s = Some o -> unique_keys (t_params s) -> foldM (step cfg r fr) bs s = Ok s' ->
  unique_keys (t_params s') /\ same_structure (t_params s) (t_params s') /\ t_step s' = t_step s + length bs.
Proof.
  intros KS. induction bs as [|b bs IH]; intros s s' T U H; cbn [foldM] in H; [injection H as <-; split; [exact U|]; split; [apply st_refl|cbn; lia]|].
  destruct (step cfg r fr s b) as [s1|] eqn:E; [|discriminate]. cbn [bind] in H. destruct (step_structure _ _ _ _ _ _ _ T KS U E) as (U1 & S1 & N1).
  destruct (step_kept o_update loss diff gadd gdiv zeros _ _ _ _ _ _ E) as (T1 & _ & _).
  destruct (IH s1 s') as (U2 & S2 & N2); [congruence|exact U1|exact H|]. split; [exact U2|]. split; [eapply st_trans; eassumption|cbn; lia].
Qed.
Definition structured (s s' : tstate) : Prop := parameters (t_params s') /\ (forall q, (exists v, leaf_at (t_params s') q v) <-> (exists v, leaf_at (t_params s) q v)).
Lemma continue_structure cfg r bs file (s s' : tstate) : keeps_structure (o_update (fc_method cfg)) -> parameters (t_params s) -> continue cfg r bs file s = Ok s' ->
  structured s s' /\ t_step s' = t_step s + length bs /\ t_calib s' = t_calib s /\
  (forall f q v, fc_freeze cfg = Some f -> leaf_at (t_params s) q v -> f q v = "frozen"%string -> leaf_at (t_params s') q v).
Proof.
  intros KS [U D] H. unfold continue_fit in H. destruct (frzopt cfg (restored o_init file (fc_method cfg) s)) as [s1|] eqn:E; [|discriminate]. cbn [bind] in H.
  destruct (frzopt_kept o_init _ _ _ E) as (K1 & K2 & K3 & K4 & _). cbn [restored t_tx t_calib t_step t_params] in *.
  destruct (run_kept o_update loss diff gadd gdiv zeros _ _ _ _ _ H) as [_ Kc]. unfold train_run in H. destruct (fc_freeze cfg) as [f|] eqn:F.
  - destruct (on_train_start (t_params s1) f) as [[fr tr]|] eqn:Es; [|discriminate]. cbn [bind] in H. destruct (foldM _ bs _) as [s2|] eqn:Ef; [|discriminate]. cbn [bind] in H. injection H as <-.
    rewrite K4 in Es. destruct (split_spec f (t_params s) fr tr U D Es) as (Lab & Ufr & Utr & Dfr & Dtr & LF & LT & _).
    destruct (steps_structure cfg r (Some fr) bs (fc_method cfg) KS (with_params tr s1) s2 K1 Utr Ef) as (U2 & S2 & N2). cbn [with_params t_params t_step t_calib] in *.
    destruct (frozen_never_change f (t_params s) fr tr (t_params s2) U D Es U2 S2) as (A1 & A2 & A3). split; [|split; [congruence|split; [congruence|]]].
    + split; [|exact A3]. split. { apply update1_unique; assumption. }
      destruct Dfr as [kf ->]. destruct Dtr as [kt ->]. specialize (S2 []). cbn [at_path] in S2. destruct (t_params s2) as [|k2]; [contradiction|]. unfold get_all_params, nested_update. cbn [fold_left]. rewrite update1_dict. eexists. reflexivity.
    + intros f' q v Hf. injection Hf as <-. apply A1.
  - destruct (steps_structure _ _ _ _ _ KS _ _ K1 (eq_ind_r unique_keys U K4) H) as (U2 & S2 & N2). rewrite K4 in S2. split; [|split; [congruence|split; [congruence|discriminate]]]. split.
    + split; [exact U2|]. destruct D as [k Ek]. specialize (S2 []). rewrite Ek in S2. cbn [at_path] in S2. destruct (t_params s') as [|k']; [contradiction|eauto].
    + intros q. specialize (S2 q). unfold leaf_at. split; intros [v Hv]; rewrite Hv in S2; destruct (at_path _ q) as [[w|?]|]; try contradiction; eauto.
Qed.
Theorem fits_kept (l : list (fit_args V B O)) : forall (s s' : tstate), (forall a, In a l -> keeps_structure (o_update (fc_method (a_cfg a)))) -> parameters (t_params s) -> allfits l s = Ok s' ->
  parameters (t_params s') /\ (forall q, (exists v, leaf_at (t_params s') q v) <-> (exists v, leaf_at (t_params s) q v)) /\
  t_step s' = t_step s + list_sum (map (fun a => length (a_batches a)) l) /\ t_calib s' = t_calib s /\
  (forall q v, leaf_at (t_params s) q v -> (forall a, In a l -> exists f, fc_freeze (a_cfg a) = Some f /\ f q v = "frozen"%string) -> leaf_at (t_params s') q v).
Proof.
  induction l as [|a l IH]; intros s s' KS P H; cbn [fits] in H. { injection H as <-. split; [exact P|]. split; [tauto|]. split; [cbn; lia|]. split; [reflexivity|]. auto. }
  destruct (continue _ _ _ _ s) as [s1|] eqn:E; [|discriminate]. cbn [bind] in H. destruct (continue_structure _ _ _ _ _ _ (KS a (or_introl eq_refl)) P E) as ([P1 Q1] & N1 & C1 & F1).
  destruct (IH s1 s' (fun x Hx => KS x (or_intror Hx)) P1 H) as (P2 & Q2 & N2 & C2 & F2). split; [exact P2|]. split; [intros q; rewrite Q2; apply Q1|]. split; [cbn [map list_sum fold_right] in *; change (fold_right Nat.add 0) with list_sum; lia|]. split; [congruence|].
  intros q v Hq Hf. apply F2; [|intros x Hx; apply Hf; now right]. destruct (Hf a (or_introl eq_refl)) as (f & Ef & Fq). exact (F1 f q v Ef Hq Fq).
Qed.

(** ---- where the state was kept ---- *)
Lemma step_grad cfg r fr (s s' : tstate) b : fc_accumulation cfg <= 1 -> step cfg r fr s b = Ok s' -> t_grad s' = t_grad s.
Proof.
  intros K H. unfold train_step in H. destruct (1 <? fc_accumulation cfg) eqn:K0; [apply Nat.ltb_lt in K0; lia|]. unfold apply_gradients in H. destruct (t_tx s); [|discriminate].
  match type of H with bind ?u _ = _ => destruct u as [[p os]|]; [|discriminate] end. cbn [bind] in H. injection H as <-. reflexivity.
Qed.
Lemma steps_grad cfg r fr bs : fc_accumulation cfg <= 1 -> forall s s' : tstate, foldM (step cfg r fr) bs s = Ok s' -> t_grad s' = t_grad s.
Proof.
  intros K. induction bs as [|b bs IH]; intros s s' H; cbn [foldM] in H; [now injection H as <-|]. destruct (step cfg r fr s b) as [s1|] eqn:E; [|discriminate]. cbn [bind] in H. rewrite (IH _ _ H). exact (step_grad _ _ _ _ _ _ K E).
Qed.
Lemma continue_grad cfg r bs file (s s' : tstate) : fc_accumulation cfg <= 1 -> continue cfg r bs file s = Ok s' -> t_grad s' = if file then None else t_grad s.
Proof.
  intros K H. unfold continue_fit in H. destruct (frzopt cfg (restored o_init file (fc_method cfg) s)) as [s1|] eqn:E; [|discriminate]. cbn [bind] in H. destruct (frzopt_kept o_init _ _ _ E) as (_ & _ & _ & _ & _ & K6). cbn [restored t_grad] in K6. rewrite <- K6.
  unfold train_run in H. destruct (fc_freeze cfg) as [f|]; [|exact (steps_grad _ _ _ _ K _ _ H)]. destruct (on_train_start (t_params s1) f) as [[fr tr]|]; [|discriminate]. cbn [bind] in H. destruct (foldM _ bs _) as [s2|] eqn:Ef; [|discriminate]. cbn [bind] in H. injection H as <-. exact (steps_grad _ _ _ _ K _ _ Ef).
Qed.
Theorem storage_irrelevant (l : list (fit_args V B O)) : forall s : tstate, (forall a, In a l -> fc_accumulation (a_cfg a) <= 1) -> t_grad s = None -> allfits l s = allfits (map in_memory l) s.
Proof.
  induction l as [|a l IH]; intros s K G; [reflexivity|]. cbn [map fits in_memory a_cfg a_run a_batches a_file].
  assert (E : forall file, continue (a_cfg a) (a_run a) (a_batches a) file s = continue (a_cfg a) (a_run a) (a_batches a) false s). { intros file. unfold continue_fit, restored. rewrite G. destruct file; reflexivity. }
  rewrite E. destruct (continue _ _ _ false s) as [s1|] eqn:E1; [|reflexivity]. cbn [bind]. apply IH; [intros x Hx; apply K; now right|]. rewrite (continue_grad _ _ _ _ _ _ (K a (or_introl eq_refl)) E1). exact G.
Qed.

(** ---- one longer fit ---- *)
Lemma foldM_app {S X} (f : S -> X -> result S) l l' : forall s, foldM f (l ++ l') s = bind (foldM f l s) (foldM f l').
Proof. induction l as [|x l IH]; intros s; cbn [app foldM]; [reflexivity|]. destruct (f s x) as [s1|]; [|reflexivity]. cbn [bind]. apply IH. Qed.
Lemma stateless_step cfg r (s s' : tstate) b o : t_tx s = Some o -> stateless o_init o_update o -> step cfg r None s b = Ok s' -> t_opt s' = t_opt s.
Proof.
  intros T [_ St] H. unfold train_step in H. set (g := diff _ _) in H. set (m := snd _) in H.
  assert (A : forall g m acc s', apply_gradients o_update g m acc s = Ok s' -> t_opt s' = t_opt s).
  { unfold apply_gradients. rewrite T. intros g0 m0 acc s0 H0. destruct (o_update o g0 (t_opt s) (t_params s)) as [[p os]|] eqn:E; [|discriminate]. cbn [bind] in H0. injection H0 as <-. exact (St _ _ _ _ _ E). }
  destruct (1 <? fc_accumulation cfg); [|exact (A _ _ _ _ H)].
  destruct (match t_grad s with Some a => gadd g a | None => Ok g end) as [acc|]; [|discriminate]. cbn [bind] in H.
  destruct (apply_gradients o_update _ _ _ s) as [u|] eqn:E; [|discriminate]. cbn [bind] in H.
  destruct (_ =? 0); injection H as <-; [exact (A _ _ _ _ E)|reflexivity].
Qed.
Lemma stateless_steps cfg r bs o : stateless o_init o_update o -> forall s s' : tstate, t_tx s = Some o -> foldM (step cfg r None) bs s = Ok s' -> t_opt s' = t_opt s /\ t_tx s' = Some o.
Proof.
  intros St. induction bs as [|b bs IH]; intros s s' T H; cbn [foldM] in H; [injection H as <-; auto|]. destruct (step cfg r None s b) as [s1|] eqn:E; [|discriminate]. cbn [bind] in H.
  destruct (step_kept o_update loss diff gadd gdiv zeros _ _ _ _ _ _ E) as (T1 & _ & _). destruct (IH s1 s') as [A1 A2]; [congruence|exact H|]. split; [|exact A2]. rewrite A1. exact (stateless_step _ _ _ _ _ _ T St E).
Qed.
Theorem fits_as_one cfg r r' bs bs' file (s : tstate) : fc_freeze cfg = None -> stateless o_init o_update (fc_method cfg) -> loss r' = loss r ->
  allfits [{| a_cfg := cfg; a_run := r; a_batches := bs; a_file := file |}; {| a_cfg := cfg; a_run := r'; a_batches := bs'; a_file := false |}] s
  = allfits [{| a_cfg := cfg; a_run := r; a_batches := bs ++ bs'; a_file := file |}] s.
Proof.
  intros F St EL. cbn [fits a_cfg a_run a_batches a_file]. unfold continue_fit, freeze_optimizer_in_state, train_run. rewrite F. cbn [bind]. rewrite foldM_app.
  destruct (foldM (step cfg r None) bs _) as [s1|] eqn:E; [|reflexivity]. cbn [bind].
  destruct (stateless_steps cfg r bs (fc_method cfg) St (restored o_init file (fc_method cfg) s) s1 eq_refl E) as [A1 A2]. cbn [restored t_opt t_params] in A1.
  assert (R : restored o_init false (fc_method cfg) s1 = s1).
  { unfold restored. rewrite (proj1 St (t_params s1) (t_params s)). rewrite <- A1, <- A2. destruct s1; reflexivity. }
  rewrite R. assert (X : forall l s0, foldM (step cfg r' None) l s0 = foldM (step cfg r None) l s0).
  { induction l as [|b l IH]; intros s0; [reflexivity|]. cbn [foldM]. unfold train_step at 1 3. rewrite EL. match goal with |- bind ?a _ = bind ?b _ => change b with a; destruct a; [cbn [bind]; apply IH|reflexivity] end. }
  rewrite X. reflexivity.
Qed.

(** ---- accumulated gradients and other trainable parameters ---- *)
Definition grad_like (s : tstate) : Prop := exists a, t_grad s = Some a /\ same_structure (t_params s) a.
Lemma acc_step cfg r fr (s s' : tstate) b : 1 < fc_accumulation cfg -> (forall l, keeps (diff l)) -> keeps (fc_clip cfg) -> (forall n, keeps (gdiv n)) -> keeps zeros -> adds gadd ->
  (forall o, t_tx s = Some o -> keeps_structure (o_update o)) -> unique_keys (t_params s) -> (t_grad s = None \/ grad_like s) -> step cfg r fr s b = Ok s' ->
  grad_like s' /\ unique_keys (t_params s').
Proof.
  intros K Kd Kc Kg Kz Ka KS U G H. unfold train_step in H. apply Nat.ltb_lt in K. rewrite K in H. set (g := diff _ (t_params s)) in H.
  assert (Sg : same_structure (t_params s) g) by apply Kd.
  assert (A : exists acc, (match t_grad s with Some a => gadd g a | None => Ok g end) = Ok acc /\ same_structure (t_params s) acc).
  { destruct G as [-> |(a & -> & Sa)]; [eauto|]. destruct (Ka g a) as [Y _]. destruct Y as (c & Hc & Sc). { eapply st_trans; [apply same_structure_sym; exact Sg|exact Sa]. }
    exists c. split; [exact Hc|]. eapply st_trans; [exact Sg|exact Sc]. }
  destruct A as (acc & Ea & Sa). rewrite Ea in H. cbn [bind] in H. unfold apply_gradients in H. destruct (t_tx s) as [o|] eqn:T; [|discriminate].
  match type of H with bind (bind ?u _) _ = _ => destruct u as [[p os]|] eqn:Eu; [|discriminate] end. cbn [bind] in H. destruct (KS o eq_refl _ _ _ _ _ Eu U) as [U' S'].
  destruct (_ =? 0); injection H as <-; unfold grad_like; cbn [t_grad t_params].
  - split; [|exact U']. eexists. split; [reflexivity|]. eapply st_trans; [apply same_structure_sym; exact S'|]. eapply st_trans; [exact Sa|].
    eapply st_trans; [apply Kg|]. eapply st_trans; [apply Kc|apply Kz].
  - split; [|exact U]. eauto.
Qed.
Lemma acc_run cfg r fr bs : 1 < fc_accumulation cfg -> (forall l, keeps (diff l)) -> keeps (fc_clip cfg) -> (forall n, keeps (gdiv n)) -> keeps zeros -> adds gadd ->
  forall s s' : tstate, (forall o, t_tx s = Some o -> keeps_structure (o_update o)) -> unique_keys (t_params s) -> (t_grad s = None \/ grad_like s) -> foldM (step cfg r fr) bs s = Ok s' -> (bs <> [] \/ grad_like s) -> grad_like s'.
Proof.
  intros K Kd Kc Kg Kz Ka. induction bs as [|b bs IH]; intros s s' KS U G H N; cbn [foldM] in H; [injection H as <-; destruct N as [N|N]; [congruence|exact N]|].
  destruct (step cfg r fr s b) as [s1|] eqn:E; [|discriminate]. cbn [bind] in H. destruct (acc_step cfg r fr s s1 b K Kd Kc Kg Kz Ka KS U G E) as [A U1].
  apply (IH s1 s'); [|exact U1|right; exact A|exact H|right; exact A]. destruct (step_kept o_update loss diff gadd gdiv zeros _ _ _ _ _ _ E) as (T & _). rewrite T. exact KS.
Qed.
(** the accumulated gradient has an array exactly where there is a trainable one *)
Lemma continue_acc cfg r b bs file (s s' : tstate) : 1 < fc_accumulation cfg -> (forall l, keeps (diff l)) -> keeps (fc_clip cfg) -> (forall n, keeps (gdiv n)) -> keeps zeros -> adds gadd ->
  keeps_structure (o_update (fc_method cfg)) -> (forall f, fc_freeze cfg = Some f -> by_path f) -> parameters (t_params s) -> (file = true \/ t_grad s = None) -> continue cfg r (b :: bs) file s = Ok s' ->
  exists a, t_grad s' = Some a /\ forall q v, leaf_at (t_params s') q v -> ((exists w, leaf_at a q w) <-> trains cfg q v).
Proof.
  intros K Kd Kc Kg Kz Ka KS BP P G H. pose proof (continue_structure _ _ _ _ _ _ KS P H) as ([P' Q'] & _). destruct P as [U D].
  unfold continue_fit in H. destruct (frzopt cfg (restored o_init file (fc_method cfg) s)) as [s1|] eqn:E; [|discriminate]. cbn [bind] in H.
  destruct (frzopt_kept o_init _ _ _ E) as (K1 & _ & _ & K4 & _ & K6). cbn [restored t_tx t_params t_grad] in *.
  assert (G1 : t_grad s1 = None) by (rewrite K6; destruct G as [-> | ->]; [reflexivity|destruct file; reflexivity]).
  assert (KS1 : forall p o, t_tx (with_params p s1) = Some o -> keeps_structure (o_update o)) by (intros p o T; cbn in T; rewrite K1 in T; injection T as <-; exact KS).
  unfold train_run in H. unfold trains. destruct (fc_freeze cfg) as [f|] eqn:F.
  - destruct (on_train_start (t_params s1) f) as [[fr tr]|] eqn:Es; [|discriminate]. cbn [bind] in H. destruct (foldM _ (b :: bs) _) as [s2|] eqn:Ef; [|discriminate]. cbn [bind] in H. injection H as <-. cbn [with_params t_params t_grad] in *.
    rewrite K4 in Es. destruct (split_spec f (t_params s) fr tr U D Es) as (Lab & Ufr & Utr & _ & _ & LF & LT & _).
    destruct (acc_run cfg r (Some fr) (b :: bs) K Kd Kc Kg Kz Ka (with_params tr s1) s2 (KS1 tr) Utr (or_introl G1) Ef) as (a & Ga & Sa); [left; discriminate|].
    destruct (steps_structure cfg r (Some fr) (b :: bs) (fc_method cfg) KS (with_params tr s1) s2 K1 Utr Ef) as (_ & S2 & _). cbn [with_params t_params] in S2.
    exists a. split; [exact Ga|]. intros q v Hq. assert (SS : same_structure tr a) by (eapply st_trans; eassumption). specialize (SS q).
    destruct (proj1 (Q' q) (ex_intro _ v Hq)) as [w Hw]. specialize (BP f eq_refl). split.
    + intros [x Hx]. unfold leaf_at in Hx. rewrite Hx in SS. destruct (at_path tr q) as [[y|?]|] eqn:Ey; [|contradiction|contradiction]. apply LT in Ey. rewrite (BP q v y). exact (proj2 Ey).
    + intros Ft. assert (Z : leaf_at tr q w) by (apply LT; split; [exact Hw|rewrite (BP q w v); exact Ft]). unfold leaf_at in Z. rewrite Z in SS. unfold leaf_at. destruct (at_path a q) as [[y|?]|]; [eauto|contradiction|contradiction].
  - destruct (acc_run cfg r None (b :: bs) K Kd Kc Kg Kz Ka s1 s') as (a & Ga & Sa); [intros o T; rewrite K1 in T; injection T as <-; exact KS|rewrite K4; exact U|left; exact G1|exact H|left; discriminate|].
    exists a. split; [exact Ga|]. intros q v Hq. split; [auto|]. intros _. specialize (Sa q). unfold leaf_at in *. rewrite Hq in Sa. destruct (at_path a q) as [[y|?]|]; [eauto|contradiction|contradiction].
Qed.
Theorem accumulated_other cfg cfg' r r' b bs b' bs' file (s s' : tstate) q v : 1 < fc_accumulation cfg -> 1 < fc_accumulation cfg' -> (forall l, keeps (diff l)) -> keeps (fc_clip cfg) -> (forall n, keeps (gdiv n)) -> keeps zeros -> adds gadd ->
  keeps_structure (o_update (fc_method cfg)) -> (forall f, fc_freeze cfg = Some f -> by_path f) -> (forall f, fc_freeze cfg' = Some f -> by_path f /\ labelled f (t_params s')) ->
  parameters (t_params s) -> (file = true \/ t_grad s = None) -> continue cfg r (b :: bs) file s = Ok s' ->
  leaf_at (t_params s') q v -> ~ (trains cfg q v <-> trains cfg' q v) ->
  continue cfg' r' (b' :: bs') false s' = Err ValueError.
Proof.
  intros K K' Kd Kc Kg Kz Ka KS BP BP' P G H Hq N. destruct (continue_acc _ _ _ _ _ _ _ K Kd Kc Kg Kz Ka KS BP P G H) as (a & Ga & La). destruct (continue_structure _ _ _ _ _ _ KS P H) as ([[U' D'] _] & _).
  unfold continue_fit. set (s0 := restored o_init false (fc_method cfg') s').
  assert (E0 : t_params s0 = t_params s' /\ t_grad s0 = Some a /\ t_tx s0 = Some (fc_method cfg')) by (cbn; auto). destruct E0 as (E1 & E2 & E3). clearbody s0.
  assert (Step : forall fr p (s1 : tstate), same_structure p p -> t_grad s1 = Some a -> t_params s1 = p -> ~ same_structure p a -> step cfg' r' fr s1 b' = Err ValueError).
  { intros fr p s1 _ Gs Ps NS. unfold train_step. apply Nat.ltb_lt in K'. rewrite K', Gs. match goal with |- context [gadd ?g a] => rewrite (proj2 (Ka g a)); [reflexivity|] end. intros X. apply NS. eapply st_trans; [|exact X]. rewrite <- Ps. apply Kd. }
  unfold freeze_optimizer_in_state, train_run, trains in *. destruct (fc_freeze cfg') as [f|] eqn:F.
  - destruct (BP' f eq_refl) as [Bf Lf]. destruct (proj2 (proj1 (split_total f _ U' D')) Lf) as [[fr tr] Es]. rewrite E1.
    pose proof Es as Es'. unfold on_train_start in Es'. destruct (get_frozen_paths (t_params s') (Some f)) as [fp|]; [|discriminate]. cbn [bind] in Es'. destruct (get_trainable_paths (t_params s') (Some f)) as [tp|]; [|discriminate]. cbn [bind] in *. destruct (extract (t_params s') fp); [|discriminate]. cbn [bind] in Es'. destruct (extract (t_params s') tp) as [tr0|] eqn:Ex; [|discriminate]. cbn [bind].
    cbn [with_opt t_params]. rewrite E1, Es. cbn [bind foldM]. rewrite (Step _ tr); [reflexivity|apply st_refl|exact E2|reflexivity|].
    intros X. apply N. rewrite <- (La q v Hq). pose proof (proj2 (split_partition f _ _ _ U' D' Es)) as LT. specialize (X q). split.
    + intros [w Hw]. unfold leaf_at in Hw. rewrite Hw in X. destruct (at_path tr q) as [[y|?]|] eqn:Ey; [|contradiction|contradiction]. apply LT in Ey. rewrite (Bf q v y). exact (proj2 Ey).
    + intros Ft. assert (Z : leaf_at tr q v) by (apply LT; now split). unfold leaf_at in *. rewrite Z in X. destruct (at_path a q) as [[y|?]|]; [eauto|contradiction|contradiction].
  - cbn [bind foldM]. rewrite (Step _ (t_params s')); [reflexivity|apply st_refl|exact E2|exact E1|]. intros X. apply N. rewrite <- (La q v Hq). split; [auto|]. intros _. specialize (X q). unfold leaf_at in *. rewrite Hq in X. destruct (at_path a q) as [[y|?]|]; [eauto|contradiction|contradiction].
Qed.
End Cont.
