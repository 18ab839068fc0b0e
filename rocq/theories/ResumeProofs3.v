(** Fits of ADVI that continue with other trainable parameters, and with paths out of order. *)
From Coq Require Import List Arith Lia Bool String Permutation Sorting.Sorted.
From Verif Require Import Lib NestedModel NestedSpec NestedProofs NestedProofs2 FreezeModel FreezeSpec FreezeProofs LapModel LapSpec LapProofs3 FlatModel FlatSpec FlatProofs FlatProofs2 FlatProofs3 FlatProofs4 EnsSpec ResumeModel ResumeSpec ResumeProofs ResumeProofs2.
Import ListNotations.
Open Scope list_scope.
Local Notation length := List.length.
Local Notation concat := List.concat.

Section Resume.
Context {V : Type}.
Notation ptree := (tree (list V)).
Implicit Types (t m init : ptree) (pos : list (path * list V)).

Lemma total_incl pos : forall pos', NoDup pos -> incl pos pos' -> total pos <= total pos'.
Proof.
  induction pos as [|[p v] r IH]; intros pos' ND I. { cbn. lia. }
  destruct (in_split (p, v) pos') as (a & b & ->). { apply I. now left. }
  inversion ND as [|? ? N ND']; subst. rewrite total_app, !total_cons. specialize (IH (a ++ b) ND'). rewrite total_app in IH.
  assert (incl r (a ++ b)). { intros x Hx. assert (X : In x (a ++ (p, v) :: b)) by (apply I; now right). apply in_app_or in X. apply in_or_app. destruct X as [X|[X|X]]; [now left|subst; contradiction|now right]. }
  specialize (IH H). lia.
Qed.
Lemma nodup_pairs pos : NoDup (map fst pos) -> NoDup pos.
Proof. apply NoDup_map_inv. Qed.
Lemma nodup_sleaves t : unique_keys t -> NoDup (sleaves t).
Proof. intros U. apply nodup_pairs. apply sorted_nodup. now apply sleaves_sorted. Qed.
Theorem frozen_then_plain init paths sizes decoded mean log_std st random train q v : unique_keys init -> arrays_at init paths sizes ->
  Permutation paths decoded -> length mean = list_sum sizes -> length log_std = list_sum sizes -> advi_state_paths init paths mean log_std = Ok st ->
  leaf_at init q v -> v <> [] -> ~ In q paths -> keeps_lengths train ->
  exists e, fit None (FromPaths decoded st) random train = Err e.
Proof.
  intros U A P H1 H2 E Q NV NQ K. destruct (arrays_reads init paths sizes A) as (pos & <- & <- & R). rewrite <- total_sizes in H1, H2.
  destruct (stored_state init pos decoded mean log_std R H1 H2 P) as (m & tl & st' & d2 & Em & El & Rm & Rl & Es & Eu & Ex). assert (st' = st) by congruence. subst st'.
  assert (LP : leaf_paths tl decoded). { apply (reads_leaf_paths tl (cut pos log_std)) in Rl. rewrite cut_paths in Rl. destruct Rl as [ND F]. split; [apply (Permutation_NoDup P ND)|]. rewrite Forall_forall in *. intros p Hp. apply F. apply (Permutation_in _ (Permutation_sym P) Hp). }
  destruct (extract_spec tl decoded LP) as (X2 & Ex2 & UX & DX & LX & _). assert (X2 = d2) by congruence. subst X2.
  destruct (unravel_paths_ok init pos mean R H1) as (m' & Em' & _ & SO & _). assert (m' = m) by congruence. subst m'.
  assert (UM : unique_keys m) by exact (set_paths_unique_l init m pos mean R H1 U Em).
  assert (L2 : length (ravel d2) <= total pos).
  { rewrite <- total_ravel, <- (cut_total pos log_std H2). apply total_incl; [now apply nodup_sleaves|]. intros [p w] Hp. apply sleaves_at in Hp; [|exact UX]. apply LX in Hp. destruct Hp as [I B].
    apply (Permutation_in _ (Permutation_sym P)) in I. rewrite <- (cut_paths pos log_std) in I. apply in_map_iff in I. destruct I as ([p' w'] & <- & I). destruct Rl as [_ F]. rewrite Forall_forall in F. destruct (F _ I) as [_ B']. cbn [fst snd] in *. unfold leaf_at in B'. congruence. }
  assert (L1 : total pos + length v <= length (ravel m)).
  { rewrite <- total_ravel, <- (cut_total pos mean H1). rewrite Nat.add_comm. change (length v + total (cut pos mean)) with (total ((q, v) :: cut pos mean)) at 1 || rewrite <- (total_cons q v).
    apply total_incl.
    - constructor. + intros I. apply NQ. apply (in_map fst) in I. rewrite cut_paths in I. exact I. + apply nodup_pairs. rewrite cut_paths. exact (proj1 R).
    - intros [p w] [I|I]. + injection I as -> ->. apply sleaves_at; [exact UM|]. now apply SO. + apply sleaves_at; [exact UM|]. destruct Rm as [_ F]. rewrite Forall_forall in F. exact (proj2 (F _ I)). }
  assert (NZ : 0 < length v) by (destruct v; [congruence|cbn; lia]).
  unfold fit, resume_trees. rewrite Eu. cbn [bind fst snd start_vectors option_map init_log_std]. destruct (train (ravel m) (ravel d2)) as [[a b]|e] eqn:T; [|cbn [bind]; eauto]. destruct (K _ _ _ _ T) as [_ K2].
  cbn [bind fst snd]. unfold plain_state. destruct (bind (unravel m a) unwrap) as [ms|e]; [|cbn [bind]; eauto]. cbn [bind].
  unfold unravel. assert (NE : (length b =? length (ravel m)) = false) by (apply Nat.eqb_neq; lia). rewrite NE. cbn [bind]. eauto.
Qed.

Lemma get_missing p : forall t, p <> [] -> at_path t p = None -> (forall r s v, p = r ++ s -> s <> [] -> at_path t r <> Some (Leaf v)) -> nested_get t p = Err KeyError.
Proof.
  induction p as [|k ks IH]; intros t N Nn L; [congruence|]. destruct t as [x|kvs]. { exfalso. apply (L [] (k :: ks) x); [reflexivity|discriminate|reflexivity]. }
  rewrite at_cons in Nn. simpl nested_get. destruct (assoc_get k kvs) as [u|] eqn:Ea; [|reflexivity]. destruct ks as [|k' ks]; [simpl in Nn; discriminate|]. apply IH; [discriminate|exact Nn|].
  intros r s v Er Ns Hr. apply (L (k :: r) s v); [cbn; now rewrite Er|exact Ns|]. rewrite at_cons, Ea. exact Hr.
Qed.
Lemma mapM_key (g : path -> result ptree) l : (forall p, In p l -> (exists t, g p = Ok t) \/ g p = Err KeyError) -> (exists p, In p l /\ g p = Err KeyError) -> mapM g l = Err KeyError.
Proof.
  induction l as [|p l IH]; intros H (q & I & E); [destruct I|]. cbn [mapM]. destruct (H p (or_introl eq_refl)) as [[t Ht]|Ht]; rewrite Ht; [|reflexivity]. cbn [bind].
  destruct I as [->|I]; [congruence|]. rewrite IH; [reflexivity|intros x Hx; apply H; now right|eauto].
Qed.
Lemma leaf_inside t p s v w : at_path t p = Some (Leaf v) -> s <> [] -> at_path t (p ++ s) <> Some (Leaf w).
Proof. intros H N. rewrite at_app, H. destruct s; [congruence|discriminate]. Qed.
Theorem frozen_then_wider f init paths sizes decoded mean log_std st random train paths' sizes' q : by_path f -> unique_keys init -> arrays_at init paths sizes ->
  Permutation paths decoded -> length mean = list_sum sizes -> length log_std = list_sum sizes -> advi_state_paths init paths mean log_std = Ok st ->
  get_trainable_paths init (Some f) = Ok paths' -> arrays_at init paths' sizes' -> In q paths' -> ~ In q paths ->
  fit (Some f) (FromPaths decoded st) random train = Err KeyError.
Proof.
  intros BP U A P H1 H2 E G A' IQ NQ. assert (LP' : leaf_paths init paths') by (destruct (arrays_reads init paths' sizes' A') as (pos' & <- & _ & R'); exact (reads_leaf_paths init pos' R')). destruct (arrays_reads init paths sizes A) as (pos & <- & <- & R). rewrite <- total_sizes in H1, H2.
  destruct (stored_state init pos decoded mean log_std R H1 H2 P) as (m & tl & st' & d2 & Em & El & Rm & Rl & Es & Eu & Ex). assert (st' = st) by congruence. subst st'.
  assert (LP : leaf_paths tl decoded). { apply (reads_leaf_paths tl (cut pos log_std)) in Rl. rewrite cut_paths in Rl. destruct Rl as [ND F]. split; [apply (Permutation_NoDup P ND)|]. rewrite Forall_forall in *. intros p Hp. apply F. apply (Permutation_in _ (Permutation_sym P) Hp). }
  destruct (extract_spec tl decoded LP) as (X2 & Ex2 & UX & _ & LX & OX). assert (X2 = d2) by congruence. subst X2.
  destruct (unravel_paths_ok init pos mean R H1) as (m' & Em' & _ & SO & _). assert (m' = m) by congruence. subst m'.
  assert (DI : forall p, In p decoded -> p <> [] /\ exists v, leaf_at init p v). { intros p Hp. apply (Permutation_in _ (Permutation_sym P)) in Hp. exact (reads_in init pos p R Hp). }
  destruct LP' as [ND' F']. rewrite Forall_forall in F'.
  assert (GM : forall p, In p paths' -> exists v, nested_get m p = Ok (Leaf v)).
  { intros p Hp. destruct (F' p Hp) as [N [v Hv]]. destruct (in_dec (list_eq_dec string_dec) p (map fst pos)) as [I|I].
    - rewrite <- (cut_paths pos mean) in I. destruct (reads_in m _ p Rm I) as [_ [w Hw]]. exists w. now apply nested_get_spec.
    - exists v. apply nested_get_spec; [exact N|]. now apply SO. }
  assert (GD : forall p, In p paths' -> (exists t, nested_get d2 p = Ok t) \/ nested_get d2 p = Err KeyError).
  { intros p Hp. destruct (F' p Hp) as [N [v Hv]]. destruct (at_path d2 p) as [u|] eqn:Ea. { left. exists u. now apply nested_get_spec. }
    right. apply get_missing; [exact N|exact Ea|]. intros r s w Er Ns Hr. apply LX in Hr. destruct Hr as [Ir _]. destruct (DI r Ir) as [_ [w' Hw']]. rewrite Er in Hv. exact (leaf_inside init r s w' v Hw' Ns Hv). }
  assert (GQ : nested_get d2 q = Err KeyError).
  { destruct (GD q IQ) as [[u Hu]|]; [|assumption]. exfalso. destruct (F' q IQ) as [N [v Hv]]. apply nested_get_spec in Hu; [|exact N]. destruct (OX q) as [|(p & Ip & s & Ep)]; [congruence|contradiction|].
    destruct (DI p Ip) as [_ [w Hw]]. destruct s as [|k s]. { rewrite app_nil_r in Ep. subst p. apply NQ. apply (Permutation_in _ (Permutation_sym P) Ip). }
    rewrite Ep in Hw. refine (leaf_inside init q (k :: s) v w Hv _ Hw). discriminate. }
  unfold fit, resume_trees. rewrite Eu. cbn [bind fst snd]. unfold start_vectors. rewrite (labels_skel f m init BP (reads_skel init m pos mean R H1 Em)), G. cbn [bind].
  assert (RM : exists l, ravel_paths m paths' = Ok l).
  { unfold ravel_paths. assert (X : exists objs, mapM (nested_get m) paths' = Ok objs). { clear - GM. induction paths' as [|p l IH]; [cbn; eauto|]. destruct (GM p (or_introl eq_refl)) as [v Hv]. cbn [mapM]. rewrite Hv. cbn [bind]. destruct IH as [o Ho]; [intros x Hx; apply GM; now right|]. rewrite Ho. cbn [rmap bind]. eauto. }
    destruct X as [o ->]. cbn [rmap]. eauto. }
  destruct RM as [l ->]. cbn [bind]. unfold ravel_trainable, extract. rewrite (mapM_key (nested_get d2) paths' GD); [reflexivity|]. exists q. now split.
Qed.
End Resume.
