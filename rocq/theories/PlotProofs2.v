(** What the reliability diagrams show. *)
From Coq Require Import List Arith QArith Bool Lia Lqa String Permutation Sorted.
From Verif Require Import Lib LoaderProofs PlotModel PlotSpec.
Import ListNotations.
Local Open Scope nat_scope.
Local Open Scope list_scope.
Local Notation length := List.length.

Lemma gather_nth {A} d (l : list A) idx : Forall (fun i => i < length l) idx -> gather idx l = Ok (map (fun i => nth i l d) idx).
Proof.
  intros F. unfold gather. apply mapM_ok_map. intros i I. rewrite Forall_forall in F. specialize (F i I). rewrite (nth_error_nth' l d F). reflexivity.
Qed.
Lemma combine_maps {A B D} (f : A -> B) (g : A -> D) l : combine (map f l) (map g l) = map (fun x => (f x, g x)) l.
Proof. induction l; cbn; congruence. Qed.
Lemma sorted_fst (l : list (Q * Q)) : StronglySorted Qle (map fst l) -> StronglySorted (fun p q => (fst p <= fst q)%Q) l.
Proof.
  induction l as [|x l IH]; intros S; [constructor|]. inversion S as [|? ? S' F]; subst. constructor; [now apply IH|]. rewrite Forall_map in F. exact F.
Qed.
Lemma line_spec argsort a c : argsorts argsort -> length a = length c -> exists l, line argsort a c = Ok l /\ Permutation l (gaps c a) /\ StronglySorted (fun p q => (fst p <= fst q)%Q) l.
Proof.
  intros AS L. destruct (AS c) as (P & SS). unfold line, gap. rewrite L, Nat.eqb_refl. cbn [bind].
  assert (F : Forall (fun i => i < length c) (argsort c)).
  { apply Forall_forall. intros i I. apply (Permutation_in _ P) in I. apply in_seq in I. lia. }
  rewrite (gather_nth 0%Q c _ F). cbn [bind]. set (d := map _ (combine c a)).
  assert (LD : length d = length c) by (unfold d; rewrite map_length, combine_length; lia).
  rewrite (gather_nth (0 - 0)%Q d) by (now rewrite LD). cbn [bind]. rewrite combine_maps.
  assert (N : forall i, nth i d (0 - 0)%Q = (nth i c 0 - nth i a 0)%Q).
  { intros i. unfold d. rewrite (map_nth (fun p => (fst p - snd p)%Q) (combine c a) (0%Q, 0%Q)). rewrite combine_nth by (now symmetry). reflexivity. }
  eexists. split; [reflexivity|]. split.
  - unfold gaps. rewrite (map_ext _ (fun i => (nth i c 0, nth i c 0 - nth i a 0)%Q)) by (intros i; now rewrite N). now apply Permutation_map.
  - apply sorted_fst. rewrite map_map. cbn [fst]. exact SS.
Qed.
Lemma mapM_nth {A B} (f : A -> result B) (R : A -> B -> Prop) l : (forall x, In x l -> exists y, f x = Ok y /\ R x y) ->
  exists ys, mapM f l = Ok ys /\ Forall2 R l ys.
Proof.
  induction l as [|x l IH]; intros H; [exists []; split; [reflexivity|constructor]|].
  destruct (H x (or_introl eq_refl)) as (y & E & RX). destruct IH as (ys & E' & F); [intros z I; apply H; now right|]. exists (y :: ys). cbn [mapM]. rewrite E. cbn [bind]. rewrite E'. split; [reflexivity|]. now constructor.
Qed.
Lemma Forall2_nth2 {A B} (R : A -> B -> Prop) l m da db : Forall2 R l m -> length l = length m /\ forall i, i < length l -> R (nth i l da) (nth i m db).
Proof.
  induction 1 as [|x y l m E F IH]; [split; [reflexivity|cbn; lia]|]. destruct IH as (L & N). split; [cbn; now rewrite L|]. intros [|i] I; [exact E|]. apply N. cbn in I. lia.
Qed.
Lemma nth_pairs (accs confs : list (list Q)) i : length accs = length confs -> i < length accs ->
  nth i (combine (seq 0 (length accs)) (combine accs confs)) (0, ([], [])) = (i, (nth i accs [], nth i confs [])).
Proof.
  intros L I. rewrite combine_nth by (rewrite seq_length, combine_length; lia). rewrite seq_nth, combine_nth by assumption. reflexivity.
Qed.

Theorem diagram : forall argsort accs confs names, argsorts argsort -> length accs = length confs ->
  (forall i, i < length accs -> length (nth i accs []) = length (nth i confs [])) ->
  (names = NoLabels \/ names = ManyLabels [] \/ exists l, names = ManyLabels l /\ length l = length accs) ->
  exists lines, plot_reliability argsort (Many accs) (Many confs) names = Ok lines /\ length lines = length accs /\
    forall i, i < length accs -> exists l, nth_error lines i = Some (l, match names with ManyLabels ns => nth_error ns i | _ => None end) /\
      Permutation l (gaps (nth i confs []) (nth i accs [])) /\ StronglySorted (fun p q => (fst p <= fst q)%Q) l.
Proof.
  intros argsort accs confs names AS L LL NM. unfold plot_reliability. cbn [as_list]. rewrite L, Nat.eqb_refl. cbn [negb]. rewrite <- L.
  assert (LB : match label_list names with Some l => negb (length accs =? length l) | None => false end = false).
  { destruct NM as [->|[->|(l & -> & N)]]; [reflexivity|reflexivity|]. destruct l; [reflexivity|]. cbn [label_list]. rewrite N, Nat.eqb_refl. reflexivity. }
  rewrite LB.
  assert (LK : forall i, match label_list names with Some l => nth_error l i | None => None end = match names with ManyLabels ns => nth_error ns i | _ => None end).
  { intros i. destruct NM as [->|[->|(l & -> & N)]]; [reflexivity|now destruct i|]. destruct l; [now destruct i|reflexivity]. }
  set (f := fun iac : nat * (list Q * list Q) => _).
  destruct (mapM_nth f (fun iac y => snd y = match names with ManyLabels ns => nth_error ns (fst iac) | _ => None end /\ Permutation (fst y) (gaps (snd (snd iac)) (fst (snd iac))) /\ StronglySorted (fun p q => (fst p <= fst q)%Q) (fst y)) (combine (seq 0 (length accs)) (combine accs confs))) as (ys & E & F).
  { intros x I. apply (In_nth _ _ (0, ([], []))) in I. destruct I as (i & I & <-). rewrite combine_length, seq_length, combine_length in I. rewrite nth_pairs by (auto; lia).
    unfold f. destruct (line_spec argsort (nth i accs []) (nth i confs []) AS) as (l & E & P & SS); [apply LL; lia|]. rewrite E. cbn [rmap]. eexists. split; [reflexivity|]. cbn [fst snd]. rewrite LK. auto. }
  exists ys. split; [exact E|]. destruct (Forall2_nth2 _ _ _ (0, ([], [])) ([], None) F) as (LY & N). rewrite combine_length, seq_length, combine_length in LY. assert (LY' : length ys = length accs) by lia. split; [exact LY'|].
  intros i I. specialize (N i). rewrite combine_length, seq_length, combine_length in N. specialize (N ltac:(lia)). rewrite nth_pairs in N by assumption. destruct N as (N1 & N2 & N3). cbn [fst snd] in *.
  exists (fst (nth i ys ([], None))). split; [|now split]. rewrite <- N1, <- surjective_pairing. apply nth_error_nth'. lia.
Qed.
Theorem diagram_one : forall argsort a c names, plot_reliability argsort (One a) (One c) names = plot_reliability argsort (Many [a]) (Many [c]) names.
Proof. reflexivity. Qed.
Theorem diagram_label : forall argsort accs confs s, plot_reliability argsort accs confs (OneLabel s) = plot_reliability argsort accs confs (match s with EmptyString => NoLabels | _ => ManyLabels [s] end).
Proof. intros argsort accs confs s. now destruct s. Qed.
Theorem diagram_rejects : forall argsort accs confs names,
  length accs <> length confs \/ (exists ns, names = ManyLabels ns /\ ns <> [] /\ length ns <> length accs) \/ (exists s, names = OneLabel s /\ s <> EmptyString /\ length accs <> 1) ->
  plot_reliability argsort (Many accs) (Many confs) names = Err ValueError.
Proof.
  intros argsort accs confs names H. unfold plot_reliability. cbn [as_list]. destruct (Nat.eqb_spec (length accs) (length confs)) as [E|E]; [|reflexivity]. cbn [negb].
  assert (LB : match label_list names with Some l => negb (length accs =? length l) | None => false end = true); [|now rewrite LB].
  destruct H as [H|[(ns & -> & NE & N)|(s & -> & NE & N)]]; [congruence| |].
  - destruct ns; [congruence|]. cbn [label_list]. apply negb_true_iff, Nat.eqb_neq. congruence.
  - destruct s; [congruence|]. cbn [label_list length]. now apply negb_true_iff, Nat.eqb_neq.
Qed.
(** a single accuracy stands for the accuracies of all bins; a curve with one confidence shows only the first of the accuracies *)
Theorem diagram_broadcast : forall argsort x c names, argsorts argsort ->
  length c <> 1 -> plot_reliability argsort (One [x]) (One c) names = plot_reliability argsort (One (map (fun _ => x) c)) (One c) names.
Proof.
  intros argsort x c names AS N. unfold plot_reliability. cbn [as_list length combine seq]. assert (E : line argsort [x] c = line argsort (map (fun _ => x) c) c); [|cbn [mapM]; now rewrite E].
  unfold line. f_equal. unfold gap. rewrite map_length, Nat.eqb_refl. cbn [length]. destruct (Nat.eqb_spec (length c) 1) as [|_]; [contradiction|].
  assert (M : map (fun x0 : Q => (x0 - x)%Q) c = map (fun p => (fst p - snd p)%Q) (combine c (map (fun _ => x) c))).
  { clear. induction c as [|y c IH]; [reflexivity|]. cbn [map combine fst snd]. now rewrite IH. }
  destruct c as [|y [|z c]]; now rewrite M.
Qed.
Theorem diagram_one_confidence : forall argsort x y a, argsorts argsort -> plot_reliability argsort (One (y :: a)) (One [x]) NoLabels = Ok [([(x, (x - y)%Q)], None)].
Proof.
  intros argsort x y a AS. destruct (AS [x]) as (P & _). cbn [length seq] in P. apply Permutation_sym, Permutation_length_1_inv in P.
  unfold plot_reliability. cbn [as_list length Nat.eqb negb combine seq mapM label_list]. unfold line. rewrite P.
  assert (G : exists r, gap [x] (y :: a) = Ok ((x - y)%Q :: r)) by (unfold gap; destruct a; cbn; eexists; reflexivity). destruct G as (r & ->). reflexivity.
Qed.
Theorem diagram_shape : forall argsort a c names, length a <> length c -> length a <> 1 -> length c <> 1 -> (names = NoLabels \/ exists s, names = OneLabel s) ->
  plot_reliability argsort (One a) (One c) names = Err ValueError.
Proof.
  intros argsort a c names N NA NC NM.
  assert (E : line argsort a c = Err ValueError).
  { unfold line, gap. destruct (Nat.eqb_spec (length c) (length a)) as [E|_]; [congruence|]. destruct c as [|x [|x' c]]; [|cbn in NC; lia|]; destruct a as [|y [|y' a]]; cbn in *; try lia; try reflexivity. }
  unfold plot_reliability. cbn [as_list length Nat.eqb negb combine seq mapM]. rewrite E. destruct NM as [->|(s & ->)]; [reflexivity|]. now destruct s.
Qed.

(** sorting by insertion is an argsort *)
From Verif Require Import PlotCases.
Lemma insert_perm c i l : Permutation (insert c i l) (i :: l).
Proof. induction l as [|j l IH]; [apply Permutation_refl|]. cbn [insert]. destruct (Qle_bool _ _); [apply Permutation_refl|]. eapply perm_trans; [apply perm_skip, IH|apply perm_swap]. Qed.
Lemma insert_sorted c i l : StronglySorted (fun i j => (nth i c 0 <= nth j c 0)%Q) l -> StronglySorted (fun i j => (nth i c 0 <= nth j c 0)%Q) (insert c i l).
Proof.
  induction 1 as [|j l SS IH F]; [cbn; repeat constructor|]. cbn [insert]. destruct (Qle_bool (nth i c 0%Q) (nth j c 0%Q)) eqn:E.
  - apply Qle_bool_iff in E. constructor; [now constructor|]. constructor; [exact E|]. eapply Forall_impl; [|exact F]. intros k K. cbn beta in K. lra.
  - constructor; [exact IH|]. assert (NE : (nth j c 0 <= nth i c 0)%Q). { destruct (Qlt_le_dec (nth i c 0%Q) (nth j c 0%Q)) as [H|H]; [|exact H]. assert (T : Qle_bool (nth i c 0%Q) (nth j c 0%Q) = true) by (apply Qle_bool_iff; lra). congruence. }
    apply Forall_forall. intros k K. apply (Permutation_in _ (insert_perm c i l)) in K. destruct K as [<-|K]; [exact NE|]. rewrite Forall_forall in F. now apply F.
Qed.
Theorem insertion_argsorts : argsorts insertion_argsort.
Proof.
  intros c. unfold insertion_argsort. split.
  - induction (seq 0 (length c)) as [|i l IH]; [apply Permutation_refl|]. cbn [fold_right]. eapply perm_trans; [apply insert_perm|]. now apply perm_skip.
  - assert (S : forall l, StronglySorted (fun i j => (nth i c 0 <= nth j c 0)%Q) (fold_right (insert c) [] l)).
    { induction l as [|i l IH]; [constructor|]. cbn [fold_right]. now apply insert_sorted. }
    specialize (S (seq 0 (length c))). induction S as [|i l SS IH F]; [constructor|]. cbn [map]. constructor; [exact IH|]. apply Forall_map. exact F.
Qed.
