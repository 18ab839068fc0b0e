(** Proofs for DrawProps: keys and histories. *)
From Coq Require Import List Arith Bool Lia.
From Verif Require Import Lib DrawModel DrawSpec.
Import ListNotations.
Local Open Scope nat_scope.

Lemma nth_split label k n i : i < n -> nth_key (split label k n) i = k ++ [Cut (label n) i].
Proof.
  intros H. unfold nth_key, split. rewrite (nth_indep _ [] (child label k n 0)) by now rewrite map_length, seq_length.
  rewrite map_nth, seq_nth by auto. reflexivity.
Qed.
Lemma hd_split label k n : hd [] (split label k (1 + n)) = k ++ [Cut (label (1 + n)) 0].
Proof. reflexivity. Qed.
Lemma in_split label k n a : In a (split label k n) <-> exists i, i < n /\ a = k ++ [Cut (label n) i].
Proof.
  unfold split. rewrite in_map_iff. split.
  - intros (i & E & I). apply in_seq in I. exists i. split; [lia|]. now rewrite <- E.
  - intros (i & L & ->). exists i. split; [reflexivity|]. apply in_seq. lia.
Qed.
Lemma in_tl_split label k n a : In a (tl (split label k (1 + n))) -> exists i, 1 <= i /\ a = k ++ [Cut (label (1 + n)) i].
Proof.
  unfold split. cbn [plus seq map tl]. rewrite in_map_iff. intros (i & E & I). apply in_seq in I. exists i. split; [lia|]. now rewrite <- E.
Qed.
Lemma rng_get_eq label g : rng_get label g = (g ++ [Cut (label 2) 0], g ++ [Cut (label 2) 0]).
Proof. reflexivity. Qed.

(** apart *)
Lemma apart_sym a b : apart a b -> apart b a.
Proof. now intros [? ?]; split. Qed.
Lemma apart_cons_ne k m m' t t' : m <> m' -> apart (k ++ m :: t) (k ++ m' :: t').
Proof.
  intros N. split; intros (ms & E); rewrite <- app_assoc in E; apply app_inv_head in E; inversion E; auto.
Qed.
Lemma apart_app k a b : apart a b -> apart (k ++ a) (k ++ b).
Proof.
  intros [H1 H2]. split; intros (ms & E); rewrite <- app_assoc in E; apply app_inv_head in E; [apply H1|apply H2]; now exists ms.
Qed.
Lemma independent_app l1 l2 : independent l1 -> independent l2 -> (forall a b, In a l1 -> In b l2 -> apart a b) -> independent (l1 ++ l2).
Proof.
  unfold independent. intros H1 H2 H. induction H1 as [|a l F O IH]; cbn; auto.
  constructor.
  - apply Forall_app. split; auto. apply Forall_forall. intros b I. apply H; [now left|auto].
  - apply IH. intros a' b' I J. apply H; [now right|auto].
Qed.
Lemma independent_map {A} (f : A -> key) l : (forall a b, In a l -> In b l -> a <> b -> apart (f a) (f b)) -> NoDup l -> independent (map f l).
Proof.
  unfold independent. intros H ND. induction ND as [|a l N ND IH]; cbn; constructor.
  - apply Forall_forall. intros b I. apply in_map_iff in I as (c & <- & I). apply H; [now left|now right|]. intros ->. auto.
  - apply IH. intros x y I J. apply H; now right.
Qed.
Lemma independent_not_dup ks a l1 l2 l3 : ks = l1 ++ a :: l2 ++ a :: l3 -> ~ independent ks.
Proof.
  intros -> I. unfold independent in I. induction l1 as [|b l1 IH]; cbn in I; inversion I; subst; auto.
  rewrite Forall_forall in H1. destruct (H1 a) as [N _]; [apply in_or_app; right; now left|]. apply N. exists []. now rewrite app_nil_r.
Qed.
Lemma independent_apart l1 l2 a b : independent (l1 ++ l2) -> In a l1 -> In b l2 -> apart a b.
Proof.
  unfold independent. induction l1 as [|c l1 IH]; cbn; intros I A B; [destruct A|]. inversion I; subst. destruct A as [->|A]; auto.
  rewrite Forall_forall in H1. apply H1. apply in_or_app. now right.
Qed.

Lemma split_independent label k n : independent (split label k n).
Proof.
  apply independent_map; [|apply seq_NoDup]. intros a b _ _ N. unfold child. apply apart_cons_ne. intros E. inversion E. auto.
Qed.

(** shape of the keys of a call *)
Lemma drawn_shape label k c a : clean label c -> In a (drawn label k c) ->
  (exists m t, a = k ++ m :: t /\ m <> Cut (label 2) 0 /\ ((forall n, c <> Variances n) -> m <> Cut (label 2) 1))
  \/ (exists n t, c = Variances n /\ a = k ++ Cut (label 2) 0 :: Cut (label 2) 1 :: t).
Proof.
  intros C I. destruct c as [n|n|n|n|n]; cbn [drawn clean] in *.
  - left. apply in_split in I as (i & _ & ->). do 2 eexists. split; [reflexivity|]. split; [|intros _]; intros E; inversion E; auto.
  - left. rewrite hd_split in I. apply in_app_or in I as [I|I].
    + apply in_split in I as (i & _ & ->). rewrite <- app_assoc. do 2 eexists. split; [reflexivity|]. split; [|intros _]; intros E; inversion E; auto.
    + apply in_tl_split in I as (i & _ & ->). do 2 eexists. split; [reflexivity|]. split; [|intros _]; intros E; inversion E; auto.
  - left. apply in_flat_map in I as (b & I & J). apply in_split in I as (i & _ & ->). apply in_split in J as (j & _ & ->).
    rewrite <- app_assoc. do 2 eexists. split; [reflexivity|]. split; [|intros _]; intros E; inversion E; auto.
  - rewrite !nth_split in I by lia. apply in_app_or in I as [I|I]; apply in_split in I as (i & _ & ->); rewrite <- !app_assoc.
    + left. do 2 eexists. split; [reflexivity|]. split; [intros E; inversion E|intros N; destruct (N n eq_refl)].
    + right. do 2 eexists. split; reflexivity.
  - left. apply in_map_iff in I as (i & <- & _). do 2 eexists. split; [reflexivity|]. split; [|intros _]; intros E; inversion E.
Qed.
Lemma drawn_prefix label k c a : In a (drawn label k c) -> exists m t, a = k ++ m :: t.
Proof.
  intros I. destruct c as [n|n|n|n|n]; cbn [drawn] in *.
  - apply in_split in I as (i & _ & ->). eauto.
  - rewrite hd_split in I. apply in_app_or in I as [I|I].
    + apply in_split in I as (i & _ & ->). rewrite <- app_assoc. cbn. eauto.
    + apply in_tl_split in I as (i & _ & ->). eauto.
  - apply in_flat_map in I as (b & I & J). apply in_split in I as (i & _ & ->). apply in_split in J as (j & _ & ->).
    rewrite <- app_assoc. cbn. eauto.
  - rewrite !nth_split in I by lia. apply in_app_or in I as [I|I]; apply in_split in I as (i & _ & ->); rewrite <- !app_assoc; cbn; eauto.
  - apply in_map_iff in I as (i & <- & _). unfold fold_in. eauto.
Qed.
Lemma history_prefix label cs : forall g a, In a (history label g cs) -> exists m t, a = g ++ Cut (label 2) 0 :: m :: t.
Proof.
  induction cs as [|c cs IH]; intros g a I; cbn [history] in I; [destruct I|]. rewrite rng_get_eq in I.
  apply in_app_or in I as [I|I].
  - apply drawn_prefix in I as (m & t & ->). rewrite <- app_assoc. cbn. eauto.
  - apply IH in I as (m & t & ->). rewrite <- app_assoc. cbn. eauto.
Qed.

(** one call *)
Theorem drawn_independent : forall label k c, independent (drawn label k c).
Proof.
  intros label k c. destruct c as [n|n|n|n|n]; cbn [drawn].
  - apply split_independent.
  - rewrite hd_split. apply independent_app; [apply split_independent| |].
    + unfold split. cbn [plus seq map tl]. apply independent_map; [|apply seq_NoDup]. intros a b _ _ N. apply apart_cons_ne. intros E. inversion E. auto.
    + intros a b I J. apply in_split in I as (i & _ & ->). apply in_tl_split in J as (j & L & ->).
      rewrite <- app_assoc. cbn. apply apart_cons_ne. intros E. inversion E. lia.
  - assert (H : forall l, NoDup l -> independent (flat_map (fun k0 => split label k0 2) (map (child label k n) l))).
    { induction l as [|i l IH]; intros ND; cbn [map flat_map]; [constructor|]. inversion ND; subst.
      apply independent_app; [apply split_independent|auto|].
      intros a b I J. apply in_split in I as (u & _ & ->). apply in_flat_map in J as (c & I & J). apply in_map_iff in I as (i' & <- & I).
      apply in_split in J as (w & _ & ->). unfold child. rewrite <- !app_assoc. cbn. apply apart_cons_ne. intros E. inversion E; subst. auto. }
    apply H, seq_NoDup.
  - rewrite !nth_split by lia. apply independent_app; try apply split_independent.
    intros a b I J. apply in_split in I as (i & _ & ->). apply in_split in J as (j & _ & ->). rewrite <- !app_assoc. cbn.
    apply apart_cons_ne. intros E. inversion E.
  - apply independent_map; [|apply seq_NoDup]. intros a b _ _ N. apply apart_cons_ne. intros E. inversion E. auto.
Qed.

Theorem history_independent : forall label g cs, Forall (clean label) cs -> no_variances_twice cs -> independent (history label g cs).
Proof.
  intros label g cs. revert g. induction cs as [|c cs IH]; intros g C NV; cbn [history]; [constructor|].
  rewrite rng_get_eq. inversion C as [|x y Cc Cs]; subst. clear C. set (k := g ++ [Cut (label 2) 0]).
  apply independent_app.
  - apply drawn_independent.
  - apply IH; auto. intros l1 n m l2 ->. apply (NV (c :: l1) n m l2). reflexivity.
  - intros a b I J. destruct (drawn_shape label k c a Cc I) as [(m & t & -> & N & _)|(n & t & -> & ->)].
    + destruct (history_prefix _ _ _ _ J) as (m' & t' & ->). now apply apart_cons_ne.
    + destruct cs as [|c' cs]; [destruct J|]. cbn [history] in J. rewrite rng_get_eq in J. inversion Cs as [|x y Cc' _]; subst.
      assert (NVc : forall n', c' <> Variances n') by (intros n' ->; apply (NV [] n n' cs); reflexivity).
      change (k ++ Cut (label 2) 0 :: Cut (label 2) 1 :: t) with (k ++ [Cut (label 2) 0] ++ Cut (label 2) 1 :: t). rewrite app_assoc.
      apply in_app_or in J as [J|J].
      * destruct (drawn_shape label _ c' b Cc' J) as [(m' & t' & -> & _ & N)|(n' & t' & -> & _)]; [|now destruct (NVc n')].
        apply apart_cons_ne. intros E. now apply (N NVc).
      * destruct (history_prefix _ _ _ _ J) as (m' & t' & ->). apply apart_cons_ne. discriminate.
Qed.

(** what breaks it *)
Theorem variances_twice : forall label g n cs, 1 <= n ->
  exists a l1 l2 l3, history label g (Variances n :: Variances n :: cs) = l1 ++ a :: l2 ++ a :: l3.
Proof.
  intros label g n cs H. cbn [history]. rewrite !rng_get_eq. set (k := g ++ [Cut (label 2) 0]). cbn [drawn]. rewrite !nth_split by lia.
  destruct n as [|n]; [lia|]. set (w := (k ++ [Cut (label 2) 0]) ++ [Cut (label 2) 1]).
  set (l0 := split label (k ++ [Cut (label 2) 1]) (S n)).
  exists (w ++ [Cut (label (S n)) 0]), l0, (tl (split label w (S n))). eexists.
  rewrite <- !app_assoc. f_equal. cbn [split seq map tl]. cbn [app]. f_equal. 
Qed.
Lemma nonempty_drawn label k c : draws_something c -> exists a l, drawn label k c = a :: l.
Proof.
  destruct c as [n|n|n|n|n]; cbn [draws_something drawn]; intros H; destruct n as [|n]; try lia; cbn; eauto.
Qed.
Theorem average_then_any : forall label g n c cs, 1 <= n -> label n = label 2 -> draws_something c ->
  ~ independent (history label g (Average n :: c :: cs)).
Proof.
  intros label g n c cs H E D I. cbn [history] in I. rewrite !rng_get_eq in I. set (k := g ++ [Cut (label 2) 0]) in *.
  destruct (nonempty_drawn label (k ++ [Cut (label 2) 0]) c D) as (b & l & Eb).
  pose proof (independent_apart _ _ (k ++ [Cut (label 2) 0]) b I) as A.
  assert (I1 : In (k ++ [Cut (label 2) 0]) (drawn label k (Average n))).
  { cbn [drawn]. apply in_split. exists 0. split; [lia|]. now rewrite E. }
  assert (I2 : In b (drawn label (k ++ [Cut (label 2) 0]) c ++ history label (k ++ [Cut (label 2) 0]) cs)).
  { apply in_or_app. left. rewrite Eb. now left. }
  destruct (A I1 I2) as [N _]. apply N. destruct (drawn_prefix label (k ++ [Cut (label 2) 0]) c b) as (m & t & ->).
  { rewrite Eb. now left. } now exists (m :: t).
Qed.
Lemma shared_key label g c c' cs a : In a (drawn label (g ++ [Cut (label 2) 0]) c) ->
  In a (drawn label ((g ++ [Cut (label 2) 0]) ++ [Cut (label 2) 0]) c') ->
  exists l1 l2 l3, history label g (c :: c' :: cs) = l1 ++ a :: l2 ++ a :: l3.
Proof.
  intros I J. cbn [history]. rewrite !rng_get_eq.
  apply List.in_split in I as (p & q & ->). apply List.in_split in J as (p' & q' & ->).
  exists p, (q ++ p'), (q' ++ history label ((g ++ [Cut (label 2) 0]) ++ [Cut (label 2) 0]) cs).
  rewrite <- !app_assoc. reflexivity.
Qed.
Theorem samples_then_average : forall label g n m cs, 1 <= n -> 2 <= m -> label n = label 2 -> label m = label 2 ->
  exists post_key noise_key l1 l2 l3 l1' l2' l3',
    history label g (Samples n :: Average m :: cs) = l1 ++ post_key :: l2 ++ post_key :: l3
    /\ history label g (Samples n :: Average m :: cs) = l1' ++ noise_key :: l2' ++ noise_key :: l3'
    /\ post_key <> noise_key.
Proof.
  intros label g n m cs Hn Hm E1 E2.
  assert (A : forall i, i < 2 -> exists l1 l2 l3, history label g (Samples n :: Average m :: cs)
     = l1 ++ (((g ++ [Cut (label 2) 0]) ++ [Cut (label 2) 0]) ++ [Cut (label 2) i]) :: l2 ++
        (((g ++ [Cut (label 2) 0]) ++ [Cut (label 2) 0]) ++ [Cut (label 2) i]) :: l3).
  { intros i L. apply shared_key; cbn [drawn].
    - apply in_flat_map. exists ((g ++ [Cut (label 2) 0]) ++ [Cut (label 2) 0]). split; apply in_split; [exists 0|exists i]; rewrite ?E1; split; auto; lia.
    - apply in_split. exists i. rewrite E2. split; [lia|reflexivity]. }
  destruct (A 0) as (a & b & c & H); [lia|]. destruct (A 1) as (a' & b' & c' & H'); [lia|].
  do 8 eexists. split; [exact H|]. split; [exact H'|]. intros E. apply app_inv_head in E. discriminate.
Qed.
Theorem entropies_then_average : forall label g n cs, 1 <= n -> label (1 + n) = label 2 ->
  exists a l1 l2 l3, history label g (Entropies n :: Average n :: cs) = l1 ++ a :: l2 ++ a :: l3.
Proof.
  intros label g n cs Hn E. exists (((g ++ [Cut (label 2) 0]) ++ [Cut (label 2) 0]) ++ [Cut (label n) 0]). apply shared_key; cbn [drawn].
  - rewrite hd_split, E. apply in_or_app. left. apply in_split. exists 0. split; [lia|reflexivity].
  - apply in_split. exists 0. split; [lia|reflexivity].
Qed.
