From Coq Require Import List Arith ZArith Lia Permutation Bool.
From Verif Require Import Lib LoaderProofs TextModel.
Import ListNotations.

Lemma range0 n b : 1 <= b ->
  range_count 0 n b * b < n + b /\ n <= range_count 0 n b * b.
Proof.
  intros Hb. unfold range_count. rewrite Nat.sub_0_r.
  pose proof (Nat.div_mod (n + b - 1) b ltac:(lia)) as D.
  pose proof (Nat.mod_upper_bound (n + b - 1) b ltac:(lia)) as U.
  set (q := (n + b - 1) / b) in *. nia.
Qed.

(** slices of the whole list *)
Lemma strided_spec {A} b (l : list A) : 1 <= b ->
  exists bs, strided b (length l) l = Ok bs /\ concat bs = l /\
    Forall (fun c => 1 <= length c <= b) bs /\
    (forall k, length l = k * b -> Forall (fun c => length c = b) bs).
Proof.
  intros Hb. unfold strided. destruct b as [|b']; [lia|]. remember (S b') as b eqn:Eb. clear Eb b'.
  eexists. split; [reflexivity|].
  unfold range. rewrite map_map. simpl.
  destruct (range0 (length l) b Hb) as (L1 & L2).
  set (k := range_count 0 (length l) b) in *.
  split; [|split].
  - rewrite (map_ext _ (fun i => slice (0 + i * b) (0 + S i * b) l)) by (intros; f_equal; lia).
    pose proof (concat_slices b k 0 l) as C.
    rewrite (skipn_all2 l (n := 0 + k * b)) in C by lia. rewrite app_nil_r in C. exact C.
  - apply Forall_map, Forall_forall. intros i Hi. apply in_seq in Hi.
    unfold slice. rewrite firstn_length, skipn_length. nia.
  - intros q Hq. apply Forall_map, Forall_forall. intros i Hi. apply in_seq in Hi.
    unfold slice. rewrite firstn_length, skipn_length.
    assert (k <= q) by nia. nia.
Qed.

Lemma get_batches_idxs_spec n b shuffle perm : 1 <= b -> Permutation perm (seq 0 n) ->
  exists bs, get_batches_idxs n b shuffle false perm = Ok bs /\
    concat bs = (if shuffle then perm else seq 0 n) /\
    Permutation (concat bs) (seq 0 n) /\ Forall (fun c => 1 <= length c <= b) bs.
Proof.
  intros Hb P. unfold get_batches_idxs. destruct b as [|b']; [lia|].
  destruct (strided_spec (S b') (if shuffle then perm else seq 0 n) Hb) as (bs & E & C & F & _).
  exists bs. rewrite E. repeat split; auto. rewrite C. destruct shuffle; auto.
Qed.

Lemma get_batches_idxs_drop n b shuffle perm : 1 <= b -> Permutation perm (seq 0 n) ->
  exists bs dropped, get_batches_idxs n b shuffle true perm = Ok bs /\
    concat bs ++ dropped = (if shuffle then perm else seq 0 n) /\
    length dropped = n mod b /\ Forall (fun c => length c = b) bs /\ NoDup (concat bs).
Proof.
  intros Hb P. unfold get_batches_idxs. destruct b as [|b']; [lia|].
  remember (S b') as b eqn:Eb. clear Eb b'.
  set (idxs := if shuffle then perm else seq 0 n).
  assert (PI : Permutation idxs (seq 0 n)) by (unfold idxs; destruct shuffle; auto).
  assert (LI : length idxs = n) by (rewrite (Permutation_length PI); apply seq_length).
  pose proof (Nat.div_mod n b ltac:(lia)) as D.
  set (f := firstn (n / b * b) idxs).
  assert (Lf : length f = n / b * b) by (unfold f; rewrite firstn_length; lia).
  destruct (strided_spec b f Hb) as (bs & E & C & F & G).
  exists bs, (skipn (n / b * b) idxs). rewrite E, C. repeat split; auto.
  - apply firstn_skipn.
  - rewrite skipn_length. lia.
  - apply (G (n / b)). exact Lf.
  - assert (ND : NoDup idxs) by (apply (Permutation_NoDup (l := seq 0 n)); [symmetry; auto|apply seq_NoDup]).
    unfold f. rewrite <- (firstn_skipn (n / b * b) idxs) in ND.
    clear - ND. revert ND. generalize (firstn (n / b * b) idxs), (skipn (n / b * b) idxs).
    induction l; intros; constructor; inversion ND; subst; eauto.
    intros I. apply H1. apply in_or_app; auto.
Qed.

Lemma slice_firstn {A} i j m (l : list A) : j <= m -> slice i j (firstn m l) = slice i j l.
Proof.
  intros H. unfold slice. rewrite skipn_firstn_comm, firstn_firstn. f_equal. lia.
Qed.

Lemma mlm_chunks_spec {A} m (tokens : list (list A)) : 1 <= m ->
  exists cs tail, mlm_chunks m tokens = Ok cs /\ concat cs ++ tail = concat tokens /\
    Forall (fun c => length c = m) cs /\ length tail < m.
Proof.
  intros Hm. unfold mlm_chunks. destruct m as [|m']; [lia|]. remember (S m') as m eqn:Em. clear Em m'.
  set (cat := concat tokens).
  pose proof (Nat.div_mod (length cat) m ltac:(lia)) as D.
  pose proof (Nat.mod_upper_bound (length cat) m ltac:(lia)) as U.
  set (f := firstn (length cat / m * m) cat).
  assert (Lf : length f = length cat / m * m) by (unfold f; rewrite firstn_length; lia).
  destruct (strided_spec m f Hm) as (bs & E & C & F & G).
  exists bs, (skipn (length cat / m * m) cat).
  split; [|split; [|split]].
  - rewrite <- E, Lf. unfold strided. destruct m as [|m']; [lia|]. f_equal.
    apply map_ext_in. intros s Hs. symmetry. unfold f. apply slice_firstn.
    apply in_map_iff in Hs as (i & <- & Hi). apply in_seq in Hi.
    destruct (range0 (length cat / S m' * S m') (S m') Hm) as (L1 & L2).
    set (k := range_count 0 _ _) in *. remember (S m') as m.
    set (q := length cat / m) in *. assert (k < S q) by nia. simpl. nia.
  - rewrite C. apply firstn_skipn.
  - apply (G (length cat / m)). exact Lf.
  - rewrite skipn_length. lia.
Qed.

Lemma mask_tokens_spec mask_id : forall inputs special ds i t s d,
  nth_error inputs i = Some t -> nth_error special i = Some s -> nth_error ds i = Some d ->
  exists inp lab, nth_error (mask_tokens mask_id inputs special ds) i = Some (inp, lab) /\
    (s = true -> lab = ignore_index /\ inp = t) /\
    (d_sel d = false -> lab = ignore_index /\ inp = t) /\
    (s = false -> d_sel d = true -> lab = t /\ (inp = mask_id \/ inp = d_word d \/ inp = t)).
Proof.
  induction inputs as [|x xs IH]; intros special ds i t s d Hi Hs Hd;
    destruct special, ds, i; simpl in *; try discriminate.
  - inversion Hi; inversion Hs; inversion Hd; subst.
    eexists _, _. split; [reflexivity|].
    destruct s, (d_sel d), (d_rep d), (d_rnd d); simpl; repeat split; auto; discriminate.
  - eauto.
Qed.

Lemma mask_tokens_length mask_id : forall inputs special ds,
  length special = length inputs -> length ds = length inputs ->
  length (mask_tokens mask_id inputs special ds) = length inputs.
Proof.
  induction inputs; intros [|s sp] [|d ds]; simpl; intros; try lia; auto.
Qed.

(** multiple choice *)
Lemma concat_length_const {A} n (l : list (list A)) : Forall (fun c => length c = n) l ->
  length (concat l) = length l * n.
Proof. induction 1; simpl; auto. rewrite app_length. lia. Qed.

Lemma regroup_concat {A} n (l : list (list A)) : Forall (fun c => length c = n) l ->
  map (fun i => slice (i * n) (S i * n) (concat l)) (seq 0 (length l)) = l.
Proof.
  induction 1 as [|c r E F IH]; auto.
  cbn [length]. rewrite <- cons_seq. cbn [map]. f_equal.
  - unfold slice. simpl. rewrite Nat.add_0_r, Nat.sub_0_r, <- E. rewrite firstn_app, Nat.sub_diag.
    simpl. rewrite firstn_all. apply app_nil_r.
  - rewrite <- seq_shift, map_map. rewrite <- IH at 2. apply map_ext. intros i.
    unfold slice. cbn [concat]. rewrite skipn_app, skipn_all2 by nia.
    rewrite E. simpl. f_equal; [lia|]. f_equal. lia.
Qed.

Lemma multiple_choice_spec {F G} (g : F -> G) (features : list (list F)) n :
  features <> [] -> Forall (fun f => length f = n) features ->
  multiple_choice_collate (map g) features = Ok (map (map g) features).
Proof.
  intros NE H. unfold multiple_choice_collate. destruct features as [|f0 r]; [congruence|].
  assert (E0 : length f0 = n) by (inversion H; auto). rewrite E0.
  assert (X : existsb (fun f => length f <? n) (f0 :: r) = false).
  { apply not_true_is_false. intros T. apply existsb_exists in T as (f & I & L).
    rewrite Forall_forall in H. rewrite (H f I) in L. apply Nat.ltb_lt in L. lia. }
  rewrite X. f_equal.
  assert (M : map (firstn n) (f0 :: r) = f0 :: r).
  { clear - H. induction H; simpl; auto. f_equal; auto. rewrite <- H. apply firstn_all. }
  rewrite M, concat_map.
  replace (length (f0 :: r)) with (length (map (map g) (f0 :: r))) by apply map_length.
  apply regroup_concat. apply Forall_map. eapply Forall_impl; [|exact H].
  intros a Ha. now rewrite map_length.
Qed.

(** hallucination *)
Lemma hbatch_spec {A B} (texts : list A) (contexts : list B) b : 1 <= b ->
  length texts = length contexts ->
  exists bs, hbatch texts contexts b = Ok bs /\
    concat (map fst bs) = texts /\ concat (map snd bs) = contexts /\
    Forall (fun p => length (fst p) = length (snd p) /\ 1 <= length (fst p) <= b) bs.
Proof.
  intros Hb E.
  destruct (strided_spec b texts Hb) as (bt & Et & Ct & Ft & _).
  destruct (strided_spec b contexts Hb) as (bc & Ec & Cc & Fc & _).
  unfold strided in Et, Ec. unfold hbatch. destruct b as [|b']; [lia|].
  inversion Et as [Et']. inversion Ec as [Ec']. clear Et Ec.
  eexists. split; [reflexivity|]. rewrite !map_map. simpl.
  rewrite Et', Ct. rewrite E, Ec', Cc. repeat split; auto.
  apply Forall_map. rewrite <- E. rewrite <- Et' in Ft. rewrite Forall_map in Ft.
  eapply Forall_impl; [|exact Ft]. intros a Ha. cbn [fst snd] in *. split; [|exact Ha].
  unfold slice. rewrite !firstn_length, !skipn_length. lia.
Qed.

Lemma append_rows_ok {A} : forall idx (l : list A), Forall (fun i => i < length l) idx ->
  exists ext, append_rows idx l = Ok (l ++ ext) /\ map Some ext = map (nth_error l) idx.
Proof.
  induction idx as [|i r IH]; intros l F.
  - exists []. simpl. now rewrite app_nil_r.
  - inversion F; subst. simpl. destruct (nth_error l i) as [x|] eqn:N;
      [|apply nth_error_None in N; lia].
    destruct (IH (l ++ [x])) as (ext & E & M).
    { eapply Forall_impl; [|exact H2]. intros. rewrite app_length. simpl. simpl in H. lia. }
    exists (x :: ext). rewrite E, <- app_assoc. split; auto. simpl. rewrite M. f_equal.
    apply map_ext_in. intros j Hj. rewrite Forall_forall in H2.
    now rewrite nth_error_app1 by auto.
Qed.

Definition count_label (y : nat) (l : list nat) : nat := length (filter (fun t => t =? y) l).

Lemma indices_of_gen y targets : forall k,
  map fst (filter (fun p => snd p =? y) (combine (seq k (length targets)) targets))
  = map (fun i => k + i) (indices_of y targets) /\
  length (indices_of y targets) = count_label y targets /\
  Forall (fun i => nth_error targets i = Some y) (indices_of y targets).
Proof.
  unfold indices_of, count_label. induction targets as [|t r IH]; intros k; simpl.
  - auto.
  - destruct (IH 1) as (E1 & L & F). rewrite map_length in L. destruct (IH (S k)) as (Ek & _ & _).
    destruct (Nat.eqb_spec t y) as [->|N]; simpl; rewrite E1, Ek, !map_map, ?map_length.
    + repeat split.
      * f_equal; [lia|]. apply map_ext. intros. lia.
      * now rewrite L.
      * constructor; auto. apply Forall_map. rewrite Forall_map in F. exact F.
    + repeat split; auto.
      * apply map_ext. intros. lia.
      * apply Forall_map. rewrite Forall_map in F. exact F.
Qed.

Lemma count_label_app y a b : count_label y (a ++ b) = count_label y a + count_label y b.
Proof. unfold count_label. now rewrite filter_app, app_length. Qed.
Lemma count_label_const y z n (l : list nat) : Forall (fun t => t = z) l -> length l = n ->
  count_label y l = if z =? y then n else 0.
Proof.
  intros F <-. induction F as [|t r E F IH]; subst.
  - simpl. destruct (z =? y); auto.
  - unfold count_label in *. simpl. destruct (z =? y); simpl; auto.
Qed.

Lemma balance_spec {A B} choice (texts : list A) (contexts : list B) targets :
  (forall l k, length (choice l k) = k) ->
  (forall l k, l <> [] -> incl (choice l k) l) ->
  length texts = length targets -> length contexts = length targets ->
  (In 0 targets /\ In 1 targets) ->
  exists et ec ey, balance_data choice texts contexts targets
      = Ok (texts ++ et, contexts ++ ec, targets ++ ey) /\
    count_label 0 (targets ++ ey) = count_label 1 (targets ++ ey) /\
    (exists idx, map Some et = map (nth_error texts) idx /\ map Some ec = map (nth_error contexts) idx /\
                 map Some ey = map (nth_error targets) idx).
Proof.
  intros CL CI ET EC (I0 & I1).
  destruct (indices_of_gen 0 targets 0) as (_ & L0 & F0).
  destruct (indices_of_gen 1 targets 0) as (_ & L1 & F1).
  unfold balance_data.
  set (idx0 := indices_of 0 targets) in *. set (idx1 := indices_of 1 targets) in *.
  set (k := Nat.max _ _).
  assert (P0 : 1 <= length idx0).
  { rewrite L0. unfold count_label. destruct (filter _ targets) eqn:E; simpl; [|lia].
    assert (In 0 (filter (fun t => t =? 0) targets)) by (apply filter_In; auto). rewrite E in H. destruct H. }
  assert (P1 : 1 <= length idx1).
  { rewrite L1. unfold count_label. destruct (filter (fun t => t =? 1) targets) eqn:E; simpl; [|lia].
    assert (In 1 (filter (fun t => t =? 1) targets)) by (apply filter_In; auto). rewrite E in H. destruct H. }
  set (y := if length idx0 <? length idx1 then 0 else 1).
  set (pool := if length idx0 <? length idx1 then idx0 else idx1).
  assert (FP : Forall (fun i => nth_error targets i = Some y) pool).
  { unfold pool, y. destruct (length idx0 <? length idx1); auto. }
  assert (NP : pool <> []).
  { unfold pool. destruct (length idx0 <? length idx1); intros Z; rewrite Z in *; simpl in *; lia. }
  set (idx := choice pool k).
  assert (FI : Forall (fun i => nth_error targets i = Some y) idx).
  { rewrite Forall_forall in *. intros i Hi. apply FP. apply (CI pool k NP), Hi. }
  assert (BI : Forall (fun i => i < length targets) idx).
  { eapply Forall_impl; [|exact FI]. intros i Hi. apply nth_error_Some. congruence. }
  destruct (append_rows_ok idx texts) as (et & Et & Mt); [now rewrite ET|].
  destruct (append_rows_ok idx contexts) as (ec & Ec & Mc); [now rewrite EC|].
  destruct (append_rows_ok idx targets BI) as (ey & Ey & My).
  exists et, ec, ey. split; [|split].
  - replace (match pool with [] => match k with 0 => _ | S _ => _ end | _ => _ end)
      with (bind (append_rows idx texts) (fun t =>
            bind (append_rows idx contexts) (fun c =>
            bind (append_rows idx targets) (fun y => Ok (t, c, y))))).
    + rewrite Et, Ec, Ey. reflexivity.
    + unfold idx. destruct pool; [congruence|reflexivity].
  - assert (FY : Forall (fun t => t = y) ey).
    { clear - My FI. revert ey My. induction FI as [|i r H F IH]; intros [|e ey] My; simpl in My;
        try discriminate; constructor; inversion My; [congruence|auto]. }
    assert (LY : length ey = k).
    { apply (f_equal (@length _)) in My. rewrite !map_length in My. rewrite My. unfold idx. apply CL. }
    rewrite !count_label_app, (count_label_const 0 y k ey FY LY), (count_label_const 1 y k ey FY LY).
    rewrite <- L0, <- L1. unfold y, k. destruct (Nat.ltb_spec (length idx0) (length idx1)); simpl; lia.
  - exists idx. auto.
Qed.
