From Coq Require Import List Arith ZArith Lia Permutation Bool.
From Verif Require Import Lib LoaderModel LoaderSpec.
Import ListNotations.

(** * Generic list lemmas *)
Lemma skipn_skipn' {A} n m (l : list A) : skipn n (skipn m l) = skipn (m + n) l.
Proof.
  revert l; induction m; intros l; simpl; auto. destruct l; auto. now rewrite skipn_nil.
Qed.

Lemma firstn_app_skipn_slice {A} (p q : nat) (l : list A) :
  p <= q -> slice p q l ++ skipn q l = skipn p l.
Proof.
  intros H. unfold slice.
  replace (skipn q l) with (skipn (q - p) (skipn p l)).
  - apply firstn_skipn.
  - rewrite skipn_skipn'. f_equal. lia.
Qed.

Lemma slice_length {A} p q (l : list A) : p <= q -> q <= length l -> length (slice p q l) = q - p.
Proof. intros. unfold slice. rewrite firstn_length, skipn_length. lia. Qed.

Lemma mapM_ok_map {A B} (f : A -> result B) (g : A -> B) (l : list A) :
  (forall x, In x l -> f x = Ok (g x)) -> mapM f l = Ok (map g l).
Proof.
  induction l as [|x r IH]; intros H; simpl; auto.
  rewrite (H x) by (simpl; auto). simpl.
  rewrite IH by (intros; apply H; simpl; auto). reflexivity.
Qed.

Lemma mapM_ok_inv {A B} (f : A -> result B) (l : list A) (ys : list B) :
  mapM f l = Ok ys -> Forall2 (fun x y => f x = Ok y) l ys.
Proof.
  revert ys; induction l as [|x r IH]; simpl; intros ys H.
  - inversion H; constructor.
  - destruct (f x) eqn:E; simpl in H; try discriminate.
    destruct (mapM f r) eqn:E2; simpl in H; try discriminate.
    inversion H; subst. constructor; auto.
Qed.

(** * np.split on an arithmetic progression *)
Lemma np_split_from_range {A} (b k : nat) : forall p (data : list A),
  np_split_from p (map (fun i => p + b + i * b) (seq 0 k)) data
  = map (fun i => slice (p + i * b) (p + S i * b) data) (seq 0 k) ++ [skipn (p + k * b) data].
Proof.
  induction k as [|k IH]; intros p data.
  - simpl. now rewrite Nat.add_0_r.
  - rewrite <- cons_seq. simpl map. simpl np_split_from.
    rewrite Nat.add_0_r.
    rewrite <- seq_shift, map_map.
    rewrite (map_ext _ (fun i => (p + b) + b + i * b)) by (intros; lia).
    rewrite IH. simpl. f_equal.
    + f_equal; lia.
    + rewrite map_map. f_equal.
      * apply map_ext. intros. f_equal; lia.
      * do 2 f_equal; lia.
Qed.

Lemma range_count_self b n : 1 <= b ->
  range_count b n b * b <= n /\ n <= range_count b n b * b + b /\
  (1 <= n -> range_count b n b * b < n) /\ (n = 0 -> range_count b n b = 0).
Proof.
  intros Hb. unfold range_count.
  set (m := n - b + b - 1).
  pose proof (Nat.div_mod m b ltac:(lia)) as D.
  pose proof (Nat.mod_upper_bound m b ltac:(lia)) as U.
  set (q := m / b) in *. rewrite (Nat.mul_comm b q) in D.
  assert (Hm : m = Nat.max n b - 1) by (unfold m; lia).
  destruct (le_lt_dec n b) as [L|L].
  - assert (Hq : q = 0).
    { unfold q. apply Nat.div_small. lia. }
    rewrite Hq. repeat split; intros; try lia.
  - assert (m = n - 1) by lia. repeat split; intros; nia.
Qed.

Lemma concat_slices {A} (b k : nat) : forall p (data : list A),
  concat (map (fun i => slice (p + i * b) (p + S i * b) data) (seq 0 k)) ++ skipn (p + k * b) data
  = skipn p data.
Proof.
  induction k as [|k IH]; intros p data.
  - simpl. now rewrite Nat.add_0_r.
  - rewrite <- cons_seq. simpl map. simpl concat.
    rewrite <- seq_shift, map_map.
    rewrite (map_ext _ (fun i => slice ((p + b) + i * b) ((p + b) + S i * b) data))
      by (intros; f_equal; lia).
    rewrite <- app_assoc.
    replace (p + S k * b) with ((p + b) + k * b) by lia.
    rewrite IH, !Nat.add_0_r. apply firstn_app_skipn_slice. lia.
Qed.

Lemma np_split_well_batched {A} (b : nat) (data : list A) : 1 <= b ->
  well_batched b data (np_split data (range b (length data) b)).
Proof.
  intros Hb.
  destruct (range_count_self b (length data) Hb) as (H1 & H2 & H3 & H4).
  unfold np_split, range.
  set (k := range_count b (length data) b) in *.
  pose proof (np_split_from_range b k 0 data) as E. simpl in E.
  rewrite E. split.
  - rewrite concat_app. simpl. rewrite app_nil_r.
    pose proof (concat_slices b k 0 data) as C. simpl in C. exact C.
  - exists (map (fun i => slice (i * b) (b + i * b) data) (seq 0 k)), (skipn (k * b) data).
    repeat split; auto.
    + apply Forall_forall. intros c Hc. apply in_map_iff in Hc as (i & <- & Hi).
      apply in_seq in Hi. rewrite slice_length; nia.
    + rewrite skipn_length. lia.
    + intros Hne. rewrite skipn_length.
      assert (1 <= length data) by (destruct data; [congruence|simpl; lia]). lia.
    + intros E0. assert (K0 : k = 0) by (apply H4; now rewrite E0). now rewrite K0.
Qed.

Lemma np_split_lengths {A B} (b : nat) (xs : list A) (ys : list B) :
  length xs = length ys ->
  length (np_split xs (range b (length xs) b)) = length (np_split ys (range b (length ys) b)) /\
  aligned (combine (np_split xs (range b (length xs) b)) (np_split ys (range b (length ys) b))).
Proof.
  intros E. rewrite <- E. unfold np_split, range, aligned.
  generalize (map (fun i => b + i * b) (seq 0 (range_count b (length xs) b))) as idxs.
  intros idxs. generalize 0 as p. induction idxs as [|i r IH]; intros p; simpl.
  - split; auto. constructor; auto. simpl. rewrite !skipn_length. lia.
  - destruct (IH i) as (L & F). split; [lia|]. constructor; auto.
    simpl. unfold slice. rewrite !firstn_length, !skipn_length. lia.
Qed.

Lemma map_fst_combine {A B} (l : list A) (l' : list B) :
  length l = length l' -> map fst (combine l l') = l.
Proof. revert l'; induction l; destruct l'; simpl; intros; try lia; auto. f_equal; auto. Qed.
Lemma map_snd_combine {A B} (l : list A) (l' : list B) :
  length l = length l' -> map snd (combine l l') = l'.
Proof. revert l'; induction l; destruct l'; simpl; intros; try lia; auto. f_equal; auto. Qed.

Lemma combine_app {A B} (l1 l2 : list A) (m1 m2 : list B) :
  length l1 = length m1 -> combine (l1 ++ l2) (m1 ++ m2) = combine l1 m1 ++ combine l2 m2.
Proof. revert m1; induction l1; destruct m1; simpl; intros; try lia; auto. f_equal; auto. Qed.

Lemma rows_aligned {X Y} (bs : list (list X * list Y)) :
  aligned bs -> rows bs = combine (concat (map fst bs)) (concat (map snd bs)).
Proof.
  induction 1 as [|[x y] r H F IH]; simpl; auto.
  rewrite combine_app by auto. f_equal. exact IH.
Qed.

(** * Prefetching is transparent *)
Lemma pf_drain_notready {A} (gen : list A) : forall x fuel, length gen < fuel ->
  pf_drain fuel (mk_prefetched x gen false) = Some gen.
Proof.
  induction gen as [|y r IH]; intros x fuel H; destruct fuel; simpl in *; try lia; auto.
  unfold pf_next. simpl. rewrite IH by lia. reflexivity.
Qed.

Lemma pf_drain_all {A} (gen : list A) (s : prefetched A) fuel :
  pf_init gen = Ok s -> length gen < fuel -> pf_drain fuel s = Some gen.
Proof.
  destruct gen as [|x r]; simpl; intros H L; inversion H; subst.
  destruct fuel; [lia|]. simpl. unfold pf_next. simpl.
  rewrite pf_drain_notready by lia. reflexivity.
Qed.

Lemma maybe_prefetch_transparent {A} (p : bool) (gen : list A) :
  gen <> [] -> maybe_prefetch p gen = Ok gen.
Proof.
  intros H. destruct p; simpl; auto. unfold maybe_prefetch, pf_pass.
  destruct gen as [|x r]; [congruence|].
  simpl pf_init. cbv iota. rewrite (pf_drain_all (x :: r)); simpl; auto.
Qed.

Lemma well_batched_nonempty {A} b (d : list A) bs : well_batched b d bs -> bs <> [].
Proof. intros (_ & i & l & -> & _) E. destruct i; discriminate. Qed.

Lemma arange_ok b n : 1 <= b -> arange b n b = Ok (range b n b).
Proof. intros. unfold arange. destruct b; [lia|reflexivity]. Qed.

Lemma from_array_data_spec {A} (data : list A) b prefetch perm : 1 <= b ->
  exists bs, from_array_data data (Some b) false prefetch perm = Ok bs /\ well_batched b data bs.
Proof.
  intros Hb. pose proof (np_split_well_batched b data Hb) as W.
  eexists. split; [|exact W]. simpl. rewrite (arange_ok b _ Hb). simpl.
  apply maybe_prefetch_transparent. eapply well_batched_nonempty; eauto.
Qed.

Lemma from_batch_split {X Y} (xs : list X) (ys : list Y) b p : 1 <= b -> length xs = length ys ->
  let bs := combine (np_split xs (range b (length xs) b)) (np_split ys (range b (length ys) b)) in
  maybe_prefetch p bs = Ok bs /\
  well_batched b xs (map fst bs) /\ well_batched b ys (map snd bs) /\ aligned bs /\
  rows bs = combine xs ys.
Proof.
  intros Hb E bs.
  destruct (np_split_lengths b xs ys E) as (L & F).
  pose proof (np_split_well_batched b xs Hb) as WX.
  pose proof (np_split_well_batched b ys Hb) as WY.
  assert (E1 : map fst bs = np_split xs (range b (length xs) b)) by (apply map_fst_combine; auto).
  assert (E2 : map snd bs = np_split ys (range b (length ys) b)) by (apply map_snd_combine; auto).
  split; [|split; [|split; [|split]]].
  - apply maybe_prefetch_transparent. intros N. rewrite N in E1.
    apply (well_batched_nonempty _ _ _ WX). symmetry; exact E1.
  - rewrite E1; auto.
  - rewrite E2; auto.
  - exact F.
  - rewrite rows_aligned by exact F. rewrite E1, E2.
    destruct WX as (-> & _), WY as (-> & _). reflexivity.
Qed.

Lemma from_batch_array_data_spec {X Y} (xs : list X) (ys : list Y) b prefetch perm :
  1 <= b -> length xs = length ys ->
  exists bs, from_batch_array_data xs ys (Some b) false prefetch perm = Ok bs /\
    well_batched b xs (map fst bs) /\ well_batched b ys (map snd bs) /\ aligned bs /\
    rows bs = combine xs ys.
Proof.
  intros Hb E. destruct (from_batch_split xs ys b prefetch Hb E) as (M & R).
  eexists. split; [|exact R]. simpl. rewrite !(arange_ok b _ Hb). simpl. exact M.
Qed.

(** * Shuffling *)
Lemma gather_ok {A} (l : list A) : forall idx, Forall (fun i => i < length l) idx ->
  exists l', gather idx l = Ok l' /\ map Some l' = map (nth_error l) idx.
Proof.
  induction idx as [|i r IH]; intros F.
  - exists []. auto.
  - inversion F as [|? ? Hi Hr]; subst. destruct (IH Hr) as (l' & G & M).
    destruct (nth_error l i) as [x|] eqn:N.
    + exists (x :: l'). unfold gather in *. simpl. rewrite N. simpl. rewrite G. simpl.
      split; auto. now rewrite M.
    + apply nth_error_None in N. lia.
Qed.

Lemma map_nth_seq {A} (l : list A) : map (nth_error l) (seq 0 (length l)) = map Some l.
Proof.
  induction l as [|x r IH]; simpl; auto. f_equal.
  rewrite <- seq_shift, map_map. exact IH.
Qed.

Lemma map_Some_inj {A} (l l' : list A) : map Some l = map Some l' -> l = l'.
Proof.
  revert l'; induction l; destruct l'; simpl; intros H; inversion H; auto. f_equal; auto.
Qed.

Lemma perm_map_Some {A} (l l' : list A) : Permutation (map Some l) (map Some l') -> Permutation l l'.
Proof.
  intros H. apply Permutation_map_inv in H as (l3 & E & P).
  apply map_Some_inj in E. subst. symmetry; exact P.
Qed.

Lemma perm_bounds n perm : is_perm_of n perm -> Forall (fun i => i < n) perm /\ length perm = n.
Proof.
  intros P. split.
  - apply Forall_forall. intros i Hi. apply (Permutation_in _ P) in Hi. apply in_seq in Hi. lia.
  - rewrite (Permutation_length P). apply seq_length.
Qed.

Lemma gather_perm {A} (l l' : list A) perm : is_perm_of (length l) perm ->
  map Some l' = map (nth_error l) perm -> Permutation l' l.
Proof.
  intros P M. apply perm_map_Some. rewrite M, <- map_nth_seq. apply Permutation_map, P.
Qed.

Lemma nth_error_combine {A B} (l : list A) : forall (m : list B) i x y,
  nth_error l i = Some x -> nth_error m i = Some y -> nth_error (combine l m) i = Some (x, y).
Proof.
  induction l; intros m i x y; destruct m, i; simpl; intros; try discriminate; try congruence.
  auto.
Qed.

Lemma gather_combine {X Y} (xs dx : list X) (ys dy : list Y) : forall perm,
  map Some dx = map (nth_error xs) perm -> map Some dy = map (nth_error ys) perm ->
  map Some (combine dx dy) = map (nth_error (combine xs ys)) perm.
Proof.
  intros perm. revert dx dy. induction perm as [|i r IH]; intros dx dy Mx My;
    destruct dx, dy; simpl in *; try discriminate; auto.
  injection Mx; injection My; intros. f_equal.
  - symmetry. apply nth_error_combine; auto.
  - auto.
Qed.

Lemma map_Some_length {A B} (l : list A) (f : B -> option A) m :
  map Some l = map f m -> length l = length m.
Proof. intros H. apply (f_equal (@length _)) in H. now rewrite !map_length in H. Qed.

Lemma shuffle_spec {X Y} (xs : list X) (ys : list Y) b prefetch perm :
  1 <= b -> length xs = length ys -> is_perm_of (length xs) perm ->
  exists bs, from_batch_array_data xs ys (Some b) true prefetch perm = Ok bs /\
    aligned bs /\
    map Some (rows bs) = map (nth_error (combine xs ys)) perm /\
    Permutation (rows bs) (combine xs ys) /\
    well_batched b (concat (map fst bs)) (map fst bs).
Proof.
  intros Hb E P. destruct (perm_bounds _ _ P) as (F & L).
  destruct (gather_ok xs perm F) as (dx & Gx & Mx).
  rewrite E in F. destruct (gather_ok ys perm F) as (dy & Gy & My).
  assert (Lx : length dx = length xs) by (apply map_Some_length in Mx; lia).
  assert (Ly : length dy = length ys) by (apply map_Some_length in My; lia).
  assert (Exy : length dx = length dy) by lia.
  destruct (from_batch_split dx dy b prefetch Hb Exy) as (M & WX & WY & A & R).
  rewrite Lx, Ly in *.
  eexists. split; [|split; [exact A|]].
  - simpl. rewrite Gx. simpl. rewrite (arange_ok b _ Hb). simpl. rewrite Gy. simpl.
    rewrite (arange_ok b _ Hb). simpl. exact M.
  - rewrite R.
    pose proof (gather_combine xs dx ys dy perm Mx My) as C.
    split; [exact C|]. split.
    + apply (gather_perm _ _ perm); auto. unfold is_perm_of. rewrite combine_length, E, Nat.min_id.
      rewrite <- E. exact P.
    + destruct WX as (Ec & WX). split; auto. rewrite Ec. exact WX.
Qed.

(** * Round trips *)
Lemma np_concatenate_ok {A} (l : list (list A)) : l <> [] -> np_concatenate l = Ok (concat l).
Proof. destruct l; [congruence|reflexivity]. Qed.

Lemma to_array_roundtrip {X Y} (xs : list X) (ys : list Y) b prefetch perm :
  1 <= b -> length xs = length ys ->
  exists bs, from_batch_array_data xs ys (Some b) false prefetch perm = Ok bs /\
    to_array_data bs = Ok (xs, ys) /\ to_array_inputs bs = Ok xs /\ to_array_targets bs = Ok ys /\
    size bs = length xs.
Proof.
  intros Hb E. destruct (from_batch_array_data_spec xs ys b prefetch perm Hb E) as (bs & O & WX & WY & A & R).
  exists bs. split; auto.
  assert (N1 : map fst bs <> []) by (eapply well_batched_nonempty; eauto).
  assert (N2 : map snd bs <> []) by (eapply well_batched_nonempty; eauto).
  unfold to_array_data, to_array_inputs, to_array_targets.
  rewrite !np_concatenate_ok by auto. simpl.
  destruct WX as (EX & _), WY as (EY & _). rewrite EX, EY. repeat split; auto.
  unfold size. rewrite <- EX. clear. induction bs as [|[x y] r IH]; simpl; auto.
  rewrite app_length, <- IH. reflexivity.
Qed.

Lemma views_rezip {X Y} (bs : list (batch X Y)) :
  combine (to_inputs_loader bs) (to_targets_loader bs) = bs.
Proof. induction bs as [|[x y] r IH]; simpl; auto. f_equal. exact IH. Qed.

(** * split *)
Lemma split_first_full {X Y} n (l : list (batch X Y)) : split_first n n l = [].
Proof. destruct l as [|[xs ys] r]; simpl; auto. now rewrite Nat.eqb_refl. Qed.

Lemma rows_cons {X Y} (xs : list X) (ys : list Y) r :
  rows ((xs, ys) :: r) = combine xs ys ++ rows r.
Proof. reflexivity. Qed.

Lemma combine_firstn' {A B} n (l : list A) (m : list B) :
  combine (firstn n l) (firstn n m) = firstn n (combine l m).
Proof. revert l m; induction n; destruct l, m; simpl; intros; auto. f_equal; auto. Qed.
Lemma combine_skipn' {A B} n : forall (l : list A) (m : list B), length l = length m ->
  combine (skipn n l) (skipn n m) = skipn n (combine l m).
Proof.
  induction n; intros l m; destruct l, m; simpl; intros; try lia; auto.
Qed.

Lemma aligned_cons {X Y} (xs : list X) (ys : list Y) r :
  aligned ((xs, ys) :: r) <-> length xs = length ys /\ aligned r.
Proof. split; [intros H; inversion H; auto | intros [H1 H2]; constructor; auto]. Qed.

Lemma split_first_rows {X Y} n : forall (l : list (batch X Y)) c, aligned l -> c <= n ->
  rows (split_first n c l) = firstn (n - c) (rows l) /\ aligned (split_first n c l).
Proof.
  induction l as [|[xs ys] r IH]; intros c A Hc.
  - simpl. rewrite firstn_nil. split; auto.
  - apply aligned_cons in A as (E & A). simpl split_first.
    destruct (Nat.eqb_spec c n) as [->|N].
    + rewrite Nat.sub_diag. simpl. split; auto. constructor.
    + destruct (Nat.leb_spec (c + length xs) n) as [L|L].
      * destruct (IH (c + length xs) A L) as (R & A'). rewrite !rows_cons, R. split.
        -- rewrite firstn_app, combine_length, <- E, Nat.min_id.
           rewrite (firstn_all2 (combine xs ys)) by (rewrite combine_length, <- E, Nat.min_id; lia).
           do 2 f_equal; lia.
        -- apply aligned_cons; auto.
      * rewrite split_first_full, !rows_cons.
        change (rows (@nil (list X * list Y))) with (@nil (X * Y)). rewrite app_nil_r. split.
        -- rewrite firstn_app, combine_length, <- E, Nat.min_id.
           replace (n - c - length xs) with 0 by lia. simpl. rewrite app_nil_r.
           apply combine_firstn'.
        -- apply aligned_cons. split; [|constructor]. rewrite !firstn_length. lia.
Qed.

Lemma split_second_past {X Y} n : forall (l : list (batch X Y)) c, n < c -> split_second n c l = l.
Proof.
  induction l as [|[xs ys] r IH]; intros c H; simpl; auto.
  destruct (Nat.ltb_spec n c); [|lia]. f_equal; auto.
Qed.

Lemma split_second_rows {X Y} n : forall (l : list (batch X Y)) c, aligned l -> c <= n ->
  rows (split_second n c l) = skipn (n - c) (rows l) /\ aligned (split_second n c l).
Proof.
  induction l as [|[xs ys] r IH]; intros c A Hc.
  - simpl. rewrite skipn_nil. split; auto.
  - apply aligned_cons in A as (E & A). simpl split_second.
    destruct (Nat.ltb_spec n c); [lia|].
    destruct (Nat.leb_spec c n); [|lia].
    rewrite rows_cons.
    destruct (Nat.ltb_spec n (c + length xs)) as [L|L]; cbn [andb].
    + rewrite split_second_past by lia. rewrite rows_cons. split.
      * rewrite skipn_app, combine_length, <- E, Nat.min_id.
        replace (n - c - length xs) with 0 by lia. simpl.
        rewrite combine_skipn'; auto.
      * apply aligned_cons. split; auto. rewrite !skipn_length. lia.
    + destruct (IH (c + length xs) A ltac:(lia)) as (R & A'). rewrite R. split; auto.
      rewrite skipn_app, combine_length, <- E, Nat.min_id.
      rewrite (skipn_all2 (combine xs ys)) by (rewrite combine_length, <- E, Nat.min_id; lia).
      simpl. f_equal. lia.
Qed.

Definition nonempty_batches {X Y} (l : list (batch X Y)) := Forall (fun p => fst p <> []) l.

Lemma split_first_nonempty {X Y} n : forall (l : list (batch X Y)) c, c <= n ->
  nonempty_batches l -> nonempty_batches (split_first n c l).
Proof.
  induction l as [|[xs ys] r IH]; intros c Hc F; simpl.
  - constructor.
  - inversion F; subst. destruct (Nat.eqb_spec c n); [constructor|].
    destruct (Nat.leb_spec (c + length xs) n).
    + constructor; auto. apply IH; auto.
    + rewrite split_first_full. constructor; [|constructor]. simpl in *.
      destruct xs; [congruence|]. destruct (n - c) eqn:D; [lia|]. simpl. congruence.
Qed.

Lemma split_second_nonempty {X Y} n : forall (l : list (batch X Y)) c,
  nonempty_batches l -> nonempty_batches (split_second n c l).
Proof.
  induction l as [|[xs ys] r IH]; intros c F; simpl.
  - constructor.
  - inversion F; subst. simpl in *. destruct (Nat.ltb_spec n c).
    + constructor; auto. apply IH; auto.
    + destruct (Nat.leb_spec c n); [|lia].
      destruct (Nat.ltb_spec n (c + length xs)); cbn [andb]; [|apply IH; auto].
      constructor; [|apply IH; auto]. simpl. intros E.
      apply (f_equal (@length _)) in E. rewrite skipn_length in E. simpl in E. lia.
Qed.

Lemma rows_length {X Y} (l : list (batch X Y)) : aligned l -> length (rows l) = size l.
Proof.
  induction 1 as [|[x y] r H F IH]; auto.
  unfold rows in *. simpl in *. rewrite app_length, IH, combine_length.
  unfold size. simpl. lia.
Qed.

Lemma split_spec {X Y} n (l l1 l2 : list (batch X Y)) : aligned l -> split n l = (l1, l2) ->
  rows l1 ++ rows l2 = rows l /\ size l1 = Nat.min n (size l) /\ aligned l1 /\ aligned l2 /\
  (nonempty_batches l -> nonempty_batches l1 /\ nonempty_batches l2).
Proof.
  intros A H. unfold split in H. inversion H; subst; clear H.
  destruct (split_first_rows n l 0 A ltac:(lia)) as (R1 & A1).
  destruct (split_second_rows n l 0 A ltac:(lia)) as (R2 & A2).
  rewrite Nat.sub_0_r in *. repeat split; auto.
  - rewrite R1, R2. apply firstn_skipn.
  - rewrite <- rows_length by auto. rewrite R1, firstn_length, rows_length by auto. reflexivity.
  - apply split_first_nonempty; auto; lia.
  - apply split_second_nonempty; auto.
Qed.

(** single-array loaders are the first components of paired loaders *)
Definition pair_self {A} (l : list (list A)) : list (batch A A) := map (fun b => (b, b)) l.
Lemma split_first1_pair {A} n : forall (l : list (list A)) c,
  split_first n c (pair_self l) = pair_self (split_first1 n c l).
Proof.
  induction l as [|x r IH]; intros c; simpl; auto.
  destruct (c =? n); auto. destruct (c + length x <=? n); simpl; now rewrite IH.
Qed.
Lemma split_second1_pair {A} n : forall (l : list (list A)) c,
  split_second n c (pair_self l) = pair_self (split_second1 n c l).
Proof.
  induction l as [|x r IH]; intros c; simpl; auto.
  destruct (n <? c); simpl; [now rewrite IH|].
  destruct ((c <=? n) && (n <? c + length x)); simpl; now rewrite IH.
Qed.
Lemma pair_self_fst {A} (l : list (list A)) : map fst (pair_self l) = l.
Proof. unfold pair_self. rewrite map_map. simpl. apply map_id. Qed.
Lemma aligned_pair_self {A} (l : list (list A)) : aligned (pair_self l).
Proof. unfold pair_self. apply Forall_map, Forall_forall. auto. Qed.
Lemma rows_pair_self {A} (l : list (list A)) :
  rows (pair_self l) = map (fun x => (x, x)) (concat l).
Proof.
  induction l as [|x r IH]; simpl; auto. rewrite map_app. f_equal; auto.
  clear. induction x; simpl; f_equal; auto.
Qed.
Lemma map_dup_inj {A} (l m : list A) :
  map (fun x => (x, x)) l = map (fun x => (x, x)) m -> l = m.
Proof.
  intros H. apply (f_equal (map fst)) in H. rewrite !map_map in H. simpl in H.
  now rewrite !map_id in H.
Qed.

Lemma split1_spec {A} n (l l1 l2 : list (list A)) : split1 n l = (l1, l2) ->
  concat l1 ++ concat l2 = concat l /\ length (concat l1) = Nat.min n (size1 l).
Proof.
  unfold split1. intros H; inversion H; subst; clear H.
  destruct (split_spec n (pair_self l) (pair_self (split_first1 n 0 l)) (pair_self (split_second1 n 0 l)))
    as (R & S & _).
  - apply aligned_pair_self.
  - unfold split. now rewrite split_first1_pair, split_second1_pair.
  - rewrite !rows_pair_self, <- map_app in R. apply map_dup_inj in R. split; auto.
    rewrite <- rows_length in S by apply aligned_pair_self.
    rewrite rows_pair_self, map_length in S. rewrite S. f_equal.
    unfold size, size1, pair_self. rewrite map_map. reflexivity.
Qed.

(** * chop *)
Lemma drop_last_prefix {A} d (l : list A) : 1 <= d ->
  longest_divisible_prefix d l (drop_last (length l mod d) l).
Proof.
  intros Hd. exists (skipn (length l - length l mod d) l). unfold drop_last.
  pose proof (Nat.mod_upper_bound (length l) d ltac:(lia)).
  pose proof (Nat.mod_le (length l) d ltac:(lia)).
  pose proof (Nat.div_mod (length l) d ltac:(lia)) as D.
  split; [symmetry; apply firstn_skipn|]. split.
  - exists (length l / d). rewrite firstn_length. lia.
  - rewrite skipn_length. lia.
Qed.

Lemma longest_divisible_prefix_unique {A} d (l p q : list A) :
  longest_divisible_prefix d l p -> longest_divisible_prefix d l q -> p = q.
Proof.
  intros (r & E & (k & K) & L) (r' & E' & (k' & K') & L').
  assert (EL : length p + length r = length q + length r').
  { rewrite <- !app_length. congruence. }
  assert (k = k') by nia. subst k'.
  assert (length p = length q) by lia.
  rewrite E in E'. clear - E' H. revert q E' H. induction p; destruct q; simpl; intros; try lia; auto.
  inversion E'; subst. f_equal. eapply IHp; eauto.
Qed.

(** the batches [chop d] must produce, stated batch by batch *)
Inductive chopped {X Y} (d : nat) : list (batch X Y) -> list (batch X Y) -> Prop :=
| chopped_nil : chopped d [] []
| chopped_keep : forall xs ys px py l out,
    longest_divisible_prefix d xs px -> longest_divisible_prefix d ys py ->
    (ys = [] \/ py <> []) -> chopped d l out -> chopped d ((xs, ys) :: l) ((px, py) :: out)
| chopped_drop : forall xs ys l out,
    1 <= length ys < d -> chopped d l out -> chopped d ((xs, ys) :: l) out.

Lemma chop_spec {X Y} d (l : list (batch X Y)) : 1 <= d -> aligned l ->
  exists out, chop d l = Ok out /\ chopped d l out /\
    aligned out /\ Forall (fun p => exists k, length (snd p) = k * d) out.
Proof.
  intros Hd. induction l as [|[xs ys] r IH]; intros A.
  - exists []. simpl. repeat split; constructor.
  - apply aligned_cons in A as (E & A). destruct (IH A) as (out & C & SC & A' & F).
    simpl chop. destruct d as [|d']; [lia|]. remember (S d') as d eqn:Ed. clear Ed. rewrite C. cbn [bind].
    pose proof (drop_last_prefix d xs Hd) as PX. pose proof (drop_last_prefix d ys Hd) as PY.
    rewrite E in PX.
    assert (Mod : length ys mod d <= length ys) by (apply Nat.mod_le; lia).
    pose proof (Nat.div_mod (length ys) d ltac:(lia)) as D.
    pose proof (Nat.mod_upper_bound (length ys) d ltac:(lia)) as U.
    destruct (Nat.eqb_spec (length ys mod d) 0) as [Z|Z].
    + exists ((xs, ys) :: out). rewrite Z in PX, PY.
      unfold drop_last in PX, PY. rewrite Nat.sub_0_r in PX, PY.
      rewrite firstn_all in PY. rewrite firstn_all in PX.
      repeat split; auto.
      * constructor; auto. destruct ys; [left; auto|right; congruence].
      * apply aligned_cons; auto.
      * constructor; auto. exists (length ys / d). simpl snd. lia.
    + destruct (Nat.ltb_spec d (length ys)) as [L|L].
      * exists ((drop_last (length ys mod d) xs, drop_last (length ys mod d) ys) :: out).
        repeat split; auto.
        -- constructor; auto. right. intros N. apply (f_equal (@length _)) in N.
           unfold drop_last in N. rewrite firstn_length in N. simpl in N. lia.
        -- apply aligned_cons. split; auto. unfold drop_last. rewrite !firstn_length. lia.
        -- constructor; auto. exists (length ys / d). simpl snd. unfold drop_last.
           rewrite firstn_length. lia.
      * exists out. repeat split; auto. apply chopped_drop; auto. split.
        -- destruct ys; simpl in *; [rewrite Nat.mod_0_l in Z; lia|lia].
        -- assert (length ys <> d). { intros EQ. rewrite EQ, Nat.mod_same in Z; lia. } lia.
Qed.

Lemma chop_cons {X Y} d xs ys (r : list (batch X Y)) : 1 <= d ->
  chop d ((xs, ys) :: r) =
  bind (chop d r) (fun rest =>
        if length ys mod d =? 0 then Ok ((xs, ys) :: rest)
        else if d <? length ys
             then Ok ((drop_last (length ys mod d) xs, drop_last (length ys mod d) ys) :: rest)
             else Ok rest).
Proof. intros. destruct d; [lia|reflexivity]. Qed.

Lemma chop_idempotent {X Y} d (l : list (batch X Y)) : 1 <= d ->
  Forall (fun p => exists k, length (snd p) = k * d) l -> chop d l = Ok l.
Proof.
  intros Hd F. induction F as [|[xs ys] r (k & K) F IH]; auto.
  rewrite chop_cons, IH by auto. cbn [bind snd] in *.
  rewrite K, Nat.mod_mul by lia. reflexivity.
Qed.

Lemma chop1_pair {A} d : forall (l : list (list A)),
  chop d (pair_self l) = rmap pair_self (chop1 d l).
Proof.
  induction l as [|x r IH]; auto. destruct d as [|d']; auto.
  change (chop (S d') (pair_self (x :: r))) with
    (bind (chop (S d') (pair_self r)) (fun rest =>
        if length x mod S d' =? 0 then Ok ((x, x) :: rest)
        else if S d' <? length x
             then Ok ((drop_last (length x mod S d') x, drop_last (length x mod S d') x) :: rest)
             else Ok rest)).
  change (chop1 (S d') (x :: r)) with
    (bind (chop1 (S d') r) (fun rest =>
        if length x mod S d' =? 0 then Ok (x :: rest)
        else if S d' <? length x then Ok (drop_last (length x mod S d') x :: rest)
             else Ok rest)).
  rewrite IH. destruct (chop1 (S d') r); [|reflexivity]. cbn [rmap bind].
  destruct (length x mod S d' =? 0); auto. destruct (S d' <? length x); auto.
Qed.
