From Coq Require Import List Arith ZArith Lia Permutation Bool.
From Verif Require Import Lib LoaderModel LoaderSpec LoaderProofs.
Import ListNotations.

(** * Merging labelled loaders *)
Lemma flat_map_app_perm {A B} (g h : A -> list B) (rs : list A) :
  Permutation (flat_map (fun r => g r ++ h r) rs) (flat_map g rs ++ flat_map h rs).
Proof.
  induction rs as [|r rs IH]; simpl; auto.
  rewrite <- !app_assoc. apply Permutation_app_head.
  rewrite IH. rewrite !app_assoc. apply Permutation_app_tail, Permutation_app_comm.
Qed.

Lemma flat_map_exchange {A C B} (g : C -> A -> list B) (ps : list C) (rs : list A) :
  Permutation (flat_map (fun r => flat_map (fun p => g p r) ps) rs)
              (flat_map (fun p => flat_map (g p) rs) ps).
Proof.
  induction ps as [|p ps IH]; simpl.
  - induction rs; simpl; auto.
  - rewrite flat_map_app_perm. apply Permutation_app_head, IH.
Qed.

(** label every row *)
Definition labelled {X T} (t : T) (xs : list X) : list (X * T) := map (fun x => (x, t)) xs.

Lemma combine_repeat {X T} (t : T) (xs : list X) : combine xs (repeat t (length xs)) = labelled t xs.
Proof. induction xs; simpl; f_equal; auto. Qed.

Lemma labelled_app {X T} (t : T) (a b : list X) : labelled t (a ++ b) = labelled t a ++ labelled t b.
Proof. apply map_app. Qed.

Definition lookup {X} (l : list (list X)) r : list X :=
  match nth_error l r with Some xs => xs | None => [] end.

Lemma flat_map_lookup {X} (l : list (list X)) : forall m, length l <= m ->
  flat_map (lookup l) (seq 0 m) = concat l.
Proof.
  induction l as [|x r IH]; intros m H.
  - simpl. induction (seq 0 m) as [|i s IHs]; simpl; auto. unfold lookup at 1.
    destruct i; simpl; auto.
  - destruct m as [|m]; simpl in H; [lia|]. rewrite <- cons_seq. simpl.
    f_equal. rewrite <- seq_shift. rewrite <- (IH m) by lia.
    rewrite !flat_map_concat_map, map_map. reflexivity.
Qed.

Lemma max_nat_le l n : In n l -> n <= max_nat l.
Proof. induction l; simpl; intros []; subst; [lia|]. specialize (IHl H). lia. Qed.
Lemma max_nat_in l r : r < max_nat l -> exists n, In n l /\ r < n.
Proof.
  induction l; simpl; intros; [lia|].
  destruct (Nat.max_spec a (max_nat l)) as [[? E]|[? E]]; rewrite E in H.
  - destruct IHl as (n & ? & ?); auto. exists n; auto.
  - exists a; auto.
Qed.

Lemma interpose_round_ok {X T} (ls : list (list (list X))) (targets : list T) r :
  length ls = length targets -> r < max_nat (map (@length _) ls) ->
  exists xs ts, interpose_round targets (map (fun l => nth_error l r) ls) = Ok (xs, ts) /\
    length xs = length ts /\
    combine xs ts = flat_map (fun p => labelled (snd p) (lookup (fst p) r)) (combine ls targets).
Proof.
  intros E M. unfold interpose_round.
  set (tsl := flat_map _ (combine (map _ ls) targets)).
  set (xsl := flat_map opt_list _).
  assert (C : forall (ls : list (list (list X))) (targets : list T), length ls = length targets ->
    let tsl := flat_map (fun p : option (list X) * T => match fst p with
                               | Some xs => [repeat (snd p) (length xs)]
                               | None => [] end) (combine (map (fun l => nth_error l r) ls) targets) in
    let xsl := flat_map opt_list (map (fun l => nth_error l r) ls) in
    length (concat xsl) = length (concat tsl) /\
    combine (concat xsl) (concat tsl) =
      flat_map (fun p => labelled (snd p) (lookup (fst p) r)) (combine ls targets) /\
    (tsl = [] <-> xsl = [])).
  { clear. induction ls as [|l ls IH]; intros [|t ts] E; simpl in E; try lia.
    - simpl. repeat split; auto.
    - specialize (IH ts ltac:(lia)). destruct IH as (L & C & N).
      simpl. unfold lookup at 1. simpl fst. simpl snd.
      destruct (nth_error l r) as [b|]; simpl.
      + rewrite !app_length, repeat_length, L. repeat split; auto.
        * rewrite combine_app by (now rewrite repeat_length).
          rewrite combine_repeat, C. reflexivity.
        * intros H; discriminate.
        * intros H; discriminate.
      + repeat split; auto; apply N. }
  destruct (C ls targets E) as (L & Cc & N). fold tsl in L, Cc, N. fold xsl in L, Cc, N.
  assert (NX : xsl <> []).
  { destruct (max_nat_in _ _ M) as (n & Hn & Hr). apply in_map_iff in Hn as (l & <- & Hl).
    destruct (nth_error l r) as [b|] eqn:Eb; [|apply nth_error_None in Eb; lia].
    intros Z. assert (In b xsl); [|rewrite Z in *; auto].
    unfold xsl. apply in_flat_map. exists (Some b). split; [|simpl; auto].
    apply in_map_iff. exists l. auto. }
  assert (NT : tsl <> []) by (intros Z; apply NX, N, Z).
  rewrite !np_concatenate_ok by auto. simpl. eauto.
Qed.

Lemma interpose_spec {X T} (ls : list (list (list X))) (targets : list T) :
  length ls = length targets ->
  exists out, inputs_loaders_to_batches ls targets Interpose = Ok out /\ aligned out /\
    num_batches out = max_nat (map (@length _) ls) /\
    rows out = flat_map (fun r => flat_map (fun p => labelled (snd p) (lookup (fst p) r)) (combine ls targets))
                        (seq 0 (max_nat (map (@length _) ls))) /\
    Permutation (rows out) (flat_map (fun p => labelled (snd p) (concat (fst p))) (combine ls targets)).
Proof.
  intros E. simpl. unfold zip_longest.
  set (M := max_nat (map (@length _) ls)).
  assert (H : forall rs, Forall (fun r => r < M) rs -> exists out,
    mapM (interpose_round targets) (map (fun r => map (fun l => nth_error l r) ls) rs) = Ok out /\
    aligned out /\ length out = length rs /\
    rows out = flat_map (fun r => flat_map (fun p => labelled (snd p) (lookup (fst p) r)) (combine ls targets)) rs).
  { induction rs as [|r rs IH]; intros F.
    - exists []. simpl. repeat split; auto. constructor.
    - inversion F; subst. destruct (IH H2) as (out & O & A & L & R).
      destruct (interpose_round_ok ls targets r E H1) as (xs & ts & Q & LE & C).
      exists ((xs, ts) :: out). cbn [map mapM]. rewrite Q. cbn [bind]. rewrite O. cbn [bind].
      repeat split; auto.
      + apply aligned_cons; auto.
      + simpl. lia.
      + rewrite rows_cons, C, R. reflexivity. }
  destruct (H (seq 0 M)) as (out & O & A & L & R).
  { apply Forall_forall. intros r Hr. apply in_seq in Hr. lia. }
  exists out. repeat split; auto.
  - unfold num_batches. now rewrite L, seq_length.
  - rewrite R.
    rewrite (flat_map_exchange (fun p r => labelled (snd p) (lookup (fst p) r))).
    assert (EQ : forall ps, (forall p, In p ps -> In (fst p) ls) ->
      flat_map (fun p => flat_map (fun r => labelled (snd p) (lookup (fst p) r)) (seq 0 M)) ps
      = flat_map (fun p : list (list X) * T => labelled (snd p) (concat (fst p))) ps).
    { induction ps as [|[l t] ps IH]; intros I; simpl; auto.
      rewrite IH by (intros; apply I; simpl; auto). f_equal.
      rewrite <- (flat_map_lookup l M).
      - clear. induction (seq 0 M); simpl; auto. rewrite labelled_app. now f_equal.
      - apply max_nat_le, in_map_iff. exists l. split; auto. apply (I (l, t)). simpl; auto. }
    rewrite EQ; auto.
    intros [l t] I. apply in_combine_l in I. exact I.
Qed.

Lemma concatenate_spec {X T} (ls : list (list (list X))) (targets : list T) :
  exists out, inputs_loaders_to_batches ls targets Concatenate = Ok out /\ aligned out /\
    rows out = flat_map (fun p => labelled (snd p) (concat (fst p))) (combine ls targets) /\
    to_inputs_loader out = flat_map fst (combine ls targets).
Proof.
  simpl. eexists. split; [reflexivity|].
  induction (combine ls targets) as [|[l t] r (A & R & I)]; simpl.
  - repeat split; constructor.
  - split; [|split].
    + apply Forall_app. split; auto. apply Forall_map, Forall_forall. intros xs _. simpl.
      now rewrite repeat_length.
    + unfold rows in *. rewrite flat_map_app, R. f_equal.
      induction l; simpl; auto. rewrite combine_repeat, labelled_app. now f_equal.
    + unfold to_inputs_loader in *. rewrite map_app, I. f_equal.
      rewrite map_map. simpl. apply map_id.
Qed.

(** * Transformed loaders *)
Lemma transform_loop_own {X Y X' Y' S}
  (f : list X -> list Y -> S -> transform_result (option (list X') * option (list Y')) S) :
  forall l stored stored2 s,
    snd (transform_loop f stored (Own s) l) = stored /\
    fst (transform_loop f stored (Own s) l) = fst (transform_loop f stored2 (Own s) l).
Proof.
  induction l as [|[xs ys] r IH]; intros stored stored2 s; simpl; auto.
  unfold step_status. simpl.
  set (res := f xs ys s).
  destruct (t_ret res) as [s'|];
  [ set (q := s') | set (q := t_mut res) ];
  specialize (IH stored stored2 q); destruct IH as (I1 & I2);
  destruct (transform_loop f stored (Own q) r) as [[o e] st];
  destruct (transform_loop f stored2 (Own q) r) as [[o2 e2] st2];
  simpl in I1, I2; injection I2; intros; subst;
  destruct (t_out res) as [[xs'|] [ys'|]]; simpl; auto;
  destruct ((0 <? length xs') && (0 <? length ys')); simpl; auto;
  destruct (negb (length xs' =? length ys')); simpl; auto.
Qed.

Lemma transform_passes_same {X Y X' Y' S}
  (f : list X -> list Y -> S -> transform_result (option (list X') * option (list Y')) S) l stored k :
  transform_passes f k stored l = repeat (fst (transform_pass f stored l)) k.
Proof.
  induction k as [|k IH]; simpl; auto.
  destruct (transform_loop_own f l stored stored stored) as (H & _).
  unfold transform_pass in *. destruct (transform_loop f stored (Own stored) l) as [[o e] st].
  simpl in *. subst st. now rewrite IH.
Qed.

Lemma transform_loop_wf {X Y X' Y' S}
  (f : list X -> list Y -> S -> transform_result (option (list X') * option (list Y')) S) :
  forall l stored r, Forall (fun p => length (fst p) = length (snd p) /\ 1 <= length (fst p))
     (fst (fst (transform_loop f stored r l))).
Proof.
  induction l as [|[xs ys] rest IH]; intros stored r; simpl; [constructor|].
  destruct (step_status stored r (f xs ys (deref stored r))) as [st' r'].
  specialize (IH st' r'). destruct (transform_loop f st' r' rest) as [[o e] s2]. simpl in IH.
  destruct (t_out (f xs ys (deref stored r))) as [[xs'|] [ys'|]]; simpl; auto.
  destruct (Nat.ltb_spec 0 (length xs')); simpl; auto.
  destruct (Nat.ltb_spec 0 (length ys')); simpl; auto.
  destruct (Nat.eqb_spec (length xs') (length ys')); simpl; auto.
Qed.

Lemma transform1_loop_own {A B S} (f : list A -> S -> transform_result (option (list B)) S) :
  forall l stored stored2 s,
    snd (transform1_loop f stored (Own s) l) = stored /\
    fst (transform1_loop f stored (Own s) l) = fst (transform1_loop f stored2 (Own s) l).
Proof.
  induction l as [|xs r IH]; intros stored stored2 s; simpl; auto.
  unfold step_status. simpl. set (res := f xs s).
  destruct (t_ret res) as [s'|];
  [ set (q := s') | set (q := t_mut res) ];
  specialize (IH stored stored2 q); destruct IH as (I1 & I2);
  destruct (transform1_loop f stored (Own q) r) as [o st];
  destruct (transform1_loop f stored2 (Own q) r) as [o2 st2];
  simpl in I1, I2; subst; destruct (t_out res) as [xs'|]; simpl; auto;
  destruct (0 <? length xs'); simpl; auto.
Qed.

Lemma transform1_passes_same {A B S} (f : list A -> S -> transform_result (option (list B)) S) l stored k :
  transform1_passes f k stored l = repeat (fst (transform1_pass f stored l)) k.
Proof.
  induction k as [|k IH]; simpl; auto.
  destruct (transform1_loop_own f l stored stored stored) as (H & _).
  unfold transform1_pass in *. destruct (transform1_loop f stored (Own stored) l) as [o st].
  simpl in *. subst st. now rewrite IH.
Qed.

Lemma transform1_nonempty {A B S} (f : list A -> S -> transform_result (option (list B)) S) :
  forall l stored r, Forall (fun b => 1 <= length b) (fst (transform1_loop f stored r l)).
Proof.
  induction l as [|xs rest IH]; intros stored r; simpl; [constructor|].
  destruct (step_status stored r (f xs (deref stored r))) as [st' r'].
  specialize (IH st' r'). destruct (transform1_loop f st' r' rest) as [o s2]. simpl in IH.
  destruct (t_out (f xs (deref stored r))) as [xs'|]; simpl; auto.
  destruct (Nat.ltb_spec 0 (length xs')); simpl; auto.
Qed.

(** * Device sharding *)
Lemma reshape_devices_ok {A} d (rows : list A) : 1 <= d -> length rows mod d = 0 ->
  exists sh, reshape_devices d rows = Ok sh /\ concat sh = rows /\ length sh = d /\
    Forall (fun s => length s = length rows / d) sh.
Proof.
  intros Hd Z. unfold reshape_devices. rewrite Z. simpl.
  set (m := length rows / d).
  assert (Em : length rows = d * m).
  { unfold m. pose proof (Nat.div_mod (length rows) d ltac:(lia)). lia. }
  eexists. split; [reflexivity|]. split; [|split].
  - pose proof (concat_slices m d 0 rows) as C. simpl in C.
    rewrite (skipn_all2 rows) in C by lia. rewrite app_nil_r in C. exact C.
  - now rewrite map_length, seq_length.
  - apply Forall_map, Forall_forall. intros i Hi. apply in_seq in Hi.
    rewrite slice_length; nia.
Qed.

Lemma reshape_devices_err {A} d (rows : list A) : length rows mod d <> 0 ->
  reshape_devices d rows = Err ValueError.
Proof. intros H. unfold reshape_devices. destruct (Nat.eqb_spec (length rows mod d) 0); [lia|reflexivity]. Qed.

Lemma concat_map_map {A B} (g : A -> B) (l : list (list A)) : concat (map (map g) l) = map g (concat l).
Proof. symmetry. apply concat_map. Qed.

Lemma loop_fun_rowwise {A B} (g : A -> B) distribute d loader :
  1 <= d -> loader <> [] -> (distribute = true -> Forall (fun b => length b mod d = 0) loader) ->
  loop_fun distribute d (map g) loader = Ok (map g (concat loader)).
Proof.
  intros Hd NE H. unfold loop_fun. destruct distribute.
  - specialize (H eq_refl).
    assert (M : mapM (fun b => rmap (fun shards => unshard (map (map g) shards)) (reshape_devices d b)) loader
            = Ok (map (map g) loader)).
    { apply mapM_ok_map. intros b Hb.
      destruct (reshape_devices_ok d b Hd) as (sh & E & C & _).
      - rewrite Forall_forall in H. auto.
      - rewrite E. simpl. unfold unshard. now rewrite concat_map_map, C. }
    rewrite M. simpl. rewrite np_concatenate_ok by (destruct loader; simpl; congruence).
    now rewrite concat_map_map.
  - rewrite np_concatenate_ok by (destruct loader; simpl; congruence).
    now rewrite concat_map_map.
Qed.

Lemma loop_fun_indivisible {A B} (f : list A -> list B) d loader :
  1 <= d -> Exists (fun b => length b mod d <> 0) loader -> loop_fun true d f loader = Err ValueError.
Proof.
  intros Hd X. unfold loop_fun.
  assert (M : mapM (fun b => rmap (fun shards => unshard (map f shards)) (reshape_devices d b)) loader
            = Err ValueError).
  { induction X as [b l H|b l H IH]; cbn [mapM].
    - rewrite reshape_devices_err by auto. reflexivity.
    - destruct (Nat.eq_dec (length b mod d) 0) as [Z|Z].
      + destruct (reshape_devices_ok d b Hd Z) as (sh & E & _). rewrite E. cbn [rmap bind].
        rewrite IH. reflexivity.
      + rewrite reshape_devices_err by auto. reflexivity. }
  rewrite M. reflexivity.
Qed.

(** * Ensembles *)
Lemma nth_error_map' {A B} (f : A -> B) l i : nth_error (map f l) i = option_map f (nth_error l i).
Proof. revert i; induction l; destruct i; simpl; auto. Qed.

Lemma transpose_grid {A B} (gs : list (A -> B)) (b : list A) :
  transpose (length b) (map (fun g => map g b) gs) = map (fun x => map (fun g => g x) gs) b.
Proof.
  unfold transpose.
  assert (H : forall j x, nth_error b j = Some x ->
     flat_map (fun row => opt_list (nth_error row j)) (map (fun g => map g b) gs) = map (fun g => g x) gs).
  { intros j x N. induction gs as [|g gs IH]; simpl; auto.
    rewrite nth_error_map', N. simpl. f_equal. exact IH. }
  revert H. generalize (map (fun g => map g b) gs) as m. intros m H.
  assert (G : forall k l, (forall j x, nth_error l j = Some x -> nth_error b (k + j) = Some x) ->
    map (fun j => flat_map (fun row => opt_list (nth_error row j)) m) (seq k (length l))
    = map (fun x => map (fun g => g x) gs) l).
  { intros k l. revert k. induction l as [|x r IH]; intros k N; simpl; auto. f_equal.
    - apply H. specialize (N 0 x eq_refl). now rewrite Nat.add_0_r in N.
    - apply IH. intros j y Ny. specialize (N (S j) y Ny). rewrite <- N. f_equal. lia. }
  apply (G 0 b). auto.
Qed.

Lemma transpose_grid' {A B} (gs : list (A -> B)) (b : list A) :
  transpose (length gs) (map (fun x => map (fun g => g x) gs) b) = map (fun g => map g b) gs.
Proof.
  pose proof (transpose_grid (map (fun x (g : A -> B) => g x) b) gs) as T.
  rewrite map_map in T. rewrite T. apply map_ext. intros g. rewrite map_map. reflexivity.
Qed.

Lemma concat_axis1_grid {A B} (gs : list (A -> B)) (bs : list (list A)) : bs <> [] ->
  concat_axis1 (length gs) (map (fun b => map (fun g => map g b) gs) bs)
  = Ok (map (fun g => map g (concat bs)) gs).
Proof.
  intros NE. unfold concat_axis1.
  replace (match map (fun b => map (fun g : A -> B => map g b) gs) bs with [] => Err ValueError | _ :: _ => Ok (map (fun j =>
     flat_map (fun p => match nth_error p j with Some r => r | None => [] end) (map (fun b => map (fun g : A -> B => map g b) gs) bs)) (seq 0 (length gs))) end)
   with (Ok (map (fun j =>
     flat_map (fun p => match nth_error p j with Some r => r | None => [] end) (map (fun b => map (fun g : A -> B => map g b) gs) bs)) (seq 0 (length gs))))
   by (destruct bs; [easy|reflexivity]).
  f_equal. clear NE.
  set (row := fun j => _).
  assert (H : forall j g, nth_error gs j = Some g -> row j = map g (concat bs)).
  { intros j g N. unfold row. clear row. induction bs as [|b r IH]; simpl; auto.
    rewrite nth_error_map', N. simpl. rewrite map_app. f_equal. exact IH. }
  assert (G : forall k l, (forall j g, nth_error l j = Some g -> nth_error gs (k + j) = Some g) ->
     map row (seq k (length l)) = map (fun g => map g (concat bs)) l).
  { intros k l. revert k. induction l as [|x r IH]; intros k N; simpl; auto. f_equal.
    - apply H. specialize (N 0 x eq_refl). now rewrite Nat.add_0_r in N.
    - apply IH. intros j y Ny. specialize (N (S j) y Ny). rewrite <- N. f_equal. lia. }
  apply (G 0 gs). auto.
Qed.

Lemma unshard_ensemble_grid {A B} (gs : list (A -> B)) (m : nat) (shards : list (list A)) :
  Forall (fun s => length s = m) shards ->
  unshard_ensemble (length gs) m (map (fun b => map (fun g => map g b) gs) shards)
  = map (fun g => map g (concat shards)) gs.
Proof.
  intros F. unfold unshard_ensemble. rewrite map_map.
  replace (concat (map (fun x => transpose m (map (fun g => map g x) gs)) shards))
    with (map (fun x => map (fun g : A -> B => g x) gs) (concat shards)).
  - apply transpose_grid'.
  - induction F as [|s r E F IH]; simpl; auto.
    rewrite map_app, IH. f_equal. subst m. now rewrite transpose_grid.
Qed.

Lemma loop_ensemble_rowwise {A B} (gs : list (A -> B)) distribute d loader :
  1 <= d -> loader <> [] -> (distribute = true -> Forall (fun b => length b mod d = 0) loader) ->
  loop_ensemble distribute d (length gs) (fun b => map (fun g => map g b) gs) loader
  = Ok (map (fun g => map g (concat loader)) gs).
Proof.
  intros Hd NE H. unfold loop_ensemble. destruct distribute.
  - specialize (H eq_refl).
    rewrite (mapM_ok_map _ (fun b => map (fun g => map g b) gs)).
    + simpl. now apply concat_axis1_grid.
    + intros b Hb. rewrite Forall_forall in H.
      destruct (reshape_devices_ok d b Hd (H b Hb)) as (sh & E & C & _ & F).
      rewrite E. cbn [rmap]. rewrite (unshard_ensemble_grid gs (length b / d) sh F), C. reflexivity.
  - now apply concat_axis1_grid.
Qed.
Lemma loop_ensemble_empty {A B} distribute d s (f : list A -> list (list B)) :
  loop_ensemble distribute d s f [] = Err ValueError.
Proof. now destruct distribute. Qed.

(** * sample *)
Lemma mask_select_combine {X Y} m : forall (xs : list X) (ys : list Y), length xs = length ys ->
  length (mask_select m xs) = length (mask_select m ys) /\
  combine (mask_select m xs) (mask_select m ys) = mask_select m (combine xs ys).
Proof.
  induction m as [|b m IH]; intros xs ys E; destruct xs as [|x xs], ys as [|y ys]; simpl in *; try lia; auto.
  destruct (IH xs ys ltac:(lia)) as (L & C). destruct b; simpl; split; auto. now f_equal.
Qed.
Lemma mask_select_incl {A} m (l : list A) : incl (mask_select m l) l.
Proof.
  revert l; induction m as [|b m IH]; intros [|x l]; simpl; try (intros ? []; fail).
  destruct b; intros y H; simpl in *; [destruct H; auto|]; right; now apply IH.
Qed.
Lemma firstn_incl {A} n (l : list A) : incl (firstn n l) l.
Proof. revert l; induction n; intros [|x l]; simpl; intros y H; simpl in *; auto; try contradiction.
  destruct H; auto. right. now apply IHn. Qed.

Lemma sample_pass_spec {X Y} draw n : forall (l : list (batch X Y)) count i out c j,
  aligned l -> count <= n -> sample_pass draw n count i l = (out, c, j) ->
  aligned out /\ incl (rows out) (rows l) /\ count + size out = c /\ c <= n /\
  Forall (fun p => 1 <= length (fst p)) out.
Proof.
  induction l as [|[xs ys] r IH]; intros count i out c j A Hc H; simpl in H.
  - inversion H; subst. simpl. repeat split; auto; try constructor. intros ? [].
  - apply aligned_cons in A as (E & A).
    destruct (Nat.eqb_spec count n) as [->|N].
    + inversion H; subst. simpl. repeat split; auto; try constructor. intros ? [].
    + set (m := draw i) in *.
      destruct (mask_select_combine m xs ys E) as (L & C).
      set (xs1 := mask_select m xs) in *. set (ys1 := mask_select m ys) in *.
      set (xs2 := if n <? count + length xs1 then firstn (n - count) xs1 else xs1) in *.
      set (ys2 := if n <? count + length xs1 then firstn (n - count) ys1 else ys1) in *.
      assert (P : length xs2 = length ys2 /\ incl (combine xs2 ys2) (combine xs ys) /\ count + length xs2 <= n).
      { unfold xs2, ys2. destruct (Nat.ltb_spec n (count + length xs1)).
        - rewrite !firstn_length. split; [lia|]. split; [|lia].
          rewrite combine_firstn', C. eapply incl_tran; [apply firstn_incl|apply mask_select_incl].
        - split; auto. split; [|lia]. rewrite C. apply mask_select_incl. }
      destruct P as (P1 & P2 & P3).
      destruct (sample_pass draw n (count + length xs2) (S i) r) as [[rest c'] j'] eqn:R.
      inversion H; subst; clear H.
      destruct (IH _ _ _ _ _ A P3 R) as (A' & I & Sz & Cn & F).
      destruct (Nat.ltb_spec 0 (length xs2)).
      * split; [apply aligned_cons; auto|]. split.
        -- rewrite !rows_cons. apply incl_app; [apply incl_appl; auto|apply incl_appr; auto].
        -- repeat split; auto. unfold size in *. simpl. lia.
      * repeat split; auto.
        -- rewrite rows_cons. apply incl_appr; auto.
        -- assert (length xs2 = 0) by lia. lia.
Qed.

Lemma sample_loop_spec {X Y} draw n : forall fuel (l : list (batch X Y)) count i out,
  aligned l -> count <= n -> sample_loop fuel draw n count i l = Some out ->
  aligned out /\ incl (rows out) (rows l) /\ count + size out = n /\
  Forall (fun p => 1 <= length (fst p)) out.
Proof.
  induction fuel as [|f IH]; intros l count i out A Hc H; simpl in H; [discriminate|].
  destruct (sample_pass draw n count i l) as [[o c] j] eqn:P.
  destruct (sample_pass_spec draw n l count i o c j A Hc P) as (A1 & I1 & S1 & C1 & F1).
  destruct (Nat.eqb_spec c n) as [->|N].
  - inversion H; subst. auto.
  - destruct (sample_loop f draw n c j l) as [o2|] eqn:R; simpl in H; [|discriminate].
    injection H; intros <-. destruct (IH l c j o2 A C1 R) as (A2 & I2 & S2 & F2).
    repeat split.
    + apply Forall_app; auto.
    + unfold rows in *. rewrite flat_map_app. apply incl_app; auto.
    + unfold size in *. rewrite map_app. unfold sum_nat in *.
      assert (AP : forall a b, fold_right Nat.add 0 (a ++ b) = fold_right Nat.add 0 a + fold_right Nat.add 0 b).
      { clear. induction a; simpl; intros; auto. rewrite IHa. lia. }
      rewrite AP. lia.
    + apply Forall_app; auto.
Qed.

Lemma sample_empty_diverges {X Y} draw n fuel : 1 <= n ->
  sample fuel draw n (@nil (batch X Y)) = None.
Proof.
  intros H. unfold sample. generalize 0 at 2 as i. induction fuel as [|f IH]; intros i; simpl; auto.
  destruct n; [lia|]. simpl. rewrite IH. reflexivity.
Qed.
