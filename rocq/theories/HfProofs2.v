From Coq Require Import List Arith ZArith Lia Permutation Bool.
From Verif Require Import Lib LoaderProofs TextModel TextProofs HfModel HfSpec HfProofs.
Import ListNotations.

(** ---- multiple choice ---- *)
Lemma combine_concat {A B C} (f : A * B -> C) {E} (a : E -> list A) (b : E -> list B) : forall es,
  (forall e, In e es -> length (a e) = length (b e)) ->
  map f (combine (concat (map a es)) (concat (map b es))) = concat (map (fun e => map f (combine (a e) (b e))) es).
Proof.
  induction es as [|e r IH]; intros H; [reflexivity|]. simpl.
  rewrite <- IH by (intros; apply H; now right). rewrite <- map_app. f_equal.
  specialize (H e (or_introl eq_refl)). clear IH. revert H. generalize (a e) (b e). induction l as [|x l IH]; intros [|y l'] H; simpl in *; try lia; [reflexivity|].
  f_equal. apply IH. lia.
Qed.

Lemma combine_repeat_map {A B C} (c : A) (g : B -> C) : forall l, combine (repeat c (length l)) (map g l) = map (fun x => (c, g x)) l.
Proof. induction l as [|x r IH]; simpl; [reflexivity|]. now rewrite IH. Qed.

Lemma concat_inj {A} k : 1 <= k -> forall (a b : list (list A)), Forall (fun c => length c = k) a -> Forall (fun c => length c = k) b ->
  concat a = concat b -> a = b.
Proof.
  intros Hk. induction a as [|x a IH]; intros [|y b] Fa Fb E; [reflexivity| | |].
  - inversion Fb; subst. simpl in E. destruct y; simpl in *; [lia|discriminate].
  - inversion Fa; subst. simpl in E. destruct x; simpl in *; [lia|discriminate].
  - inversion Fa as [|? ? Hx Fa']; inversion Fb as [|? ? Hy Fb']; subst. simpl in E.
    assert (x = y).
    { apply (f_equal (firstn (length x))) in E. rewrite !firstn_app in E. rewrite firstn_all, Nat.sub_diag in E.
      replace (length x - length y) with 0 in E by lia. rewrite (firstn_all2 (n := length x) y) in E by lia.
      simpl in E. now rewrite !app_nil_r in E. }
    subst y. apply app_inv_head in E. f_equal. apply IH; assumption.
Qed.

Lemma strided_concat {A} k (gs : list (list A)) : 1 <= k -> Forall (fun c => length c = k) gs ->
  strided k (length (concat gs)) (concat gs) = Ok gs.
Proof.
  intros Hk F. destruct (strided_spec k (concat gs) Hk) as (bs & E & C & _ & G). rewrite E. f_equal.
  apply (concat_inj k Hk); [|exact F|exact C]. apply (G (length gs)). apply concat_length_const. exact F.
Qed.

Definition choice_tokens {X} (tok : option nat -> X -> X -> list Z) (join : X -> X -> X) (e : X * X * list X) : list (list Z) :=
  map (fun c => tok None (fst (fst e)) (join (snd (fst e)) c)) (snd e).

Lemma multi_tokenize_ok {X} (tok : option nat -> X -> X -> list Z) join k (es : list (example X)) :
  1 <= k -> (forall e, In e es -> length (snd e) = k) ->
  multi_tokenize_batch tok join (Some k) true es = Ok (map (choice_tokens tok join) es).
Proof.
  intros Hk H. unfold multi_tokenize_batch. cbv beta iota zeta.
  assert (L1 : length (concat (map (fun e : X * X * list X => repeat (fst (fst e)) k) es)) = length es * k).
  { rewrite (concat_length_const k). { now rewrite map_length. } apply Forall_map, Forall_forall. intros e _. apply repeat_length. }
  assert (L2 : length (concat (map (fun e : X * X * list X => map (join (snd (fst e))) (snd e)) es)) = length es * k).
  { rewrite (concat_length_const k). { now rewrite map_length. } apply Forall_map, Forall_forall. intros e I. rewrite map_length. auto. }
  rewrite L1, L2, Nat.eqb_refl. cbn [negb].
  rewrite combine_concat. 2:{ intros e I. rewrite repeat_length, map_length. symmetry. auto. }
  assert (M : map (fun e : X * X * list X => map (fun p => tok None (fst p) (snd p)) (combine (repeat (fst (fst e)) k) (map (join (snd (fst e))) (snd e)))) es
     = map (choice_tokens tok join) es).
  { apply map_ext_in. intros e I. rewrite <- (H e I), combine_repeat_map, map_map. reflexivity. }
  rewrite M, strided_concat; [reflexivity|exact Hk|].
  apply Forall_map, Forall_forall. intros e I. unfold choice_tokens. rewrite map_length. auto.
Qed.

Lemma map_batched_ok {X Y} m (f : list X -> result (list Y)) (g : X -> Y) (rows : list X) : 1 <= m ->
  (forall part, (forall x, In x part -> In x rows) -> f part = Ok (map g part)) ->
  map_batched m f rows = Ok (map g rows).
Proof.
  intros Hm H. unfold map_batched. destruct (strided_spec m rows Hm) as (bs & E & C & _ & _). rewrite E. cbn [bind].
  assert (K : mapM f bs = Ok (map (map g) bs)).
  { assert (I : forall b, In b bs -> f b = Ok (map g b)).
    { intros b Ib. apply H. intros x Ix. rewrite <- C. apply in_concat. eauto. }
    clear -I. induction bs as [|b r IH]; [reflexivity|]. simpl. rewrite (I b (or_introl eq_refl)). cbn [bind].
    rewrite IH by (intros; apply I; now right). reflexivity. }
  rewrite K. cbn [rmap]. now rewrite <- concat_map, C.
Qed.

Lemma collate_pad {F G} (pad : list F -> list G) (g : F -> G) (features : list (list F)) n :
  features <> [] -> Forall (fun f => length f = n) features -> pad (concat features) = map g (concat features) ->
  multiple_choice_collate pad features = Ok (map (map g) features).
Proof.
  intros NE H E. rewrite <- (multiple_choice_spec g features n NE H). unfold multiple_choice_collate.
  destruct features as [|f0 r]; [reflexivity|].
  destruct (existsb _ (f0 :: r)); [reflexivity|].
  assert (M : map (firstn (length f0)) (f0 :: r) = f0 :: r).
  { assert (E0 : length f0 = n) by (now inversion H). rewrite E0. clear - H.
    induction H as [|x l Hx Fl IH]; [reflexivity|]. simpl. f_equal; [|exact IH]. rewrite <- Hx. apply firstn_all. }
  now rewrite M, E.
Qed.

Lemma multi_collate_ok multiple pad_id k (groups : list (list (list Z))) : multiple <> Some 0 -> groups <> [] ->
  Forall (fun g => length g = k) groups ->
  exists w, padded_length multiple (max_nat (map (@length Z) (concat groups))) = Ok w /\
    rounds_up multiple (max_nat (map (@length Z) (concat groups))) w /\
    multi_collate multiple pad_id groups = Ok (map (map (pad_to w pad_id)) groups).
Proof.
  intros Hm NE F. destruct (padded_length_spec multiple (max_nat (map (@length Z) (concat groups))) Hm) as (w & E & R).
  exists w. split; [exact E|]. split; [exact R|]. unfold multi_collate.
  unfold pad_batch at 1. rewrite E. cbn [rmap bind].
  apply (collate_pad _ (pad_to w pad_id) groups k NE F). unfold pad_batch. rewrite E. reflexivity.
Qed.

Lemma concat_choice_tokens {X} (tok : option nat -> X -> X -> list Z) join (es : list (X * X * list X)) :
  concat (map (choice_tokens tok join) es) = map (fun p => tok None (fst p) (snd p)) (sentence_pairs join es).
Proof.
  unfold sentence_pairs. rewrite concat_map, map_map. f_equal. apply map_ext. intros e. unfold choice_tokens. rewrite map_map. reflexivity.
Qed.

Lemma multi_delivers : forall X (tok : option nat -> X -> X -> list Z) join k multiple pad_id map_size b shuffle drop perm (examples : list (example X)) ls,
  1 <= b -> 1 <= map_size -> 1 <= k -> multiple <> Some 0 -> Permutation perm (seq 0 (length examples)) -> length ls = length examples ->
  (forall e, In e examples -> length (snd e) = k) ->
  exists batches, multi_loader_pass tok join (Some k) multiple pad_id map_size b shuffle drop perm examples (Some ls) = Ok batches /\
    delivers (fun es groups => exists n w, longest (fun p => tok None (fst p) (snd p)) (sentence_pairs join es) n /\ rounds_up multiple n w /\
                Forall2 (choice_rows (tok None) join pad_id w) es groups)
      examples (Some ls) b (pass_order (length examples) b shuffle drop perm) batches.
Proof.
  intros X tok join k multiple pad_id map_size b shuffle drop perm examples ls Hb Hm Hk Hmu P Hl He.
  unfold multi_loader_pass. cbn [has_labels].
  rewrite (map_batched_ok map_size _ (choice_tokens tok join) examples Hm).
  2:{ intros part I. apply multi_tokenize_ok; [exact Hk|]. intros e Ie. apply He, I, Ie. }
  cbn [bind].
  destruct (loader_pass_delivers (fun _ => multi_collate multiple pad_id)
    (fun gs c => exists w, rounds_up multiple (max_nat (map (@length Z) (concat gs))) w /\ c = map (map (pad_to w pad_id)) gs)
    b shuffle drop perm (map (choice_tokens tok join) examples) (Some ls)) as (bs & E & D).
  - exact Hb.
  - now rewrite map_length.
  - intros ls' El. injection El as <-. now rewrite map_length.
  - intros _ gs NE I. destruct (multi_collate_ok multiple pad_id k gs Hmu NE) as (w & _ & R & E).
    + apply Forall_forall. intros g Ig. apply I in Ig. apply in_map_iff in Ig as (e & <- & Ie). unfold choice_tokens. rewrite map_length. auto.
    + eexists. split; [exact E|]. eauto.
  - exists bs. split; [exact E|]. rewrite map_length in D. eapply delivers_map; [|exact D].
    intros es c I NE (w & R & ->). rewrite concat_choice_tokens in R.
    assert (NP : sentence_pairs join es <> []).
    { destruct es as [|e r]; [congruence|]. unfold sentence_pairs. simpl.
      specialize (He e (I e (or_introl eq_refl))). destruct (snd e); simpl in *; [lia|discriminate]. }
    pose proof (max_nat_map (fun p => tok None (fst p) (snd p)) (sentence_pairs join es) NP) as L.
    eexists _, w. split; [exact L|]. split; [exact R|].
    apply rounds_up_ge in R. rewrite map_map. apply Forall2_map_r. intros e Ie.
    unfold choice_rows, choice_tokens. rewrite map_map. apply Forall2_map_r. intros c Ic. apply pad_to_row.
    refine (Nat.le_trans _ _ _ _ R).
    apply (proj1 L (fst (fst e), join (snd (fst e)) c)). unfold sentence_pairs. apply in_concat.
    eexists. split; [apply in_map; exact Ie|]. apply (in_map (fun c => (fst (fst e), join (snd (fst e)) c))). exact Ic.
Qed.

Lemma choices_columns : forall X (columns : list (list X)) n, (forall col, In col columns -> length col = n) ->
  exists cs, choices_of_columns columns n = Ok cs /\ length cs = n /\
    forall i j col x, nth_error columns j = Some col -> nth_error col i = Some x -> exists c, nth_error cs i = Some c /\ length c = length columns /\ nth_error c j = Some x.
Proof.
  intros X columns n H. unfold choices_of_columns.
  destruct (mapM_all (fun i => mapM (fun col => match nth_error col i with Some x => Ok x | None => Err IndexError end) columns)
    (fun i c => Forall2 (fun col x => nth_error col i = Some x) columns c) (seq 0 n)) as (cs & E & F).
  - intros i I. apply in_seq in I. apply mapM_all. intros col Ic. destruct (nth_error col i) as [x|] eqn:Ex; [eauto|].
    apply nth_error_None in Ex. rewrite (H col Ic) in Ex. lia.
  - exists cs. split; [exact E|]. split.
    + revert F. generalize 0. clear. revert n. induction cs as [|c r IH]; intros [|n] k F; simpl in *; inversion F; subst; [reflexivity|].
      f_equal. eapply IH. eassumption.
    + intros i j col x Ej Ei.
      assert (Hi : i < n). { rewrite <- (H col (nth_error_In _ _ Ej)). apply nth_error_Some. congruence. }
      assert (Q : forall k m cs, Forall2 (fun i c => Forall2 (fun col x => nth_error col i = Some x) columns c) (seq k m) cs ->
                 forall i, i < m -> exists c, nth_error cs i = Some c /\ Forall2 (fun col x => nth_error col (k + i) = Some x) columns c).
      { clear. intros k m. revert k. induction m as [|m IH]; intros k cs F i Hi; [lia|]. simpl in F. inversion F as [|a c l cs' Hc F']; subst.
        destruct i as [|i].
        - exists c. split; [reflexivity|]. now rewrite Nat.add_0_r.
        - destruct (IH (S k) cs' F' i ltac:(lia)) as (c' & Ec & Fc). exists c'. split; [exact Ec|]. now rewrite Nat.add_succ_r. }
      destruct (Q 0 n cs F i Hi) as (c & Ec & Fc). exists c. split; [exact Ec|]. simpl in Fc. clear -Fc Ej Ei. split.
      * clear Ej. induction Fc; simpl; congruence.
      * revert j Ej. induction Fc as [|a y l c' Hy Fc IH]; intros [|j] Ej; simpl in *; try discriminate.
        -- injection Ej as ->. congruence.
        -- auto.
Qed.

Lemma multi_no_target : forall X (tok : option nat -> X -> X -> list Z) join k multiple pad_id map_size b shuffle drop perm (examples : list (example X)),
  1 <= map_size -> 1 <= k -> examples <> [] -> (forall e, In e examples -> length (snd e) = k) ->
  multi_loader_pass tok join (Some k) multiple pad_id map_size b shuffle drop perm examples None = Err KeyError.
Proof.
  intros X tok join k multiple pad_id map_size b shuffle drop perm examples Hm Hk NE He.
  unfold multi_loader_pass, map_batched. cbn [has_labels].
  destruct (strided_spec map_size examples Hm) as (bs & E & C & _ & _). rewrite E. cbn [bind].
  destruct bs as [|p ps]; [simpl in C; congruence|]. cbn [mapM].
  assert (K : multi_tokenize_batch tok join (Some k) false p = Err KeyError).
  { assert (Hp : forall e, In e p -> length (snd e) = k). { intros e I. apply He. rewrite <- C. simpl. apply in_or_app. now left. }
    pose proof (multi_tokenize_ok tok join k p Hk Hp) as T. unfold multi_tokenize_batch in *.
    destruct (negb _); [discriminate|]. destruct (strided k _ _); [reflexivity|discriminate]. }
  now rewrite K.
Qed.

Lemma multi_no_number : forall X (tok : option nat -> X -> X -> list Z) join multiple pad_id map_size b shuffle drop perm (examples : list (example X)) labels,
  1 <= map_size -> examples <> [] ->
  multi_loader_pass tok join None multiple pad_id map_size b shuffle drop perm examples labels = Err TypeError.
Proof.
  intros X tok join multiple pad_id map_size b shuffle drop perm examples labels Hm NE.
  unfold multi_loader_pass, map_batched.
  destruct (strided_spec map_size examples Hm) as (bs & E & C & _ & _). rewrite E. cbn [bind].
  destruct bs as [|p ps]; [simpl in C; congruence|]. reflexivity.
Qed.

(** ---- masked language model ---- *)
Lemma mlm_chunks_map {A B} (f : A -> B) m (l : list (list A)) :
  mlm_chunks m (map (map f) l) = rmap (map (map f)) (mlm_chunks m l).
Proof.
  unfold mlm_chunks. rewrite <- concat_map, map_length. destruct m as [|m]; [reflexivity|].
  unfold strided. cbn [rmap]. rewrite map_map. f_equal. apply map_ext. intros s. unfold slice. now rewrite skipn_map, firstn_map.
Qed.

Definition flagged {X} (tok : X -> list Z) (special : X -> list bool) (x : X) : list (Z * bool) := combine (tok x) (special x).

Lemma map_fst_combine {A B} : forall (a : list A) (b : list B), length a = length b -> map fst (combine a b) = a.
Proof. induction a as [|x a IH]; intros [|y b] H; simpl in *; try discriminate; [reflexivity|]. f_equal. apply IH. lia. Qed.
Lemma map_snd_combine {A B} : forall (a : list A) (b : list B), length a = length b -> map snd (combine a b) = b.
Proof. induction a as [|x a IH]; intros [|y b] H; simpl in *; try discriminate; [reflexivity|]. f_equal. apply IH. lia. Qed.

Definition unzip (c : list (Z * bool)) : list Z * list bool := (map fst c, map snd c).

Lemma combine_unzip (cs : list (list (Z * bool))) : combine (map (map fst) cs) (map (map snd) cs) = map unzip cs.
Proof. induction cs as [|c r IH]; simpl; [reflexivity|]. now rewrite IH. Qed.

Lemma mlm_tokenize_cut {X} (tok : X -> list Z) (special : X -> list bool) m texts : 1 <= m ->
  (forall x, length (special x) = length (tok x)) ->
  exists cs, mlm_tokenize_batch tok special m texts = Ok (map unzip cs) /\ cut_into m (flagged tok special) texts cs.
Proof.
  intros Hm Hs. destruct (mlm_chunks_spec m (map (flagged tok special) texts) Hm) as (cs & tail & E & C & F & L).
  exists cs. split; [|exists tail; auto]. unfold mlm_tokenize_batch.
  replace (map tok texts) with (map (map fst) (map (flagged tok special) texts)).
  2:{ rewrite map_map. apply map_ext. intros x. apply map_fst_combine. auto. }
  replace (map special texts) with (map (map snd) (map (flagged tok special) texts)).
  2:{ rewrite map_map. apply map_ext. intros x. apply map_snd_combine. auto. }
  rewrite !mlm_chunks_map, E. cbn [rmap bind]. now rewrite combine_unzip.
Qed.

Lemma mlm_dataset {X} (tok : X -> list Z) (special : X -> list bool) m ms texts : 1 <= m -> 1 <= ms ->
  (forall x, length (special x) = length (tok x)) ->
  exists cs, map_batched ms (mlm_tokenize_batch tok special m) texts = Ok (map unzip cs) /\ cut_by_parts m ms (flagged tok special) texts cs.
Proof.
  intros Hm Hms Hs. unfold map_batched. destruct (strided_spec ms texts Hms) as (bs & E & C & F & _). rewrite E. cbn [bind].
  assert (K : exists css, mapM (mlm_tokenize_batch tok special m) bs = Ok (map (map unzip) css) /\ Forall2 (cut_into m (flagged tok special)) bs css).
  { clear E C F. induction bs as [|p r IH]; [exists []; split; [reflexivity|constructor]|].
    destruct (mlm_tokenize_cut tok special m p Hm Hs) as (cs & E1 & C1). destruct IH as (css & E2 & C2).
    exists (cs :: css). simpl. rewrite E1. cbn [bind]. rewrite E2. split; [reflexivity|constructor; assumption]. }
  destruct K as (css & E2 & C2). exists (concat css). rewrite E2. cbn [rmap]. rewrite <- concat_map. split; [reflexivity|].
  exists bs, css. auto.
Qed.
