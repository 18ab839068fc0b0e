From Coq Require Import List Arith ZArith Lia Permutation Bool.
From Verif Require Import Lib LoaderProofs TextModel TextProofs HfModel HfSpec HfProofs HfProofs2.
Import ListNotations.

Lemma mask_row_spec mask_id : forall (pc : list (Z * bool)) ds, length ds = length pc ->
  (forall t, In (t, false) pc -> t <> (-100)%Z) ->
  length (mask_tokens mask_id (map fst pc) (map snd pc) ds) = length pc /\
  map original_token (mask_tokens mask_id (map fst pc) (map snd pc) ds) = map fst pc /\
  (forall i x, nth_error (mask_tokens mask_id (map fst pc) (map snd pc) ds) i = Some x ->
     (forall t, nth_error pc i <> Some (t, false)) -> snd x = (-100)%Z).
Proof.
  induction pc as [|(t, s) pc IH]; intros [|d ds] L H; simpl in L; try discriminate.
  - split; [reflexivity|]. split; [reflexivity|]. intros [|i] x E; discriminate.
  - destruct (IH ds) as (I1 & I2 & I3); [lia|intros t' I; apply H; now right|].
    simpl map. cbn [mask_tokens]. cbn [length map]. rewrite I1, I2. split; [reflexivity|]. split.
    + f_equal. unfold mask_token_at, original_token, ignore_index.
      destruct s; cbn [negb andb fst snd].
      * rewrite Z.eqb_refl. now rewrite !andb_false_r.
      * destruct (d_sel d); cbn [negb fst snd]; [|rewrite Z.eqb_refl; now rewrite !andb_false_r].
        destruct (Z.eqb_spec t (-100)) as [->|N]; [|reflexivity]. exfalso. apply (H (-100)%Z); [now left|reflexivity].
    + intros [|i] x E N; simpl in E.
      * injection E as <-. destruct s; [reflexivity|]. exfalso. apply (N t). reflexivity.
      * apply (I3 i x E). exact N.
Qed.

Lemma map_rep {A B} (f : A -> B) x n : map f (repeat x n) = repeat (f x) n.
Proof. induction n as [|n IH]; simpl; [reflexivity|]. now rewrite IH. Qed.

Lemma pad_to_fst w pad (c : list (Z * bool)) : pad_to w pad (map fst c) = map fst (pad_to w (pad, true) c).
Proof. unfold pad_to. rewrite map_app, map_length, map_rep. reflexivity. Qed.
Lemma pad_to_snd w pad (c : list (Z * bool)) : pad_to w true (map snd c) = map snd (pad_to w (pad, true) c).
Proof. unfold pad_to. rewrite map_app, map_length, map_rep. reflexivity. Qed.

Lemma masked_row_of mask_id pad w (c : list (Z * bool)) ds : length c <= w -> length ds = w ->
  (forall t, In (t, false) c -> t <> (-100)%Z) ->
  masked_row pad w c (mask_tokens mask_id (pad_to w pad (map fst c)) (pad_to w true (map snd c)) ds).
Proof.
  intros Hw Hd H. rewrite pad_to_fst, (pad_to_snd w pad).
  assert (Lp : length (pad_to w (pad, true) c) = w). { unfold pad_to. rewrite app_length, repeat_length. lia. }
  destruct (mask_row_spec mask_id (pad_to w (pad, true) c) ds) as (A & B & C).
  - congruence.
  - intros t I. unfold pad_to in I. apply in_app_or in I as [I|I]; [auto|]. apply repeat_spec in I. discriminate.
  - split; [congruence|]. split.
    + rewrite B. unfold pad_to. now rewrite map_app, map_rep.
    + intros i x E N. apply (C i x E). intros t Et. unfold pad_to in Et.
      destruct (Nat.lt_ge_cases i (length c)) as [L|L].
      * rewrite nth_error_app1 in Et by exact L. exact (N t Et).
      * rewrite nth_error_app2 in Et by exact L. apply nth_error_In, repeat_spec in Et. discriminate.
Qed.

Lemma max_nat_const {A} (l : list A) (f : A -> nat) m : l <> [] -> (forall x, In x l -> f x = m) -> max_nat (map f l) = m.
Proof.
  intros NE H. assert (N : map f l <> []) by (destruct l; [congruence|discriminate]).
  apply max_nat_in in N. apply in_map_iff in N as (x & E & I). rewrite <- E. auto.
Qed.

Lemma pad_batch_const {A} multiple (p : A) (rows : list (list A)) m : rows <> [] -> multiple <> Some 0 ->
  (forall r, In r rows -> length r = m) ->
  forall w, padded_length multiple m = Ok w -> pad_batch multiple p rows = Ok (map (pad_to w p) rows).
Proof.
  intros NE Hm H w E. unfold pad_batch. rewrite (max_nat_const rows (@length A) m NE H), E. reflexivity.
Qed.

Lemma combine_map {A B C} (f : A -> B) (g : A -> C) (l : list A) : combine (map f l) (map g l) = map (fun x => (f x, g x)) l.
Proof. induction l as [|x r IH]; simpl; [reflexivity|]. now rewrite IH. Qed.

Lemma mapM_indexed {A B C} (g : A -> B) (f : nat * B -> result C) (P : A -> C -> Prop) : forall (l : list A) k,
  (forall i x, In x l -> exists y, f (i, g x) = Ok y /\ P x y) ->
  exists ys, mapM f (combine (seq k (length l)) (map g l)) = Ok ys /\ Forall2 P l ys.
Proof.
  induction l as [|x r IH]; intros k H; [exists []; split; [reflexivity|constructor]|].
  destruct (H k x (or_introl eq_refl)) as (y & E & Py).
  destruct (IH (S k)) as (ys & E' & F). { intros i z I. apply H. now right. }
  exists (y :: ys). simpl. rewrite E. cbn [bind]. rewrite E'. split; [reflexivity|constructor; assumption].
Qed.

Lemma mlm_collate_ok mlm mask_id pad multiple draws (cs : list (list (Z * bool))) m :
  cs <> [] -> multiple <> Some 0 -> (forall c, In c cs -> length c = m) -> (mlm = true -> mask_id <> None) ->
  (forall c t, In c cs -> In (t, false) c -> t <> (-100)%Z) ->
  exists rows w, mlm_collate mlm mask_id pad multiple draws (map unzip cs) = Ok rows /\ rounds_up multiple m w /\
    Forall2 (if mlm then masked_row pad w else causal_row pad w) cs rows.
Proof.
  intros NE Hm Hl Hk Ht. destruct (padded_length_spec multiple m Hm) as (w & E & R). pose proof (rounds_up_ge _ _ _ R) as Hw.
  unfold mlm_collate.
  replace (mlm && match mask_id with None => true | _ => false end) with false.
  2:{ destruct mlm; [|reflexivity]. destruct mask_id; [reflexivity|]. exfalso. now apply Hk. }
  rewrite !map_map.
  rewrite (pad_batch_const multiple pad _ m) with (w := w).
  2:{ destruct cs; [congruence|discriminate]. } 2:{ exact Hm. }
  2:{ intros r I. apply in_map_iff in I as (c & <- & Ic). unfold unzip. cbn [fst]. rewrite map_length. auto. }
  2:{ exact E. }
  rewrite (pad_batch_const multiple true _ m) with (w := w).
  2:{ destruct cs; [congruence|discriminate]. } 2:{ exact Hm. }
  2:{ intros r I. apply in_map_iff in I as (c & <- & Ic). unfold unzip. cbn [snd]. rewrite map_length. auto. }
  2:{ exact E. }
  cbn [bind]. rewrite !map_map, combine_map, map_length.
  destruct (mapM_indexed (fun c => (pad_to w pad (fst (unzip c)), pad_to w true (snd (unzip c))))
    (fun x => let '(r, (row, sp)) := x in
       collate_lm mlm (match mask_id with Some k => k | None => 0%Z end) (Some pad) row (Some sp) (map (draws r) (seq 0 (length row))))
    (if mlm then masked_row pad w else causal_row pad w) cs 0) as (ys & Ey & F).
  - intros i c Ic. cbv beta iota. unfold collate_lm, unzip. cbn [fst snd].
    assert (Lc : length (pad_to w pad (map fst c)) = w).
    { unfold pad_to. rewrite app_length, repeat_length, map_length, (Hl c Ic). lia. }
    destruct mlm.
    + eexists. split; [reflexivity|]. apply masked_row_of.
      * now rewrite (Hl c Ic).
      * now rewrite map_length, seq_length.
      * intros t It. apply (Ht c t Ic It).
    + eexists. split; [reflexivity|]. split; [now rewrite map_length|]. split.
      * rewrite map_map. cbn [fst]. rewrite map_id. unfold pad_to. now rewrite map_length.
      * apply Forall_map, Forall_forall. intros t _. cbn [fst snd]. reflexivity.
  - exists ys, w. split; [exact Ey|]. split; assumption.
Qed.

Lemma cut_length {X} m ps (tokens : X -> list (Z * bool)) texts cs : cut_by_parts m ps tokens texts cs -> forall c, In c cs -> length c = m.
Proof.
  intros (parts & css & _ & _ & F & ->) c I. apply in_concat in I as (cs & Ics & Ic).
  induction F as [|p k ps' ks H1 F IH]; [destruct Ics|]. destruct Ics as [->|Ics]; [|auto].
  destruct H1 as (tail & _ & Fl & _). rewrite Forall_forall in Fl. auto.
Qed.

Lemma cut_tokens {X} m ps (tokens : X -> list (Z * bool)) texts cs : cut_by_parts m ps tokens texts cs ->
  forall c t, In c cs -> In t c -> exists x, In x texts /\ In t (tokens x).
Proof.
  intros (parts & css & Ep & _ & F & ->) c t I It. apply in_concat in I as (cs & Ics & Ic).
  assert (exists p, In p parts /\ cut_into m tokens p cs) as (p & Ip & (tail & E & _)).
  { clear Ep. induction F as [|p k ps' ks H1 F IH]; [destruct Ics|].
    destruct Ics as [->|Ics]; [exists p; split; [now left|exact H1]|].
    destruct (IH Ics) as (q & Iq & Hq). exists q. split; [now right|exact Hq]. }
  assert (J : In t (concat (map tokens p))). { rewrite <- E. apply in_or_app. left. apply in_concat. eauto. }
  apply in_concat in J as (l & Il & Jl). apply in_map_iff in Il as (x & <- & Ix). exists x. split; [|exact Jl].
  rewrite <- Ep. apply in_concat. eauto.
Qed.

Lemma delivers_unlabelled {X C} (good : list X -> C -> Prop) examples b order (batches : list (C * option (list Z))) :
  delivers good examples None b order batches -> map (fun c => (c, None)) (map fst batches) = batches.
Proof.
  intros (idxss & _ & _ & F). induction F as [|i (c, l) is os (_ & H) F IH]; [reflexivity|]. simpl in *. subst l. now rewrite IH.
Qed.

Lemma mlm_delivers : forall X (tok : X -> list Z) (special : X -> list bool) mlm mask_id pad multiple draws max_length map_size b shuffle drop perm (texts : list X),
  1 <= b -> 1 <= map_size -> 1 <= max_length -> multiple <> Some 0 -> (forall n, Permutation (perm n) (seq 0 n)) ->
  (forall x, length (special x) = length (tok x)) -> (forall x t, In t (tok x) -> t <> (-100)%Z) ->
  (mlm = true -> mask_id <> None) ->
  exists chunks batches w, cut_by_parts max_length map_size (fun x => combine (tok x) (special x)) texts chunks /\
    rounds_up multiple max_length w /\
    mlm_loader_pass tok special mlm mask_id pad multiple draws max_length map_size b shuffle drop perm texts = Ok batches /\
    delivers (Forall2 (if mlm then masked_row pad w else causal_row pad w)) chunks None b
      (pass_order (length chunks) b shuffle drop (perm (length chunks))) (map (fun c => (c, None)) batches).
Proof.
  intros X tok special mlm mask_id pad multiple draws max_length map_size b shuffle drop perm texts Hb Hms Hm Hmu P Hs Ht Hk.
  destruct (mlm_dataset tok special max_length map_size texts Hm Hms Hs) as (cs & E & C).
  destruct (padded_length_spec multiple max_length Hmu) as (w & Ew & R).
  unfold mlm_loader_pass. rewrite E. cbn [bind]. rewrite map_length.
  destruct (loader_pass_delivers (fun k => mlm_collate mlm mask_id pad multiple (draws k))
    (fun rs c => exists w, rounds_up multiple max_length w /\ exists ds, rs = map unzip ds /\ Forall2 (if mlm then masked_row pad w else causal_row pad w) ds c)
    b shuffle drop (perm (length cs)) (map unzip cs) None) as (bs & Eb & D).
  - exact Hb.
  - rewrite map_length. apply P.
  - discriminate.
  - intros k rs NE I.
    assert (exists ds, rs = map unzip ds /\ forall d, In d ds -> In d cs) as (ds & -> & Id).
    { clear NE. induction rs as [|r rs IH]; [exists []; split; [reflexivity|intros d []]|].
      destruct IH as (ds & -> & Id). { intros r' I'. apply I. now right. }
      specialize (I r (or_introl eq_refl)). apply in_map_iff in I as (d & <- & Id').
      exists (d :: ds). split; [reflexivity|]. intros d' [<-|I']; auto. }
    destruct (mlm_collate_ok mlm mask_id pad multiple (draws k) ds max_length) as (rows & w' & Er & R' & F).
    + intros ->. apply NE. reflexivity.
    + exact Hmu.
    + intros c Ic. eapply cut_length; eauto.
    + exact Hk.
    + intros c t Ic It. destruct (cut_tokens _ _ _ _ _ C c (t, false) (Id c Ic) It) as (x & _ & J).
      unfold flagged in J. apply in_combine_l in J. eauto.
    + exists rows. split; [exact Er|]. eauto.
  - exists cs, (map fst bs), w. split; [exact C|]. split; [exact R|]. rewrite Eb. split; [reflexivity|].
    rewrite (delivers_unlabelled _ _ _ _ _ D). rewrite map_length in D.
    eapply delivers_map; [|exact D]. intros xs c I NE (w' & R' & ds & Eds & F).
    assert (ds = xs).
    { assert (inj : forall a b, unzip a = unzip b -> a = b).
      { clear. unfold unzip. intros a b H. injection H as H1 H2. revert b H1 H2.
        induction a as [|(x, y) a IH]; intros [|(z, t) b] H1 H2; simpl in *; try discriminate; [reflexivity|].
        injection H1 as -> H1. injection H2 as -> H2. f_equal. auto. }
      clear -Eds inj. revert ds Eds. induction xs as [|x xs IH]; intros [|d ds] E; simpl in E; try discriminate; [reflexivity|].
      injection E. intros E1 E2 E3. f_equal; [apply inj; unfold unzip; congruence|]. apply IH. exact E1. }
    subst ds. assert (w' = w).
    { destruct multiple as [[|k]|]; [congruence| |simpl in *; congruence].
      destruct R as (R1 & q & ->), R' as (R1' & q' & ->). f_equal. nia. }
    subst w'. exact F.
Qed.

Lemma mlm_needs_mask : forall X (tok : X -> list Z) (special : X -> list bool) pad multiple draws max_length map_size b shuffle drop perm (texts : list X) batches,
  mlm_loader_pass tok special true None pad multiple draws max_length map_size b shuffle drop perm texts = Ok batches -> batches = [].
Proof.
  intros X tok special pad multiple draws max_length map_size b shuffle drop perm texts batches H.
  unfold mlm_loader_pass in H. destruct (map_batched _ _ _) as [rows|]; [|discriminate]. cbn [bind] in H.
  unfold loader_pass in H. destruct (get_batches_idxs _ _ _ _ _) as [idxss|]; [|discriminate]. cbn [bind] in H.
  destruct idxss as [|i is]; [injection H as <-; reflexivity|]. exfalso. simpl in H.
  unfold batch_at in H at 1. cbn [fst snd] in H. destruct (gather i rows); discriminate.
Qed.
