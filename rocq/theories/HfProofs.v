From Coq Require Import List Arith ZArith Lia Permutation Bool.
From Verif Require Import Lib LoaderProofs TextModel TextProofs HfModel HfSpec.
Import ListNotations.

(** ---- generalities ---- *)
Lemma mapM_all {A B} (f : A -> result B) (P : A -> B -> Prop) : forall l,
  (forall x, In x l -> exists y, f x = Ok y /\ P x y) -> exists ys, mapM f l = Ok ys /\ Forall2 P l ys.
Proof.
  induction l as [|x r IH]; intros H; [exists []; split; [reflexivity|constructor]|].
  destruct (H x (or_introl eq_refl)) as (y & E & Py).
  destruct IH as (ys & E' & Fs). { intros z I. apply H. now right. }
  exists (y :: ys). simpl. rewrite E. simpl. rewrite E'. split; [reflexivity|constructor; assumption].
Qed.

Lemma mapM_ok_all {A B} (f : A -> B) (l : list A) : mapM (fun x => Ok (f x)) l = Ok (map f l).
Proof. induction l as [|x r IH]; simpl; [reflexivity|]. now rewrite IH. Qed.

Lemma gather_selects {A} (l : list A) : forall idxs, Forall (fun i => i < length l) idxs ->
  exists xs, gather idxs l = Ok xs /\ selects idxs l xs.
Proof.
  intros idxs H. apply mapM_all. intros i I.
  rewrite Forall_forall in H. destruct (nth_error l i) as [x|] eqn:E.
  - exists x. split; [reflexivity|exact eq_refl].
  - apply nth_error_None in E. specialize (H i I). lia.
Qed.

Lemma selects_length {A} idxs (l xs : list A) : selects idxs l xs -> length xs = length idxs.
Proof. intros H. induction H; simpl; congruence. Qed.

Lemma selects_in {A} idxs (l xs : list A) : selects idxs l xs -> forall x, In x xs -> In x l.
Proof.
  intros H. induction H as [|i x is xs E F IH]; intros y I; [destruct I|].
  destruct I as [<-|I]; [eapply nth_error_In; eauto|auto].
Qed.

Lemma selects_map {A B} (f : A -> B) idxs : forall (l : list A) xs, selects idxs l xs -> selects idxs (map f l) (map f xs).
Proof.
  intros l xs H. induction H as [|i x is xs E F IH]; [constructor|]. simpl. constructor; [|exact IH].
  rewrite nth_error_map, E. reflexivity.
Qed.

Lemma selects_map_inv {A B} (f : A -> B) idxs : forall (l : list A) ys, selects idxs (map f l) ys ->
  exists xs, selects idxs l xs /\ ys = map f xs.
Proof.
  intros l ys H. induction H as [|i y is ys E F IH]; [exists []; split; [constructor|reflexivity]|].
  destruct IH as (xs & S1 & ->). rewrite nth_error_map in E.
  destruct (nth_error l i) as [x|] eqn:Ex; [|discriminate]. injection E as <-.
  exists (x :: xs). split; [constructor; assumption|reflexivity].
Qed.

Lemma pass_order_range n b shuffle drop perm : Permutation perm (seq 0 n) ->
  Forall (fun i => i < n) (pass_order n b shuffle drop perm).
Proof.
  intros P. assert (H : Forall (fun i => i < n) (if shuffle then perm else seq 0 n)).
  { apply Forall_forall. intros i I. destruct shuffle.
    - apply (Permutation_in _ P) in I. apply in_seq in I. lia.
    - apply in_seq in I. lia. }
  unfold pass_order. destruct drop; [|exact H].
  rewrite Forall_forall in *. intros i I. apply H. rewrite <- (firstn_skipn (n / b * b)). apply in_or_app. now left.
Qed.

Lemma batches_of_pass n b shuffle drop perm : 1 <= b -> Permutation perm (seq 0 n) ->
  exists idxss, get_batches_idxs n b shuffle drop perm = Ok idxss /\ concat idxss = pass_order n b shuffle drop perm /\
    Forall (fun c => 1 <= length c <= b) idxss.
Proof.
  intros Hb P. unfold get_batches_idxs, pass_order. destruct b as [|b']; [lia|].
  destruct (strided_spec (S b') (if drop then firstn (n / S b' * S b') (if shuffle then perm else seq 0 n)
                                 else if shuffle then perm else seq 0 n) Hb) as (bs & E & C & F & _).
  exists bs. repeat split; assumption.
Qed.

Lemma loader_pass_delivers {R C} (collate : nat -> list R -> result C) (good : list R -> C -> Prop) b shuffle drop perm rows labels :
  1 <= b -> Permutation perm (seq 0 (length rows)) ->
  (forall ls, labels = Some ls -> length ls = length rows) ->
  (forall k rs, rs <> [] -> (forall r, In r rs -> In r rows) -> exists c, collate k rs = Ok c /\ good rs c) ->
  exists batches, loader_pass collate b shuffle drop perm rows labels = Ok batches /\
    delivers good rows labels b (pass_order (length rows) b shuffle drop perm) batches.
Proof.
  intros Hb P Hl Hc.
  destruct (batches_of_pass (length rows) b shuffle drop perm Hb P) as (idxss & E & Ec & F).
  unfold loader_pass. rewrite E. cbn [bind].
  pose proof (pass_order_range (length rows) b shuffle drop perm P) as HR. rewrite <- Ec in HR.
  destruct (mapM_all (batch_at collate rows labels) (fun bi o =>
      (exists xs, selects (snd bi) rows xs /\ good xs (fst o)) /\
      match labels with None => snd o = None | Some ls => exists ys, selects (snd bi) ls ys /\ snd o = Some ys end)
    (combine (seq 0 (length idxss)) idxss)) as (os & Eo & Fo).
  - intros [k idxs] I. apply in_combine_r in I.
    assert (RI : Forall (fun i => i < length rows) idxs).
    { rewrite Forall_forall in *. intros i Ii. apply HR. apply in_concat. eauto. }
    destruct (gather_selects rows idxs RI) as (rs & Eg & Sg).
    unfold batch_at. cbn [fst snd]. rewrite Eg. cbn [bind].
    destruct (Hc k rs) as (c & Ek & G).
    { intros ->. apply selects_length in Sg. rewrite Forall_forall in F. specialize (F idxs I). simpl in Sg. lia. }
    { intros r Ir. eapply selects_in; eauto. }
    destruct labels as [ls|].
    + destruct (gather_selects ls idxs) as (ys & Ey & Sy). { now rewrite (Hl ls eq_refl). }
      rewrite Ey. cbn [bind rmap]. rewrite Ek. cbn [bind].
      exists (c, Some ys). split; [reflexivity|]. cbn [fst snd]. split; eauto.
    + cbn [bind]. rewrite Ek. cbn [bind]. exists (c, None). split; [reflexivity|]. cbn [fst snd]. split; eauto.
  - exists os. split; [exact Eo|]. exists idxss. repeat split; try assumption.
    clear -Fo. revert os Fo. generalize 0. induction idxss as [|i r IH]; intros k os Fo.
    + simpl in Fo. inversion Fo. constructor.
    + simpl in Fo. inversion Fo as [|x y l l' H1 H2]; subst. constructor; [exact H1|]. eapply IH. exact H2.
Qed.

Lemma delivers_map {X R C} (f : X -> R) (good : list R -> C -> Prop) (good' : list X -> C -> Prop) examples labels b order batches :
  (forall xs c, (forall x, In x xs -> In x examples) -> xs <> [] -> good (map f xs) c -> good' xs c) ->
  delivers good (map f examples) labels b order batches -> delivers good' examples labels b order batches.
Proof.
  intros H (idxss & E & F & G). exists idxss. repeat split; auto.
  clear E. revert F. induction G as [|idxs o is os H1 H2 IH]; intros F; constructor.
  - destruct H1 as ((xs & S1 & G1) & L). split; [|exact L].
    destruct (selects_map_inv f idxs examples xs S1) as (zs & S2 & ->). exists zs. split; [exact S2|].
    apply H; [|inversion F; subst; intros ->; apply selects_length in S2; simpl in S2; lia|exact G1].
    intros x I. eapply selects_in; eauto.
  - apply IH. now inversion F.
Qed.

(** ---- padding ---- *)
Lemma max_nat_ge l x : In x l -> x <= max_nat l.
Proof. induction l as [|y r IH]; intros I; [destruct I|]. simpl. destruct I as [->|I]; [lia|]. specialize (IH I). lia. Qed.

Lemma max_nat_in l : l <> [] -> In (max_nat l) l.
Proof.
  induction l as [|y r IH]; intros H; [congruence|]. simpl. destruct r as [|z r].
  - left. simpl. lia.
  - destruct (Nat.max_dec y (max_nat (z :: r))) as [E|E]; rewrite E; [now left|]. right. apply IH. discriminate.
Qed.

Lemma max_nat_map {X} (f : X -> list Z) (xs : list X) : xs <> [] -> longest f xs (max_nat (map (@length Z) (map f xs))).
Proof.
  intros H. rewrite map_map. split.
  - intros x I. apply max_nat_ge. apply (in_map (fun x => length (f x))). exact I.
  - assert (N : map (fun x => length (f x)) xs <> []) by (destruct xs; [congruence|discriminate]).
    apply max_nat_in in N. apply in_map_iff in N as (x & E & I). eauto.
Qed.

Lemma padded_length_spec multiple n : multiple <> Some 0 -> exists w, padded_length multiple n = Ok w /\ rounds_up multiple n w.
Proof.
  intros H. destruct multiple as [[|m]|]; [congruence| |].
  - unfold padded_length. eexists. split; [reflexivity|]. unfold rounds_up. remember (S m) as k.
    pose proof (Nat.div_mod n k ltac:(lia)) as D. pose proof (Nat.mod_upper_bound n k ltac:(lia)) as U.
    destruct (Nat.eqb_spec (n mod k) 0) as [Z0|Z0].
    + split; [lia|]. exists (n / k). lia.
    + split; [nia|]. exists (n / k + 1). reflexivity.
  - exists n. split; reflexivity.
Qed.

Lemma rounds_up_ge multiple n w : rounds_up multiple n w -> n <= w.
Proof. destruct multiple; simpl; intros H; [|subst]; lia. Qed.

Lemma pad_to_row w p t : length t <= w -> padded_row p w t (pad_to w p t).
Proof.
  intros H. split; [|unfold pad_to; eauto]. unfold pad_to. rewrite app_length, repeat_length. lia.
Qed.

Lemma Forall2_map_r {A B} (P : A -> B -> Prop) (f : A -> B) (l : list A) : (forall x, In x l -> P x (f x)) -> Forall2 P l (map f l).
Proof. induction l as [|x r IH]; intros H; simpl; constructor; [apply H; now left|apply IH; intros; apply H; now right]. Qed.

Lemma stack_same {A} w (rows : list (list A)) : Forall (fun r => length r = w) rows -> stack rows = Ok rows.
Proof.
  intros H. unfold stack. destruct rows as [|r rest]; [reflexivity|].
  inversion H as [|x l E F]; subst. replace (forallb _ rest) with true; [reflexivity|].
  symmetry. apply forallb_forall. intros x I. rewrite Forall_forall in F. apply Nat.eqb_eq. auto.
Qed.

Lemma map_batched_map {X Y} m (f : X -> Y) (rows : list X) : 1 <= m -> map_batched m (fun xs => Ok (map f xs)) rows = Ok (map f rows).
Proof.
  intros Hm. unfold map_batched. destruct (strided_spec m rows Hm) as (bs & E & C & _ & _). rewrite E. cbn [bind].
  rewrite mapM_ok_all. cbn [rmap]. now rewrite <- concat_map, C.
Qed.

(** ---- sequence classification ---- *)
Lemma seq_delivers : forall X (tok : nat -> X -> list Z) pad_id pd max_length map_size b shuffle drop perm (texts : list X) labels,
  1 <= b -> 1 <= map_size -> Permutation perm (seq 0 (length texts)) ->
  (forall ls, labels = Some ls -> length ls = length texts) ->
  (forall x, length (tok max_length x) <= max_length) ->
  pd <> NoPadding ->
  exists batches, seq_loader_pass tok pad_id pd max_length map_size b shuffle drop perm texts labels = Ok batches /\
    delivers (fun xs rows => exists w, padded_rows (tok max_length) pad_id w xs rows /\
                match pd with MaxLength => w = max_length | _ => longest (tok max_length) xs w end)
      texts labels b (pass_order (length texts) b shuffle drop perm) batches.
Proof.
  intros X tok pad_id pd max_length map_size b shuffle drop perm texts labels Hb Hm P Hl Ht Hp.
  unfold seq_loader_pass, seq_tokenize. rewrite map_batched_map by exact Hm. cbn [bind].
  set (f := fun x => match pd with MaxLength => pad_to max_length pad_id (tok max_length x) | _ => tok max_length x end).
  destruct (loader_pass_delivers (fun _ => seq_collate pad_id pd)
    (fun rs c => match pd with
                 | Longest => c = map (pad_to (max_nat (map (@length Z) rs)) pad_id) rs
                 | _ => c = rs end) b shuffle drop perm (map f texts) labels) as (bs & E & D).
  - exact Hb.
  - now rewrite map_length.
  - intros ls El. rewrite map_length. auto.
  - intros _ rs NE I. unfold seq_collate. destruct pd eqn:Ep; [congruence| |].
    + unfold pad_batch, padded_length. cbn [rmap bind]. eexists. split; [|reflexivity].
      apply (stack_same (max_nat (map (@length Z) rs))). apply Forall_map, Forall_forall. intros r Ir.
      unfold pad_to. rewrite app_length, repeat_length.
      pose proof (max_nat_ge (map (@length Z) rs) (length r) (in_map _ _ _ Ir)). lia.
    + exists rs. split; [|reflexivity]. apply (stack_same max_length). apply Forall_forall. intros r Ir.
      apply I in Ir. apply in_map_iff in Ir as (x & <- & _). unfold f. apply (pad_to_row max_length pad_id (tok max_length x)). apply Ht.
  - exists bs. split; [exact E|]. rewrite map_length in D.
    eapply delivers_map; [|exact D]. intros xs c I NE G. subst f. destruct pd eqn:Ep; [congruence| |].
    + subst c. exists (max_nat (map (@length Z) (map (tok max_length) xs))). pose proof (max_nat_map (tok max_length) xs NE) as L.
      split; [|exact L]. unfold padded_rows.
      change (map (fun x => tok max_length x) xs) with (map (tok max_length) xs).
      set (w := max_nat _) in *. clearbody w. rewrite map_map. apply Forall2_map_r. intros x Ix. apply pad_to_row. now apply L.
    + subst c. exists max_length. split; [|reflexivity]. apply Forall2_map_r. intros x _. apply pad_to_row. apply Ht.
Qed.

Lemma seq_same_lengths : forall X (tok : nat -> X -> list Z) pad_id max_length map_size b shuffle drop perm (texts : list X) labels w,
  1 <= b -> 1 <= map_size -> Permutation perm (seq 0 (length texts)) ->
  (forall ls, labels = Some ls -> length ls = length texts) ->
  (forall x, In x texts -> length (tok max_length x) = w) ->
  exists batches, seq_loader_pass tok pad_id NoPadding max_length map_size b shuffle drop perm texts labels = Ok batches /\
    delivers (fun xs rows => rows = map (tok max_length) xs) texts labels b (pass_order (length texts) b shuffle drop perm) batches.
Proof.
  intros X tok pad_id max_length map_size b shuffle drop perm texts labels w Hb Hm P Hl Ht.
  unfold seq_loader_pass, seq_tokenize. rewrite map_batched_map by exact Hm. cbn [bind].
  destruct (loader_pass_delivers (fun _ => seq_collate pad_id NoPadding) (fun rs c => c = rs)
    b shuffle drop perm (map (tok max_length) texts) labels) as (bs & E & D).
  - exact Hb.
  - now rewrite map_length.
  - intros ls El. rewrite map_length. auto.
  - intros _ rs NE I. exists rs. split; [|reflexivity]. apply (stack_same w). apply Forall_forall. intros r Ir.
    apply I in Ir. apply in_map_iff in Ir as (x & <- & Ix). auto.
  - exists bs. split; [exact E|]. rewrite map_length in D. eapply delivers_map; [|exact D]. intros xs c _ _ G. exact G.
Qed.

Lemma mapM_err {A B} (f : A -> result B) e : forall l, (forall x, In x l -> (exists y, f x = Ok y) \/ f x = Err e) ->
  (exists x, In x l /\ f x = Err e) -> mapM f l = Err e.
Proof.
  induction l as [|x r IH]; intros H (z & I & E); [destruct I|]. simpl.
  destruct (H x (or_introl eq_refl)) as [(y & Ey)|Ey]; rewrite Ey; [|reflexivity]. simpl.
  rewrite IH; [reflexivity| |].
  - intros w Iw. apply H. now right.
  - destruct I as [->|I]; [congruence|eauto].
Qed.

Lemma Forall2_in_l {A B} (P : A -> B -> Prop) l l' : Forall2 P l l' -> forall x, In x l -> exists y, In y l' /\ P x y.
Proof.
  intros H. induction H as [|a b l l' Hab F IH]; intros x I; [destruct I|].
  destruct I as [<-|I]; [exists b; split; [now left|exact Hab]|].
  destruct (IH x I) as (y & Iy & Py). exists y. split; [now right|exact Py].
Qed.

Lemma in_combine_seq {A} (l : list A) x : In x l -> exists k, In (k, x) (combine (seq 0 (length l)) l).
Proof.
  generalize 0. induction l as [|y r IH]; intros n I; [destruct I|]. simpl. destruct I as [->|I].
  - exists n. now left.
  - destruct (IH (S n) I) as (k & Hk). exists k. now right.
Qed.

(** without padding, a batch with sequences of two lengths *)
Lemma seq_ragged : forall X (tok : nat -> X -> list Z) pad_id max_length map_size b shuffle drop perm (texts : list X) labels idxss idxs i j x y,
  1 <= b -> 1 <= map_size -> Permutation perm (seq 0 (length texts)) ->
  (forall ls, labels = Some ls -> length ls = length texts) ->
  get_batches_idxs (length texts) b shuffle drop perm = Ok idxss -> In idxs idxss -> In i idxs -> In j idxs ->
  nth_error texts i = Some x -> nth_error texts j = Some y -> length (tok max_length x) <> length (tok max_length y) ->
  seq_loader_pass tok pad_id NoPadding max_length map_size b shuffle drop perm texts labels = Err ValueError.
Proof.
  intros X tok pad_id max_length map_size b shuffle drop perm texts labels idxss idxs i j x y Hb Hm P Hl E I Ii Ij Ex Ey NE.
  unfold seq_loader_pass, seq_tokenize. rewrite map_batched_map by exact Hm. cbn [bind].
  replace (map _ texts) with (map (tok max_length) texts) by reflexivity.
  unfold loader_pass. rewrite map_length, E. cbn [bind].
  destruct (batches_of_pass (length texts) b shuffle drop perm Hb P) as (idxss' & E' & Ec & F).
  rewrite E in E'. injection E' as <-.
  pose proof (pass_order_range (length texts) b shuffle drop perm P) as HR. rewrite <- Ec in HR.
  assert (A : forall k is, In is idxss -> exists rs l, gather is (map (tok max_length) texts) = Ok rs /\ selects is (map (tok max_length) texts) rs /\
     batch_at (fun _ => seq_collate pad_id NoPadding) (map (tok max_length) texts) labels (k, is) =
     bind (stack rs) (fun c => Ok (c, l))).
  { intros k is Ii'. assert (RI : Forall (fun i => i < length texts) is).
    { rewrite Forall_forall in *. intros z Iz. apply HR. apply in_concat. eauto. }
    destruct (gather_selects (map (tok max_length) texts) is) as (rs & Eg & Sg). { now rewrite map_length. }
    unfold batch_at. cbn [fst snd]. rewrite Eg. cbn [bind]. destruct labels as [ls|].
    - destruct (gather_selects ls is) as (ys & Ey' & Sy). { now rewrite (Hl ls eq_refl). }
      exists rs, (Some ys). rewrite Ey'. repeat split; assumption.
    - exists rs, None. repeat split; assumption. }
  apply mapM_err.
  - intros [k is] Ik. apply in_combine_r in Ik. destruct (A k is Ik) as (rs & l & _ & _ & ->).
    unfold stack. destruct rs as [|r rest]; [left; eexists; reflexivity|].
    destruct (forallb _ rest); [left; eexists; reflexivity|right; reflexivity].
  - destruct (in_combine_seq idxss idxs I) as (k & Ik). exists (k, idxs). split; [exact Ik|].
    destruct (A k idxs I) as (rs & l & _ & Sg & ->).
    assert (In (tok max_length x) rs /\ In (tok max_length y) rs) as [Ix Iy].
    { split.
      - destruct (Forall2_in_l _ _ _ Sg i Ii) as (z & Iz & Ez). rewrite nth_error_map, Ex in Ez. injection Ez as ->. exact Iz.
      - destruct (Forall2_in_l _ _ _ Sg j Ij) as (z & Iz & Ez). rewrite nth_error_map, Ey in Ez. injection Ez as ->. exact Iz. }
    unfold stack. destruct rs as [|r rest]; [destruct Ix|].
    destruct (forallb (fun x0 => length x0 =? length r) rest) eqn:B; [|reflexivity]. exfalso. apply NE.
    rewrite forallb_forall in B.
    assert (Q : forall z, In z (r :: rest) -> length z = length r).
    { intros z [->|Iz]; [reflexivity|]. apply Nat.eqb_eq. auto. }
    rewrite (Q _ Ix), (Q _ Iy). reflexivity.
Qed.

(** ---- targets and number of labels ---- *)
Lemma delivers_targets {X C} (good : list X -> C -> Prop) examples ls b order batches :
  delivers good examples (Some ls) b order batches -> order <> [] ->
  exists ys, loader_targets batches = Ok ys /\ selects order ls ys.
Proof.
  intros (idxss & E & F & G) NE. subst order.
  assert (H : exists yss, mapM (fun o : C * option (list Z) => match snd o with Some l => Ok l | None => Err TypeError end) batches = Ok yss /\
     selects (concat idxss) ls (concat yss)).
  { clear F NE. induction G as [|idxs o is os H1 H2 IH].
    - exists []. split; [reflexivity|constructor].
    - destruct IH as (yss & Ey & Sy). destruct H1 as (_ & ys & S1 & E1).
      exists (ys :: yss). simpl. rewrite E1. cbn [bind]. rewrite Ey. split; [reflexivity|]. apply Forall2_app; assumption. }
  destruct H as (yss & Ey & Sy). exists (concat yss). split; [|exact Sy].
  unfold loader_targets. destruct batches as [|o os].
  - inversion G; subst. simpl in NE. congruence.
  - rewrite Ey. reflexivity.
Qed.

Lemma selects_perm {A} idxs (l ys : list A) : Permutation idxs (seq 0 (length l)) -> selects idxs l ys -> forall y, In y ys <-> In y l.
Proof.
  intros P S1 y. split; [apply (selects_in _ _ _ S1)|]. intros I. apply In_nth_error in I as (i & E).
  assert (Ii : In i idxs). { apply Permutation_sym in P. apply (Permutation_in _ P). apply in_seq. 
    assert (i < length l) by (apply nth_error_Some; congruence). lia. }
  destruct (Forall2_in_l _ _ _ S1 i Ii) as (z & Iz & Ez). congruence.
Qed.

Lemma num_labels_of_pass : forall X C (good : list X -> C -> Prop) examples ls b shuffle perm batches,
  delivers good examples (Some ls) b (pass_order (length ls) b shuffle false perm) batches ->
  Permutation perm (seq 0 (length ls)) -> ls <> [] ->
  exists k distinct, loader_num_labels None batches = Ok k /\ NoDup distinct /\ (forall y, In y distinct <-> In y ls) /\ k = length distinct.
Proof.
  intros X C good examples ls b shuffle perm batches D P NE.
  assert (PO : Permutation (pass_order (length ls) b shuffle false perm) (seq 0 (length ls))).
  { unfold pass_order. destruct shuffle; [exact P|apply Permutation_refl]. }
  destruct (delivers_targets good examples ls b _ batches D) as (ys & E & S1).
  { intros E0. rewrite E0 in PO. apply Permutation_length in PO. rewrite seq_length in PO. destruct ls; [congruence|discriminate]. }
  exists (length (nodup Z.eq_dec ys)), (nodup Z.eq_dec ys).
  unfold loader_num_labels. rewrite E. split; [reflexivity|]. split; [apply NoDup_nodup|]. split; [|reflexivity].
  intros y. rewrite nodup_In. eapply selects_perm; eauto.
Qed.

Lemma unlabelled_targets : forall X C (good : list X -> C -> Prop) examples b order batches,
  delivers good examples None b order batches -> order <> [] -> loader_targets batches = Err TypeError.
Proof.
  intros X C good examples b order batches (idxss & E & F & G) NE.
  destruct G as [|idxs o is os (H1 & H2) H3]; [subst order; simpl in NE; congruence|].
  unfold loader_targets. simpl. now rewrite H2.
Qed.

Lemma passes_equal : forall K R C (permutation : K -> nat -> list nat) (collate : nat -> list R -> result C) b shuffle drop rng rows labels k i,
  i < k ->
  nth_error (hf_passes permutation (fun _ => collate) b shuffle drop rng rows labels k) i =
    Some (loader_pass collate b shuffle drop (permutation rng (length rows)) rows labels).
Proof.
  intros K R C permutation collate b shuffle drop rng rows labels k i H. unfold hf_passes.
  rewrite nth_error_map, (nth_error_nth' _ 0) by (rewrite seq_length; exact H). reflexivity.
Qed.
