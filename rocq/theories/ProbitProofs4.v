From Coq Require Import List Arith Bool ZArith Reals Lra Lia Psatz.
From Verif Require Import Lib TempModel TempSpec PredSpec LapModel LapSpec LapProofs2 SngpModel SngpSpec SngpProofs ProbitModel ProbitSpec ProbitProofs ProbitProofs2 ProbitProofs3.
Import ListNotations.
Open Scope R_scope.

Lemma distance_bounds np n rows g s : squared_distance np n rows g s -> 0 <= s <= inner np g g.
Proof.
  intros [[w ->] H]. split; [apply inner_nonneg|]. eapply Rle_trans; [apply (H (fun _ => 0))|]. apply Req_le, inner_ext; intros p _; unfold residual, combination; rewrite rover_const0; try ring; intros; ring.
Qed.
Lemma distance_unique np n rows g s s' : squared_distance np n rows g s -> squared_distance np n rows g s' -> s = s'.
Proof. intros [[w E] H] [[w' E'] H']. apply Rle_antisym; [rewrite E'; apply H|rewrite E; apply H']. Qed.
Lemma distance_monotone np m n rows g s s' : (m <= n)%nat -> squared_distance np m rows g s -> squared_distance np n rows g s' -> s' <= s.
Proof.
  intros Hm [[w E] _] [_ H]. rewrite E. eapply Rle_trans; [apply (H (fun l => if (l <? m)%nat then w l else 0))|]. apply Req_le.
  assert (Q : forall p, residual n rows g (fun l => if (l <? m)%nat then w l else 0) p = residual m rows g w p).
  { intros p. unfold residual, combination. f_equal. rewrite (rover_trunc n m); [|exact Hm|].
    - apply rover_ext. intros l Hl. apply Nat.ltb_lt in Hl. now rewrite Hl.
    - intros i Hi. replace (i <? m)%nat with false by (symmetry; apply Nat.ltb_ge; lia). ring. }
  apply inner_ext; intros p _; apply Q.
Qed.
Theorem sequential_bounds : forall np B seq_length n_final G K inv c i a, (1 <= B)%nat -> (1 <= n_final <= seq_length)%nat -> inverts B inv ->
  (forall t s a b, (seq_length - n_final + 1 <= t)%nat -> (seq_length - n_final + 1 <= s)%nat -> (a < B)%nat -> (b < B)%nat -> K t s a b = inner np (G t a) (G s b)) ->
  independent np (n_final * B) (token_rows B (seq_length - n_final + 1) G) c -> (i < n_final)%nat -> (a < B)%nat ->
  0 <= nth i (diag_Cs B n_final K inv seq_length n_final) (fun _ => 0) a <= inner np (G (seq_length - n_final + 1 + i)%nat a) (G (seq_length - n_final + 1 + i)%nat a).
Proof.
  intros np B sl nf G K inv c i a HB Hn Hinv HK Hc Hi Ha. destruct (sequential_scales np B sl nf G K inv c HB Hn Hinv HK Hc) as [_ D].
  apply (distance_bounds _ _ _ _ _ (D i a Hi Ha)).
Qed.
Theorem sizes_check : forall seq_length n_final memory,
  match check_sizes seq_length n_final memory with
  | Ok (nf, m) => (1 <= m <= nf)%nat /\ (nf <= seq_length)%nat /\
      (match n_final with None => nf = seq_length | Some z => z = Z.of_nat nf end) /\ (match memory with None => m = nf | Some z => z = Z.of_nat m end)
  | Err e => e = ValueError /\
      ((exists z, n_final = Some z /\ (z <= 0 \/ Z.of_nat seq_length < z)%Z) \/ (n_final = None /\ seq_length = 0%nat) \/
       (exists z, memory = Some z /\ (z <= 0 \/ match n_final with None => Z.of_nat seq_length | Some n => n end < z)%Z))
  end.
Proof.
  intros sl nf m. unfold check_sizes. set (n := match nf with None => Z.of_nat sl | Some z => z end).
  destruct ((n <=? 0)%Z || (Z.of_nat sl <? n)%Z)%bool eqn:E.
  - split; [reflexivity|]. apply orb_true_iff in E. rewrite Z.leb_le, Z.ltb_lt in E. subst n. destruct nf as [z|]; [left; exists z; auto|right; left; split; [reflexivity|lia]].
  - apply orb_false_iff in E. rewrite Z.leb_gt, Z.ltb_ge in E. set (k := match m with None => n | Some z => z end).
    destruct ((k <=? 0)%Z || (n <? k)%Z)%bool eqn:F.
    + split; [reflexivity|]. apply orb_true_iff in F. rewrite Z.leb_le, Z.ltb_lt in F. right; right. destruct m as [z|]; [exists z; auto|exfalso; subst k; lia].
    + apply orb_false_iff in F. rewrite Z.leb_gt, Z.ltb_ge in F. split; [lia|]. split; [lia|]. split.
      * subst n. destruct nf; [symmetry; apply Z2Nat.id; lia|lia].
      * subst k. destruct m; [symmetry; apply Z2Nat.id; lia|reflexivity].
Qed.
Theorem sequential_output : forall np B n_final nf G K inv c log_var f, (1 <= B)%nat -> check_sizes (length f) n_final None = Ok (nf, nf) -> inverts B inv ->
  (forall x, In x f -> length x = B) ->
  let before := (length f - nf)%nat in
  (forall t s a b, (before + 1 <= t)%nat -> (before + 1 <= s)%nat -> (a < B)%nat -> (b < B)%nat -> K t s a b = inner np (G t a) (G s b)) ->
  independent np (nf * B) (token_rows B (before + 1) G) c ->
  exists out, sequential_probit inv B K log_var n_final None f = Ok out /\ length out = length f /\
  (forall t, (t < before)%nat -> nth t out [] = nth t f []) /\
  forall i, (i < nf)%nat -> length (nth (before + i) out []) = B /\ forall a, (a < B)%nat -> exists s,
    squared_distance np (i * B) (token_rows B (before + 1) G) (G (before + 1 + i)%nat a) s /\
    nth a (nth (before + i) out []) 0 = nth a (nth (before + i) f []) 0 / (1 + PI / 8 * exp log_var * s).
Proof.
  intros np B n_final nf G K inv c lv f HB HS Hinv HL before HK Hc. unfold sequential_probit. rewrite HS. cbn [bind fst snd].
  pose proof (sizes_check (length f) n_final None) as SC. rewrite HS in SC. destruct SC as (H1 & H2 & _).
  destruct (sequential_scales np B (length f) nf G K inv c HB ltac:(lia) Hinv HK Hc) as [LD D].
  set (ds := diag_Cs B nf K inv (length f) nf) in *. pose proof (LD : @length (nat -> R) ds = nf) as LD1. pose proof (LD : @length vec ds = nf) as LD2. eexists. split; [reflexivity|]. unfold scale_tokens. fold before.
  assert (LF : length (firstn before f) = before) by (rewrite firstn_length; unfold before; lia).
  assert (LK : length (skipn before f) = nf) by (rewrite skipn_length; unfold before; lia).
  split; [|split].
  - rewrite app_length, map_length, combine_length, LF, LK. first [rewrite LD1|rewrite LD2]. unfold before. lia.
  - intros t Ht. rewrite app_nth1 by lia. rewrite <- (firstn_skipn before f) at 2. rewrite app_nth1 by lia. reflexivity.
  - intros i Hi. set (g := fun q : list R * (nat -> R) => map (fun o => scaled_output lv (nth o (fst q) 0) (snd q o)) (seq 0 (length (fst q)))).
    assert (E : nth (before + i) (firstn before f ++ map g (@combine (list R) (nat -> R) (skipn before f) ds)) [] = g (nth (before + i) f [], nth i ds (fun _ => 0))).
    { rewrite app_nth2 by lia. rewrite LF. replace (before + i - before)%nat with i by lia.
      rewrite (nth_indep _ [] (g ([], fun _ => 0))) by (rewrite map_length, combine_length, LK; first [rewrite LD1|rewrite LD2]; lia). rewrite map_nth. f_equal.
      etransitivity; [apply (combine_nth (skipn before f) ds i [] (fun _ => 0)); etransitivity; [exact LK|symmetry; exact LD]|]. f_equal.
      rewrite <- (firstn_skipn before f) at 2. rewrite app_nth2 by lia. rewrite LF. f_equal. lia. }
    rewrite E. unfold g. cbn [fst snd]. assert (LX : length (nth (before + i) f []) = B) by (apply HL, nth_In; unfold before; lia). rewrite LX.
    split; [now rewrite map_length, seq_length|]. intros a Ha. exists (nth i ds (fun _ => 0) a). split; [apply (D i a Hi Ha)|].
    rewrite nth_map_seq by exact Ha. reflexivity.
Qed.
(** ---- limited memory ---- *)
Definition rows3 (t _a p : nat) : R := if (p <? t)%nat then 1 else 0.
Definition inv1 (X : nat -> nat -> R) : nat -> nat -> R := fun _ _ => / X 0%nat 0%nat.
Lemma inv1_inverts : inverts 1 inv1.
Proof.
  intros X [Y HY] i j Hi Hj. assert (i = 0%nat) by lia. assert (j = 0%nat) by lia. subst. specialize (HY 0%nat 0%nat ltac:(lia) ltac:(lia)).
  rewrite rover_S, rover_0 in *. cbn [Nat.eqb] in *. unfold inv1. apply Rmult_integral_contrapositive_currified in HY || idtac.
  assert (X 0%nat 0%nat <> 0) by (intros E; rewrite E in HY; lra). field. exact H.
Qed.
Theorem memory_refuted : exists np G K inv c, inverts 1 inv /\
  (forall t s a b, K t s a b = inner np (G t a) (G s b)) /\ independent np 3 (token_rows 1 1 G) c /\
  check_sizes 3 None (Some 1%Z) = Ok (3%nat, 1%nat) /\ nth 2 (diag_Cs 1 1 K inv 3 3) (fun _ => 0) 0%nat = -1.
Proof.
  exists 3%nat, rows3, (fun t s a b => inner 3 (rows3 t a) (rows3 s b)), inv1, (1/100). split; [exact inv1_inverts|]. split; [reflexivity|]. split; [|split; [reflexivity|]].
  - split; [lra|]. intros v. unfold inner, combination, token_rows, rows3. repeat rewrite rover_S. rewrite !rover_0. cbn [Nat.div Nat.divmod fst Nat.add Nat.ltb Nat.leb].
    set (x := v 0%nat). set (y := v 1%nat). set (z := v 2%nat). pose proof (Rle_0_sqr (x + y + z)). pose proof (Rle_0_sqr (y + z)). pose proof (Rle_0_sqr z).
    pose proof (Rle_0_sqr (x + 2 * (y + z))). pose proof (Rle_0_sqr (y + 2 * z)). unfold Rsqr in *. nra.
  - unfold diag_Cs. cbn [Nat.sub Nat.add Nat.ltb Nat.leb seq repeat app scan seq_step nth]. unfold seq_C, seq_M, seq_Jinv, seq_C, seq_M, compute_P. rewrite !isum_rover.
    cbn [Nat.mul Nat.add Nat.sub]. repeat rewrite rover_S. rewrite !rover_0.
    cbn [Nat.ltb Nat.leb Nat.sub nth andb Nat.div Nat.divmod fst Nat.modulo snd tl app]. unfold inv1, seq_C, seq_M, inner, rows3. rewrite ?isum_rover. cbn [Nat.mul Nat.add]. repeat rewrite rover_S. rewrite !rover_0.
    cbn [Nat.ltb Nat.leb Nat.sub nth andb Nat.div Nat.divmod fst Nat.modulo snd tl app]. 
    field.
Qed.
(** ---- top_k ---- *)
Theorem top_k_values : forall n_outputs indices diagC o, diagC <> [] -> (o < n_outputs)%nat -> In (nth o (topk_scales n_outputs indices diagC) 0) diagC.
Proof.
  intros n idx d o Hd Ho. unfold topk_scales. destruct (in_dec Nat.eq_dec o idx) as [X|X].
  - rewrite (fold_set_in (fun i => clamp_nth i d)) by (rewrite ?map_length, ?seq_length; assumption). apply nth_In. destruct d; [easy|cbn [length]; lia].
  - rewrite (fold_set_out (fun i => clamp_nth i d)) by (rewrite ?map_length, ?seq_length; assumption). rewrite nth_map_const by (now rewrite seq_length). apply rmax_spec, Hd.
Qed.
Theorem top_k_refuted : exists f d0 d1, top_indices 2 f = [1; 0]%nat /\ d0 <> d1 /\ nth 0 (topk_scales 2 (top_indices 2 f) [d1; d0]) 0 = d1 /\ nth 1 (topk_scales 2 (top_indices 2 f) [d1; d0]) 0 = d0.
Proof.
  exists [2; 1], 5, 7. assert (E : top_indices 2 [2; 1] = [1; 0]%nat).
  { unfold top_indices, last_k, ConfClassModel.argsort. cbn [length seq fold_right ConfClassModel.arg_insert]. unfold Rleb. cbn [nth]. destruct (Rle_dec 2 1); [lra|]. reflexivity. }
  split; [exact E|]. rewrite E. split; [lra|]. split; reflexivity.
Qed.
