From Coq Require Import List Arith Bool ZArith Reals Lra Lia Psatz.
From Verif Require Import Lib TempModel TempSpec PredSpec LapModel LapSpec LapProofs2 SngpModel SngpSpec SngpProofs ProbitModel ProbitSpec ProbitProofs ProbitProofs2 ProbitProofs3 ProbitProofs4.
Import ListNotations.
Open Scope R_scope.

Lemma scan_length B mem K inv : forall taus carry, length (scan B mem K inv carry taus) = length taus.
Proof. induction taus as [|t taus IH]; intros carry; cbn [scan]; [reflexivity|]. destruct (seq_step B mem K inv carry t). cbn [length]. now rewrite IH. Qed.
Lemma scan_prefix B mem K inv b d : forall a carry i, (i < length a)%nat -> nth i (scan B mem K inv carry (a ++ b)) d = nth i (scan B mem K inv carry a) d.
Proof.
  induction a as [|t a IH]; intros carry i Hi; [cbn in Hi; lia|]. cbn [app scan]. destruct (seq_step B mem K inv carry t) as [c' e]. destruct i as [|i]; cbn [nth]; [reflexivity|].
  apply IH. cbn [length] in Hi. lia.
Qed.
Lemma memory_scales np B sl n_final m G K inv c : (1 <= B)%nat -> (1 <= m <= n_final)%nat -> (n_final <= sl)%nat -> inverts B inv ->
  let init := (sl - n_final + 1)%nat in
  (forall t s a b, (init <= t)%nat -> (init <= s)%nat -> (a < B)%nat -> (b < B)%nat -> K t s a b = inner np (G t a) (G s b)) ->
  independent np (m * B) (token_rows B init G) c ->
  length (diag_Cs B m K inv sl n_final) = n_final /\
  forall i a, (i < m)%nat -> (a < B)%nat ->
  squared_distance np (i * B) (token_rows B init G) (G (init + i)%nat a) (nth i (diag_Cs B m K inv sl n_final) (fun _ => 0) a).
Proof.
  intros HB Hm Hn Hinv init HK Hc.
  pose proof (init_inv np B m init G K inv HB Hinv HK c Hc ltac:(lia)) as HI. set (carry := init_carry B m init K inv) in HI.
  assert (E : (sl - init = n_final - 1)%nat) by (unfold init; lia).
  assert (F : diag_Cs B m K inv sl n_final = (fun a => K init init a a) :: scan B m K inv carry (seq (init + 1) (n_final - 1))).
  { unfold diag_Cs. fold init. rewrite E. destruct (Nat.ltb_spec 1 n_final); [reflexivity|]. replace (n_final - 1)%nat with 0%nat by lia. reflexivity. }
  rewrite F. split.
  - cbn [length]. rewrite scan_length, seq_length. lia.
  - intros i a Hi Ha. destruct i as [|i].
    + cbn [nth]. rewrite Nat.add_0_r, Nat.mul_0_l. rewrite HK by lia. split; [exists (fun _ => 0)|intros v; apply Req_le]; apply inner_ext; intros p _; unfold residual, combination; rewrite rover_0; ring.
    + cbn [nth]. replace (n_final - 1)%nat with ((m - 1) + (n_final - m))%nat by lia. rewrite seq_app.
      rewrite (scan_prefix B m K inv (seq (init + 1 + (m - 1)) (n_final - m)) (fun _ => 0)) by (rewrite seq_length; lia).
      destruct (scan_spec np B m init G K inv HB Hinv HK c Hc (m - 1) 1 carry HI ltac:(lia) i a ltac:(lia) Ha) as [_ D].
      replace (init + S i)%nat with (init + 1 + i)%nat by lia. exact D.
Qed.
Lemma scaled_tokens lv B nf f ds : (nf <= length f)%nat -> length ds = nf -> (forall x, In x f -> length x = B) ->
  let before := (length f - nf)%nat in let out := scale_tokens lv nf f ds in
  length out = length f /\ (forall t, (t < before)%nat -> nth t out [] = nth t f []) /\
  forall i, (i < nf)%nat -> length (nth (before + i) out []) = B /\ forall a, (a < B)%nat ->
    nth a (nth (before + i) out []) 0 = nth a (nth (before + i) f []) 0 / (1 + PI / 8 * exp lv * nth i ds (fun _ => 0) a).
Proof.
  intros Hn LD HL before out. unfold out, scale_tokens. fold before.
  assert (LF : length (firstn before f) = before) by (rewrite firstn_length; unfold before; lia).
  assert (LK : length (skipn before f) = nf) by (rewrite skipn_length; unfold before; lia).
  split; [|split].
  - rewrite app_length, map_length, combine_length, LF, LK, LD. unfold before. lia.
  - intros t Ht. rewrite app_nth1 by lia. rewrite <- (firstn_skipn before f) at 2. rewrite app_nth1 by lia. reflexivity.
  - intros i Hi. set (g := fun q : list R * (nat -> R) => map (fun o => scaled_output lv (nth o (fst q) 0) (snd q o)) (seq 0 (length (fst q)))).
    assert (E : nth (before + i) (firstn before f ++ map g (@combine (list R) (nat -> R) (skipn before f) ds)) [] = g (nth (before + i) f [], nth i ds (fun _ => 0))).
    { rewrite app_nth2 by lia. rewrite LF. replace (before + i - before)%nat with i by lia.
      rewrite (nth_indep _ [] (g ([], fun _ => 0))) by (rewrite map_length, combine_length, LK, LD; lia). rewrite map_nth. f_equal.
      etransitivity; [apply (combine_nth (skipn before f) ds i [] (fun _ => 0)); etransitivity; [exact LK|symmetry; exact LD]|]. f_equal.
      rewrite <- (firstn_skipn before f) at 2. rewrite app_nth2 by lia. rewrite LF. f_equal. lia. }
    rewrite E. unfold g. cbn [fst snd]. assert (LX : length (nth (before + i) f []) = B) by (apply HL, nth_In; unfold before; lia). rewrite LX.
    split; [now rewrite map_length, seq_length|]. intros a Ha.
    rewrite nth_map_seq by exact Ha. reflexivity.
Qed.
Theorem sequential_memory : forall np B n_final memory nf m G K inv c log_var f, (1 <= B)%nat -> check_sizes (length f) n_final memory = Ok (nf, m) -> inverts B inv ->
  (forall x, In x f -> length x = B) ->
  let before := (length f - nf)%nat in
  (forall t s a b, (before + 1 <= t)%nat -> (before + 1 <= s)%nat -> (a < B)%nat -> (b < B)%nat -> K t s a b = inner np (G t a) (G s b)) ->
  independent np (m * B) (token_rows B (before + 1) G) c ->
  exists out, sequential_probit inv B K log_var n_final memory f = Ok out /\ length out = length f /\
  (forall t, (t < before)%nat -> nth t out [] = nth t f []) /\
  (forall i, (i < nf)%nat -> length (nth (before + i) out []) = B) /\
  forall i a, (i < m)%nat -> (a < B)%nat -> exists s,
    squared_distance np (i * B) (token_rows B (before + 1) G) (G (before + 1 + i)%nat a) s /\
    nth a (nth (before + i) out []) 0 = nth a (nth (before + i) f []) 0 / (1 + PI / 8 * exp log_var * s).
Proof.
  intros np B n_final memory nf m G K inv c lv f HB HS Hinv HL before HK Hc. unfold sequential_probit. rewrite HS. cbn [bind fst snd].
  pose proof (sizes_check (length f) n_final memory) as SC. rewrite HS in SC. destruct SC as (H1 & H2 & _).
  destruct (memory_scales np B (length f) nf m G K inv c HB ltac:(lia) H2 Hinv HK Hc) as [LD D].
  destruct (scaled_tokens lv B nf f (diag_Cs B m K inv (length f) nf) H2 LD HL) as (A1 & A2 & A3). fold before in A2, A3.
  eexists. split; [reflexivity|]. split; [exact A1|]. split; [exact A2|]. split; [intros i Hi; apply (A3 i Hi)|].
  intros i a Hi Ha. eexists. split; [exact (D i a Hi Ha)|]. apply (A3 i ltac:(lia)). exact Ha.
Qed.
Theorem memory_output_refuted : exists np G K inv c, inverts 1 inv /\
  (forall t s a b, K t s a b = inner np (G t a) (G s b)) /\ independent np 3 (token_rows 1 1 G) c /\
  forall log_var, exists out, sequential_probit inv 1 K log_var None (Some 1%Z) [[1]; [1]; [1]] = Ok out /\ nth 0 (nth 2 out []) 0 = 1 / (1 - PI / 8 * exp log_var).
Proof.
  assert (N : nth 2 (diag_Cs 1 1 (fun t s a b => inner 3 (rows3 t a) (rows3 s b)) inv1 3 3) (fun _ => 0) 0%nat = -1).
  { unfold diag_Cs. cbn [Nat.sub Nat.add Nat.ltb Nat.leb seq repeat app scan seq_step nth]. unfold seq_C, seq_M, seq_Jinv, seq_C, seq_M, compute_P. rewrite !isum_rover.
    cbn [Nat.mul Nat.add Nat.sub]. repeat rewrite rover_S. rewrite !rover_0.
    cbn [Nat.ltb Nat.leb Nat.sub nth andb Nat.div Nat.divmod fst Nat.modulo snd tl app]. unfold inv1, seq_C, seq_M, inner, rows3. rewrite ?isum_rover. cbn [Nat.mul Nat.add]. repeat rewrite rover_S. rewrite !rover_0.
    cbn [Nat.ltb Nat.leb Nat.sub nth andb Nat.div Nat.divmod fst Nat.modulo snd tl app]. field. }
  exists 3%nat, rows3, (fun t s a b => inner 3 (rows3 t a) (rows3 s b)), inv1, (1/100). split; [exact inv1_inverts|]. split; [reflexivity|]. split.
  - split; [lra|]. intros v. unfold inner, combination, token_rows, rows3. repeat rewrite rover_S. rewrite !rover_0. cbn [Nat.div Nat.divmod fst Nat.add Nat.ltb Nat.leb].
    set (x := v 0%nat). set (y := v 1%nat). set (z := v 2%nat). pose proof (Rle_0_sqr (x + y + z)). pose proof (Rle_0_sqr (y + z)). pose proof (Rle_0_sqr z).
    pose proof (Rle_0_sqr (x + 2 * (y + z))). pose proof (Rle_0_sqr (y + 2 * z)). unfold Rsqr in *. nra.
  - intros lv. eexists. split; [reflexivity|].
    change (nth 0 (nth 2 (scale_tokens lv 3 [[1]; [1]; [1]] (diag_Cs 1 1 (fun t s a b => inner 3 (rows3 t a) (rows3 s b)) inv1 3 3)) []) 0 = 1 / (1 - PI / 8 * exp lv)).
    destruct (scaled_tokens lv 1 3 [[1]; [1]; [1]] (diag_Cs 1 1 (fun t s a b => inner 3 (rows3 t a) (rows3 s b)) inv1 3 3)) as (_ & _ & A); [cbn; lia| |intros x [<-|[<-|[<-|[]]]]; reflexivity|].
    + cbn [diag_Cs Nat.sub Nat.ltb Nat.leb length]. rewrite scan_length. reflexivity.
    + destruct (A 2%nat ltac:(lia)) as [_ A']. specialize (A' 0%nat ltac:(lia)). cbn [length Nat.sub Nat.add] in A'. etransitivity; [exact A'|]. etransitivity; [exact (f_equal (fun z => 1 / (1 + PI / 8 * exp lv * z)) N)|]. f_equal. ring.
Qed.
