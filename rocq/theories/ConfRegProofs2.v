From Coq Require Import List Arith ZArith QArith Qround Qminmax Qabs Bool Lia Lqa Permutation Sorted.
From Verif Require Import Lib QuantModel QuantSpec QuantProofs ConfRegModel ConfRegSpec ConfRegProofs.
Import ListNotations.
Open Scope Q_scope.

Lemma nth_map_seq {A} (f : nat -> A) n u x : nth_error (map f (seq 0 n)) u = Some x -> (u < n)%nat /\ f u = x.
Proof.
  intros H. assert (U : (u < n)%nat).
  { rewrite <- (seq_length n 0), <- (map_length f). apply nth_error_Some. rewrite H. discriminate. }
  split; [assumption|]. rewrite (map_nth_error f u (seq 0 n) (d := u)) in H; [now injection H|].
  rewrite (nth_error_nth' _ 0%nat) by (rewrite seq_length; lia). now rewrite seq_nth.
Qed.

(** ---- EnbPI ---- *)
Section E.
Variable agg : list Q -> Q.

Lemma enbpi_inv idx train test targets error is rs : enbpi agg idx train test targets error = Ok (is, rs) ->
  rs = map (enbpi_residual agg idx train targets) (seq 0 (n_train idx)) /\
  is = map (fun u => let c := quantile (map (fun t => enbpi_test_row agg idx test t u) (seq 0 (n_train idx))) (1 - error) in
                      (c - quantile rs (1 - error), c + quantile rs (1 - error))) (seq 0 (n_columns test)).
Proof.
  unfold enbpi. destruct (existsb _ idx); [discriminate|].
  destruct (negb _); [discriminate|]. destruct (negb _); [discriminate|].
  destruct (negb _); [discriminate|]. destruct (negb _); [discriminate|].
  intros H. injection H as <- <-. auto.
Qed.

(** symmetric about its own centre, one common half-width, which is not negative *)
Theorem enbpi_centred idx train test targets error is rs : (0 < n_train idx)%nat ->
  enbpi agg idx train test targets error = Ok (is, rs) ->
  exists half, 0 <= half /\ length is = n_columns test /\
    forall u lo hi, nth_error is u = Some (lo, hi) ->
      let c := quantile (map (fun t => enbpi_test_row agg idx test t u) (seq 0 (n_train idx))) (1 - error) in
      lo == c - half /\ hi == c + half.
Proof.
  intros T H. apply enbpi_inv in H. destruct H as (Er & Ei).
  exists (quantile rs (1 - error)). split.
  - assert (N : rs <> []). { rewrite Er. intros X. apply map_eq_nil in X. destruct (n_train idx); [lia|discriminate]. }
    destruct (quantile_bounds rs (1 - error) N) as (a & b & Ha & _ & L).
    assert (0 <= a); [|lra]. rewrite Er in Ha. apply in_map_iff in Ha. destruct Ha as (t & <- & _).
    unfold enbpi_residual. destruct (out_of_bag idx t); apply Qabs_nonneg.
  - split; [rewrite Ei, map_length, seq_length; reflexivity|].
    intros u lo hi Hu c. rewrite Ei in Hu.
    apply nth_map_seq in Hu. destruct Hu as (_ & Hu). cbv zeta in Hu. injection Hu as <- <-. unfold c. split; reflexivity.
Qed.

Lemma oob_spec idx t b : In b (out_of_bag idx t) <-> (b < length idx)%nat /\ ~ In t (nth b idx []).
Proof.
  unfold out_of_bag. rewrite filter_In, in_seq, negb_true_iff. split.
  - intros (H1 & H2). split; [lia|]. intros X.
    assert (existsb (Nat.eqb t) (nth b idx []) = true) by (apply existsb_exists; exists t; split; [assumption|apply Nat.eqb_refl]).
    congruence.
  - intros (H1 & H2). split; [lia|]. destruct (existsb _ _) eqn:E; [|reflexivity]. exfalso. apply H2.
    apply existsb_exists in E. destruct E as (x & Hx & E). apply Nat.eqb_eq in E. now subst.
Qed.

(** a residual never uses the prediction of a model trained on that point *)
Theorem enbpi_out_of_bag idx train1 train2 test targets error is1 rs1 is2 rs2 :
  (forall b t, (b < length idx)%nat -> ~ In t (nth b idx []) -> nth t (nth b train1 []) 0 = nth t (nth b train2 []) 0) ->
  enbpi agg idx train1 test targets error = Ok (is1, rs1) ->
  enbpi agg idx train2 test targets error = Ok (is2, rs2) -> rs1 = rs2 /\ is1 = is2.
Proof.
  intros A H1 H2. apply enbpi_inv in H1, H2. destruct H1 as (E1 & F1), H2 as (E2 & F2).
  assert (R : rs1 = rs2).
  { rewrite E1, E2. apply map_ext. intros t. unfold enbpi_residual.
    assert (M : map (fun b => nth t (nth b train1 []) 0) (out_of_bag idx t) = map (fun b => nth t (nth b train2 []) 0) (out_of_bag idx t)).
    { apply map_ext_in. intros b Hb. apply oob_spec in Hb. now apply A. }
    destruct (out_of_bag idx t) as [|b bs]; [reflexivity|]. now rewrite M. }
  split; [exact R|]. rewrite F1, F2, R. reflexivity.
Qed.

(** one update *)
Lemma enbpi_update_ok rs new_train new_test y error r : rs <> [] ->
  length new_train = length new_test -> n_columns new_train = 1%nat -> 
  enbpi_update agg rs new_train new_test [y] error = r ->
  snd r = tl rs ++ [Qabs (y - agg (column 0 new_train))] /\
  exists is, fst r = Ok (is, snd r) /\ length is = n_columns new_test /\
    forall u lo hi, nth_error is u = Some (lo, hi) ->
      lo == agg (column u new_test) - quantile (snd r) (1 - error) /\
      hi == agg (column u new_test) + quantile (snd r) (1 - error).
Proof.
  intros N L C <-. unfold enbpi_update. rewrite L, C, Nat.eqb_refl. simpl negb. cbv iota.
  destruct rs as [|r0 rest]; [congruence|]. simpl. split; [reflexivity|].
  eexists. split; [reflexivity|]. split; [now rewrite map_length, seq_length|].
  intros u lo hi Hu.
  apply nth_map_seq in Hu. destruct Hu as (_ & Hu). cbv zeta in Hu. injection Hu as <- <-. split; reflexivity.
Qed.

(** a stream of single new points *)
Theorem enbpi_window steps : forall rs error, rs <> [] ->
  Forall (fun s => length (fst (fst s)) = length (snd (fst s)) /\ n_columns (fst (fst s)) = 1%nat) steps ->
  let news := map (fun s => Qabs (snd s - agg (column 0 (fst (fst s))))) steps in
  enbpi_stream agg rs error steps = skipn (length steps) (rs ++ news).
Proof.
  induction steps as [|[[tr te] y] steps IH]; intros rs error N F news; [unfold news; simpl; now rewrite app_nil_r|].
  inversion F as [|? ? (F1 & F2) F3]; subst. simpl in F1, F2. cbn [enbpi_stream].
  destruct (enbpi_update_ok rs tr te y error _ N F1 F2 eq_refl) as (E & _). rewrite E.
  destruct rs as [|r0 rest]; [congruence|]. cbn [tl]. rewrite IH; [|destruct rest; discriminate|assumption].
  unfold news. simpl. now rewrite <- app_assoc.
Qed.

(** a batch of more than one point raises and has already shifted the residuals *)
Theorem enbpi_batch_fails rs new_train new_test ys error : rs <> [] -> length ys <> 1%nat ->
  length new_train = length new_test -> n_columns new_train = length ys ->
  enbpi_update agg rs new_train new_test ys error = (Err ValueError, tl rs ++ [last rs 0]).
Proof.
  intros N Y L C. unfold enbpi_update. rewrite L, C, !Nat.eqb_refl. simpl negb. cbv iota.
  destruct rs as [|r0 rest]; [congruence|]. destruct ys as [|y [|y2 ys]]; try reflexivity. simpl in Y. lia.
Qed.
End E.

(** ---- adaptive conformal inference ---- *)
Lemma clip_range e : 0 <= clip_error e <= 1.
Proof.
  unfold clip_error. destruct (Qlt_bool 1 e) eqn:A.
  - assert (X : Qlt_bool 1 0 = false) by (apply Qltb_false; lra). rewrite X. lra.
  - apply Qltb_false in A. destruct (Qlt_bool e 0) eqn:B; [lra|]. apply Qltb_false in B. lra.
Qed.
Lemma clip_id e : 0 <= e <= 1 -> clip_error e = e.
Proof.
  intros H. unfold clip_error. assert (A : Qlt_bool 1 e = false) by (apply Qltb_false; lra). rewrite A.
  assert (B : Qlt_bool e 0 = false) by (apply Qltb_false; lra). now rewrite B.
Qed.
Lemma clip_low e : e <= 1 -> e <= clip_error e.
Proof.
  intros H. unfold clip_error. assert (A : Qlt_bool 1 e = false) by (apply Qltb_false; lra). rewrite A.
  destruct (Qlt_bool e 0) eqn:B; [apply Qltb_true in B; lra|lra].
Qed.
Lemma clip_high e : 0 <= e -> clip_error e <= e.
Proof.
  intros H. unfold clip_error. destruct (Qlt_bool 1 e) eqn:A.
  - apply Qltb_true in A. assert (X : Qlt_bool 1 0 = false) by (apply Qltb_false; lra). rewrite X. lra.
  - assert (B : Qlt_bool e 0 = false) by (apply Qltb_false; lra). rewrite B. lra.
Qed.
Lemma clip_close e d : 0 <= e <= 1 -> Qabs (clip_error (e + d) - e) <= Qabs d.
Proof.
  intros H. apply Qabs_le. unfold clip_error.
  assert (Dp : d <= Qabs d) by apply Qle_Qabs.
  assert (Dn : - d <= Qabs d) by (rewrite <- Qabs_opp; apply Qle_Qabs).
  destruct (Qlt_bool 1 (e + d)) eqn:A.
  - apply Qltb_true in A. assert (X : Qlt_bool 1 0 = false) by (apply Qltb_false; lra). rewrite X. lra.
  - apply Qltb_false in A. destruct (Qlt_bool (e + d) 0) eqn:B; [apply Qltb_true in B|apply Qltb_false in B]; lra.
Qed.

Lemma of_bool_range b : 0 <= of_bool b <= 1. Proof. destruct b; simpl; lra. Qed.

Lemma update_inv c e t g ws hs e' : update_error_from c e t g ws hs = Ok e' ->
  0 < g /\ ((ws = None /\ hs = None /\ e' = clip_error (e + g * (t - 1 + of_bool c))) \/
   exists w h, ws = Some w /\ hs = Some h /\ weights_ok w = true /\
     (forall x, In x h -> x == 0 \/ x == 1) /\ length w = S (length h) /\
     e' = clip_error (e + g * (t - dot w (map (fun x => 1 - x) (h ++ [of_bool c]))))).
Proof.
  unfold update_error_from. qleb g 0; [discriminate|]. intros H. split; [assumption|].
  destruct ws as [w|], hs as [h|]; try discriminate.
  - right. exists w, h. destruct (weights_ok w) eqn:W; [|discriminate]. simpl in H.
    destruct (existsb _ h) eqn:X; [discriminate|].
    destruct (negb (_ =? _)%Z) eqn:L; [discriminate|]. apply negb_false_iff in L. apply Z.eqb_eq in L.
    injection H as <-. repeat split; auto; [|lia].
    intros x Hx. destruct (Qeq_bool x 0) eqn:A; [left; now apply Qeq_bool_iff|].
    destruct (Qeq_bool x 1) eqn:B; [right; now apply Qeq_bool_iff|]. exfalso.
    assert (existsb (fun h => negb (Qeq_bool h 0) && negb (Qeq_bool h 1)) h = true).
    { apply existsb_exists. exists x. rewrite A, B. auto. }
    congruence.
  - left. injection H as <-. auto.
Qed.

Theorem update_range c e t g ws hs e' : update_error_from c e t g ws hs = Ok e' -> 0 <= e' <= 1.
Proof.
  intros H. apply update_inv in H. destruct H as (_ & [(_ & _ & ->)|(w & h & _ & _ & _ & _ & _ & ->)]); apply clip_range.
Qed.

Theorem update_direction c e t g e' : 0 <= e <= 1 -> 0 <= t <= 1 ->
  update_error_from c e t g None None = Ok e' -> (if c then e <= e' else e' <= e) /\ Qabs (e' - e) <= g.
Proof.
  intros E T H. apply update_inv in H. destruct H as (G & [(_ & _ & ->)|(w & h & X & _)]); [|discriminate].
  split.
  - destruct c; simpl of_bool.
    + assert (0 <= g * (t - 1 + 1)) by (apply Qmult_le_0_compat; lra).
      destruct (Qlt_le_dec 1 (e + g * (t - 1 + 1))) as [L|L].
      * unfold clip_error. apply Qltb_true in L. rewrite L.
        assert (X : Qlt_bool 1 0 = false) by (apply Qltb_false; lra). rewrite X. lra.
      * pose proof (clip_low _ L). lra.
    + assert (0 <= g * (1 - t)) by (apply Qmult_le_0_compat; lra).
      destruct (Qlt_le_dec (e + g * (t - 1 + 0)) 0) as [L|L].
      * unfold clip_error. assert (X : Qlt_bool 1 (e + g * (t - 1 + 0)) = false) by (apply Qltb_false; lra). rewrite X.
        apply Qltb_true in L. rewrite L. lra.
      * pose proof (clip_high _ L). lra.
  - eapply Qle_trans; [apply clip_close; assumption|].
    rewrite Qabs_Qmult. rewrite (Qabs_pos g) by lra.
    setoid_replace g with (g * 1) at 2 by ring. rewrite !(Qmult_comm g). apply Qmult_le_compat_r; [|lra].
    apply Qabs_le. destruct c; simpl; lra.
Qed.

Lemma dot_cons w ws x xs : dot (w :: ws) (x :: xs) == w * x + dot ws xs.
Proof. unfold dot. rewrite zip_cons. simpl. reflexivity. Qed.

Lemma dot_range ws : forall xs, length ws = length xs -> (forall w, In w ws -> 0 <= w) -> (forall x, In x xs -> 0 <= x <= 1) ->
  0 <= dot ws xs <= qsum ws.
Proof.
  induction ws as [|w ws IH]; intros [|x xs] L W X; try discriminate; [simpl; unfold dot; simpl; lra|].
  rewrite dot_cons. simpl qsum.
  destruct (IH xs) as (I1 & I2); [now injection L|intros; apply W; now right|intros; apply X; now right|].
  pose proof (W w (or_introl eq_refl)). pose proof (X x (or_introl eq_refl)).
  assert (0 <= w * x) by (apply Qmult_le_0_compat; lra).
  assert (0 <= w * (1 - x)) by (apply Qmult_le_0_compat; lra). lra.
Qed.

Theorem update_weighted c e t g w h e' : 0 <= e <= 1 -> 0 <= t <= 1 ->
  update_error_from c e t g (Some w) (Some h) = Ok e' -> Qabs (e' - e) <= g * (1 + (1001 # 100000000)).
Proof.
  intros E T H. apply update_inv in H. destruct H as (G & [(X & _)|(w' & h' & X1 & X2 & W & HB & L & ->)]); [discriminate|].
  injection X1 as <-. injection X2 as <-.
  eapply Qle_trans; [apply clip_close; assumption|].
  rewrite Qabs_Qmult. rewrite (Qabs_pos g) by lra. rewrite !(Qmult_comm g). apply Qmult_le_compat_r; [|lra].
  unfold weights_ok in W. apply andb_true_iff in W. destruct W as (W & S). apply andb_true_iff in W. destruct W as (_ & W).
  apply Qleb_true in S. apply Qabs_le in S. rewrite forallb_forall in W.
  assert (D : 0 <= dot w (map (fun x => 1 - x) (h ++ [of_bool c])) <= qsum w).
  { apply dot_range.
    - rewrite map_length, app_length. simpl. lia.
    - intros x Hx. specialize (W x Hx). apply andb_true_iff in W. destruct W as (W & _). now apply Qleb_true in W.
    - intros x Hx. apply in_map_iff in Hx. destruct Hx as (y & <- & Hy). apply in_app_iff in Hy.
      destruct Hy as [Hy|[<-|[]]]; [destruct (HB y Hy); lra|]. pose proof (of_bool_range c). lra. }
  apply Qabs_le. lra.
Qed.

Theorem update_rejects c e t g w h :
  (g <= 0 -> update_error_from c e t g (Some w) (Some h) = Err ValueError /\ update_error_from c e t g None None = Err ValueError) /\
  update_error_from c e t g (Some w) None = Err ValueError /\ update_error_from c e t g None (Some h) = Err ValueError /\
  (0 < g -> ((exists e', update_error_from c e t g (Some w) (Some h) = Ok e') <->
     weights_ok w = true /\ (forall x, In x h -> x == 0 \/ x == 1) /\ length w = S (length h))).
Proof.
  split; [|split; [|split]].
  - intros G. apply Qleb_true in G. unfold update_error_from. rewrite G. auto.
  - unfold update_error_from. destruct (Qle_bool g 0); reflexivity.
  - unfold update_error_from. destruct (Qle_bool g 0); reflexivity.
  - intros G. split.
    + intros (e' & H). apply update_inv in H. destruct H as (_ & [(X & _)|(w' & h' & X1 & X2 & W & HB & L & _)]); [discriminate|].
      injection X1 as <-. injection X2 as <-. auto.
    + intros (W & HB & L). unfold update_error_from. apply Qleb_false in G. rewrite G, W. simpl.
      assert (X : existsb (fun h => negb (Qeq_bool h 0) && negb (Qeq_bool h 1)) h = false).
      { destruct (existsb _ h) eqn:X; [|reflexivity]. apply existsb_exists in X. destruct X as (x & Hx & B).
        apply andb_true_iff in B. destruct B as (B1 & B2). apply negb_true_iff in B1, B2.
        destruct (HB x Hx) as [Y|Y]; apply Qeq_bool_iff in Y; congruence. }
      rewrite X. assert (Y : (Z.of_nat (length h) =? Z.of_nat (length w) - 1)%Z = true) by (apply Z.eqb_eq; lia).
      rewrite Y. simpl. eauto.
Qed.

(** long runs *)
Lemma misses_cons c outs : misses (c :: outs) == 1 - of_bool c + misses outs.
Proof.
  unfold misses. rewrite count_cons, Nat2Z.inj_add, inject_Z_plus. destruct c; simpl; ring.
Qed.
Lemma qlen_cons {A} (x : A) l : qlen (x :: l) == 1 + qlen l.
Proof. unfold qlen. cbn [length]. rewrite Nat2Z.inj_succ. unfold Z.succ. rewrite inject_Z_plus. change (inject_Z 1) with 1. ring. Qed.

Lemma adaptive_total t g : 0 < g -> forall outs e, exists es, adaptive_run e t g outs = Ok es /\ length es = S (length outs).
Proof.
  intros G. induction outs as [|c outs IH]; intros e; simpl; [exists [e]; auto|].
  unfold update_error_from. apply Qleb_false in G. rewrite G. simpl.
  destruct (IH (clip_error (e + g * (t - 1 + of_bool c)))) as (es & H & L). rewrite H. simpl.
  exists (e :: es). split; [reflexivity|simpl; lia].
Qed.

Lemma adaptive_cons t g c outs e es : adaptive_run e t g (c :: outs) = Ok es ->
  0 < g /\ exists es', es = e :: es' /\ adaptive_run (clip_error (raw e t g c)) t g outs = Ok es'.
Proof.
  cbn [adaptive_run]. unfold update_error_from. qleb g 0; [discriminate|]. cbn [bind]. fold (raw e t g c).
  destruct (adaptive_run (clip_error (raw e t g c)) t g outs) as [es'|] eqn:R; [|discriminate].
  intros H. injection H as <-. split; [assumption|]. eauto.
Qed.

Lemma adaptive_head t g outs e es : adaptive_run e t g outs = Ok es -> exists es', es = e :: es'.
Proof.
  destruct outs as [|c outs]; [intros H; injection H as <-; eauto|].
  intros H. apply adaptive_cons in H. destruct H as (_ & es' & -> & _). eauto.
Qed.

Lemma last_cons2 {A} (x y d : A) l : last (x :: y :: l) d = last (y :: l) d. Proof. reflexivity. Qed.

Lemma adaptive_sum_low t g outs : forall e es, adaptive_run e t g outs = Ok es -> no_clip_below t g outs es ->
  last es 0 <= e + g * (t * qlen outs - misses outs).
Proof.
  induction outs as [|c outs IH]; intros e es H N.
  - injection H as <-. cbn [last]. setoid_replace (t * qlen (@nil bool) - misses []) with 0 by (unfold misses, qlen; simpl; ring). lra.
  - apply adaptive_cons in H. destruct H as (G & es' & -> & H).
    destruct (adaptive_head _ _ _ _ _ H) as (es2 & ->). rewrite last_cons2.
    specialize (IH _ _ H). rewrite misses_cons, qlen_cons.
    assert (N0 := N 0%nat ltac:(simpl; lia)). simpl nth in N0.
    assert (IH' : last (clip_error (raw e t g c) :: es2) 0 <= clip_error (raw e t g c) + g * (t * qlen outs - misses outs)).
    { apply IH. intros i Hi. apply (N (S i)). simpl. lia. }
    pose proof (clip_high _ N0) as CH. unfold raw in CH at 2.
    setoid_replace (e + g * (t * (1 + qlen outs) - (1 - of_bool c + misses outs)))
      with (e + g * (t - 1 + of_bool c) + g * (t * qlen outs - misses outs)) by ring. lra.
Qed.

Lemma adaptive_sum_high t g outs : forall e es, adaptive_run e t g outs = Ok es -> no_clip_above t g outs es ->
  e + g * (t * qlen outs - misses outs) <= last es 0.
Proof.
  induction outs as [|c outs IH]; intros e es H N.
  - injection H as <-. cbn [last]. setoid_replace (t * qlen (@nil bool) - misses []) with 0 by (unfold misses, qlen; simpl; ring). lra.
  - apply adaptive_cons in H. destruct H as (G & es' & -> & H).
    destruct (adaptive_head _ _ _ _ _ H) as (es2 & ->). rewrite last_cons2.
    specialize (IH _ _ H). rewrite misses_cons, qlen_cons.
    assert (N0 := N 0%nat ltac:(simpl; lia)). simpl nth in N0.
    assert (IH' : clip_error (raw e t g c) + g * (t * qlen outs - misses outs) <= last (clip_error (raw e t g c) :: es2) 0).
    { apply IH. intros i Hi. apply (N (S i)). simpl. lia. }
    pose proof (clip_low _ N0) as CH. unfold raw in CH at 1.
    setoid_replace (e + g * (t * (1 + qlen outs) - (1 - of_bool c + misses outs)))
      with (e + g * (t - 1 + of_bool c) + g * (t * qlen outs - misses outs)) by ring. lra.
Qed.

Lemma adaptive_all_range t g outs : forall e es, 0 <= e <= 1 -> adaptive_run e t g outs = Ok es -> Forall (fun x => 0 <= x <= 1) es.
Proof.
  induction outs as [|c outs IH]; intros e es E H.
  - injection H as <-. constructor; [assumption|constructor].
  - apply adaptive_cons in H. destruct H as (G & es' & -> & H). constructor; [assumption|].
    eapply IH; [|exact H]. apply clip_range.
Qed.

Lemma last_in {A} (l : list A) d : l <> [] -> In (last l d) l.
Proof.
  induction l as [|x l IH]; [congruence|]. intros _. destruct l as [|y l]; [now left|]. right. apply IH. discriminate.
Qed.

Lemma adaptive_last_range t g outs e es : 0 <= e <= 1 -> adaptive_run e t g outs = Ok es -> 0 <= last es 0 <= 1.
Proof.
  intros E H. pose proof (adaptive_all_range _ _ _ _ _ E H) as F. rewrite Forall_forall in F. apply F, last_in.
  destruct (adaptive_head _ _ _ _ _ H) as (es' & ->). discriminate.
Qed.

Lemma div_le g x : 0 < g -> g * x <= 1 -> x <= 1 / g.
Proof. intros G H. apply Qle_shift_div_l; [assumption|]. now rewrite Qmult_comm. Qed.

(** not too many misses when never clipped at 0; not too few when never clipped at 1 *)
Theorem adaptive_upper t g outs e es : 0 < g -> 0 <= e <= 1 -> adaptive_run e t g outs = Ok es -> no_clip_below t g outs es ->
  misses outs <= t * qlen outs + 1 / g.
Proof.
  intros G E H N. pose proof (adaptive_sum_low _ _ _ _ _ H N) as S.
  pose proof (adaptive_last_range _ _ _ _ _ E H) as R.
  assert (misses outs - t * qlen outs <= 1 / g); [|lra]. apply div_le; [assumption|].
  setoid_replace (g * (misses outs - t * qlen outs)) with (- (g * (t * qlen outs - misses outs))) by ring. lra.
Qed.
Theorem adaptive_lower t g outs e es : 0 < g -> 0 <= e <= 1 -> adaptive_run e t g outs = Ok es -> no_clip_above t g outs es ->
  t * qlen outs - 1 / g <= misses outs.
Proof.
  intros G E H N. pose proof (adaptive_sum_high _ _ _ _ _ H N) as S.
  pose proof (adaptive_last_range _ _ _ _ _ E H) as R.
  assert (t * qlen outs - misses outs <= 1 / g); [|lra]. apply div_le; [assumption|]. lra.
Qed.

(** averaged form *)
Theorem adaptive_longrun t g outs e es : 0 < g -> 0 <= e <= 1 -> outs <> [] -> adaptive_run e t g outs = Ok es ->
  no_clip_below t g outs es -> no_clip_above t g outs es ->
  Qabs (misses outs / qlen outs - t) <= 1 / (g * qlen outs).
Proof.
  intros G E N H B A. pose proof (adaptive_upper _ _ _ _ _ G E H B). pose proof (adaptive_lower _ _ _ _ _ G E H A).
  assert (P : 0 < qlen outs) by (apply inject_nat_pos; destruct outs; [congruence|simpl; lia]).
  assert (X : misses outs / qlen outs - t == (misses outs - t * qlen outs) / qlen outs) by (field; lra).
  assert (Y : 1 / (g * qlen outs) == (1 / g) / qlen outs) by (field; split; lra).
  rewrite X, Y. apply Qabs_le. split.
  - setoid_replace (- (1 / g / qlen outs)) with ((- (1 / g)) / qlen outs) by (field; split; lra).
    unfold Qdiv at 1 3. apply Qmult_le_compat_r; [lra|]. apply Qinv_le_0_compat. lra.
  - unfold Qdiv at 1 2. apply Qmult_le_compat_r; [lra|]. apply Qinv_le_0_compat. lra.
Qed.

(** with clipping: alternating misses and hits go on for ever although a miss never
    happens at error level 0 *)
Lemma alternate_misses n : misses (alternate n) == inject_Z (Z.of_nat n) /\ qlen (alternate n) == 2 * inject_Z (Z.of_nat n).
Proof.
  induction n as [|n (I1 & I2)]; [split; reflexivity|]. cbn [alternate].
  rewrite !misses_cons, !qlen_cons, I1, I2, nat_S_Q. simpl of_bool. split; ring.
Qed.

Theorem clipping_breaks t g n : 0 < g <= 1 -> 0 < t <= 1 # 2 ->
  exists es, adaptive_run (g * t) t g (alternate n) = Ok es /\
    (forall i, (i < length (alternate n))%nat -> nth i (alternate n) true = false -> 0 < nth i es 0) /\
    misses (alternate n) == (1 # 2) * qlen (alternate n).
Proof.
  intros G T.
  assert (P : 0 < g * t) by (setoid_replace 0 with (0 * t) by ring; apply Qmult_lt_compat_r; lra).
  assert (PL : g * t <= 1).
  { assert (g * t <= 1 * t) by (apply Qmult_le_compat_r; lra). lra. }
  assert (Z : 0 <= g * (1 - 2 * t)) by (apply Qmult_le_0_compat; lra).
  assert (K : forall e, e == g * t -> exists es, adaptive_run e t g (alternate n) = Ok es /\
    (forall i, (i < length (alternate n))%nat -> nth i (alternate n) true = false -> 0 < nth i es 0)).
  { induction n as [|n IH]; intros e Ee; [exists [e]; split; [reflexivity|simpl; intros; lia]|].
    set (e1 := clip_error (raw e t g false)). set (e2 := clip_error (raw e1 t g true)).
    assert (E1 : e1 == 0).
    { unfold e1, clip_error, raw. simpl of_bool.
      assert (A : Qlt_bool 1 (e + g * (t - 1 + 0)) = false) by (apply Qltb_false; lra). rewrite A.
      destruct (Qlt_bool _ 0) eqn:B; [reflexivity|]. apply Qltb_false in B. lra. }
    assert (E2 : e2 == g * t).
    { unfold e2. rewrite clip_id; unfold raw; simpl of_bool; lra. }
    destruct (IH e2 E2) as (es & H & Q). exists (e :: e1 :: es). cbn [alternate]. split.
    - cbn [adaptive_run]. unfold update_error_from.
      assert (GG : Qle_bool g 0 = false) by (apply Qleb_false; lra). rewrite GG. cbn [bind].
      fold (raw e t g false). fold e1. fold (raw e1 t g true). fold e2. rewrite H. reflexivity.
    - intros [|[|i]] Hi Fi; simpl in *; [lra|discriminate|]. apply Q; [lia|assumption]. }
  destruct (K (g * t) (Qeq_refl _)) as (es & H & Q). exists es. split; [assumption|]. split; [assumption|].
  destruct (alternate_misses n) as (M & L). rewrite M, L. ring.
Qed.
