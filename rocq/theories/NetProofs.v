(** The multilayer perceptron computes the textbook network (C103). *)
From Coq Require Import List Arith Lia Bool QArith Lqa.
From Verif Require Import Lib QuantModel ConfRegModel NetModel NetSpec.
Import ListNotations.
Open Scope nat_scope.


Lemma affine_length : forall l x, length (affine l x) = length (snd l).
Proof. intros l x. unfold affine. rewrite map_length, seq_length. reflexivity. Qed.

Lemma rows_forallb : forall d x, rows_of d x -> forallb (fun r => length r =? d) x = true.
Proof.
  intros d x H. apply forallb_forall. intros r Hr. apply Nat.eqb_eq.
  unfold rows_of in H. rewrite Forall_forall in H. apply H. exact Hr.
Qed.

Lemma dense_ok : forall ps name l d w x, ps name = Some l -> well_shaped l d w -> rows_of d x ->
  dense ps name w x = Ok (map (affine l) x).
Proof.
  intros ps name l d w x Hp (H1 & H2 & H3) Hx. unfold dense. rewrite Hp. unfold shape_ok.
  rewrite H3, Nat.eqb_refl, H1, (rows_forallb d x Hx).
  replace (forallb (fun r => length r =? w) (fst l)) with true; [reflexivity|].
  symmetry. apply rows_forallb. exact H2.
Qed.

Lemma affine_rows : forall l d w x, well_shaped l d w -> rows_of w (map (affine l) x).
Proof.
  intros l d w x (_ & _ & H). unfold rows_of. apply Forall_forall. intros r Hr.
  apply in_map_iff in Hr. destruct Hr as (y & <- & _). rewrite affine_length. exact H.
Qed.

Lemma rows_shape : forall d x y, map (@length Q) x = map (@length Q) y -> rows_of d y -> rows_of d x.
Proof.
  intros d x. induction x as [|r x IH]; intros [|s y] E H; cbn [map] in E; try discriminate; [constructor|].
  injection E as E1 E2. inversion H as [|? ? Hs Hy]; subst. constructor; [congruence|]. exact (IH y E2 Hy).
Qed.

Lemma dropout_shape : forall rate mask det k x, map (@length Q) (dropout rate mask det k x) = map (@length Q) x.
Proof.
  intros rate mask det k x. unfold dropout. destruct (det || Qeq_bool rate 0); [reflexivity|].
  destruct (Qeq_bool rate 1).
  - rewrite map_map. apply map_ext. intros r. apply map_length.
  - rewrite map_map. cbn [fst snd].
    rewrite (map_ext _ (fun p : nat * list Q => length (snd p))).
    + rewrite <- (map_map snd (@length Q)). f_equal.
      assert (G : forall (l : list (list Q)) k, map snd (combine (seq k (length l)) l) = l).
      { induction l as [|a l IH]; intros k0; [reflexivity|]. cbn [length seq combine map snd]. rewrite IH. reflexivity. }
      apply G.
    + intros p. rewrite map_length, combine_length, seq_length. apply Nat.min_id.
Qed.

Lemma dropout_det : forall rate mask k x, dropout rate mask true k x = x.
Proof. reflexivity. Qed.
Lemma dropout_zero : forall rate mask det k x, (rate == 0)%Q -> dropout rate mask det k x = x.
Proof. intros rate mask det k x H. unfold dropout. apply Qeq_bool_iff in H. rewrite H, orb_true_r. reflexivity. Qed.

Section Run.
Variable ps : params.
Variable rate : Q.
Variable mask : nat -> nat -> nat -> bool.
Variable train : bool.

(** the feature extractor layer by layer *)
Fixpoint run (acts : list (batch -> batch)) (k : nat) (ls : list layer) (x : batch) : batch :=
  match ls with
  | [] => x
  | l :: r => run acts (S k) r (dropout rate mask (negb train) k (nth k acts ident (map (affine l) x)))
  end.

Lemma nth_guard : forall (acts : list (batch -> batch)) i y,
  (if i <? length acts then nth i acts (fun x => x) y else y) = nth i acts ident y.
Proof.
  intros acts i y. destruct (i <? length acts) eqn:E.
  - f_equal.
  - apply Nat.ltb_ge in E. rewrite nth_overflow; [reflexivity|exact E].
Qed.

Lemma keeps_nth : forall acts i, Forall keeps_shape acts -> keeps_shape (nth i acts ident).
Proof.
  intros acts i H. destruct (nth_in_or_default i acts ident) as [Hin|E].
  - rewrite Forall_forall in H. apply H. exact Hin.
  - rewrite E. intros x. reflexivity.
Qed.

Lemma update_ok : forall widths acts i w l d x,
  nth_error widths i = Some w -> ps (Hidden i) = Some l -> well_shaped l d w -> rows_of d x ->
  update ps widths rate mask train acts i x = Ok (dropout rate mask (negb train) i (nth i acts ident (map (affine l) x))).
Proof.
  intros widths acts i w l d x Hw Hl Hs Hx. unfold update. rewrite Hw, (dense_ok ps _ l d w x Hl Hs Hx).
  unfold bind. rewrite nth_guard. reflexivity.
Qed.

Lemma step_rows : forall acts i l d w x, Forall keeps_shape acts -> well_shaped l d w ->
  rows_of w (dropout rate mask (negb train) i (nth i acts ident (map (affine l) x))).
Proof.
  intros acts i l d w x Ha Hs. eapply rows_shape; [apply dropout_shape|].
  eapply rows_shape; [apply keeps_nth; exact Ha|]. apply (affine_rows l d w x Hs).
Qed.

Lemma loop_ok : forall acts ls ws pre d e x,
  Forall keeps_shape acts -> chained d ws ls e -> rows_of d x ->
  (forall i l, nth_error ls i = Some l -> ps (Hidden (length pre + i)) = Some l) ->
  mlp_loop ps (pre ++ ws) rate mask train acts (seq (length pre) (length ws)) x = Ok (run acts (length pre) ls x)
  /\ rows_of e (run acts (length pre) ls x).
Proof.
  intros acts ls. induction ls as [|l ls IH]; intros ws pre d e x Ha Hc Hx Hp; inversion Hc; subst.
  - split; [reflexivity|exact Hx].
  - cbn [length seq mlp_loop run].
    rewrite (update_ok (pre ++ w :: ws0) acts (length pre) w l d x).
    + unfold bind.
      replace (pre ++ w :: ws0) with ((pre ++ [w]) ++ ws0) by (rewrite <- app_assoc; reflexivity).
      replace (S (length pre)) with (length (pre ++ [w])) by (rewrite app_length; cbn; lia).
      assert (R : rows_of w (dropout rate mask (negb train) (length pre) (nth (length pre) acts ident (map (affine l) x)))).
      { eapply step_rows; [exact Ha|eassumption]. }
      apply (IH ws0 (pre ++ [w]) w e); [exact Ha|assumption|exact R|].
      intros i l0 H. rewrite app_length. cbn [length]. rewrite <- Nat.add_assoc. apply (Hp (S i)). exact H.
    + rewrite nth_error_app2; [rewrite Nat.sub_diag; reflexivity|lia].
    + rewrite <- (Nat.add_0_r (length pre)). apply Hp. reflexivity.
    + assumption.
    + exact Hx.
Qed.
End Run.

Lemma rev_removelast : forall {A} (l : list A) a r, rev l = a :: r -> l = removelast l ++ [a].
Proof.
  intros A l a r H. apply (f_equal (@rev A)) in H. rewrite rev_involutive in H. cbn [rev] in H.
  rewrite H, removelast_last. reflexivity.
Qed.

Lemma removelast_forall : forall {A} (P : A -> Prop) l, Forall P l -> Forall P (removelast l).
Proof.
  intros A P l H. induction H as [|x l Hx H IH]; [constructor|]. cbn [removelast].
  destruct l; [constructor|]. constructor; assumption.
Qed.

Lemma run_forward : forall rate mask train (drop : nat -> batch -> batch) full as' ls k a last x,
  (forall j y, dropout rate mask (negb train) j y = y) ->
  (forall i, nth (k + i) full ident = nth i as' ident) -> length ls = S (length as') ->
  map (affine last) (a (run rate mask train full k ls x)) = forward (combine ls (as' ++ [a])) last x.
Proof.
  intros rate mask train drop full as'. induction as' as [|f as' IH]; intros ls k a last x Hd Hn Hl.
  - destruct ls as [|l [|? ?]]; try discriminate. cbn [run app combine forward].
    rewrite Hd. specialize (Hn 0). rewrite Nat.add_0_r in Hn. rewrite Hn. reflexivity.
  - destruct ls as [|l ls]; [discriminate|]. cbn [run app combine forward]. rewrite Hd.
    pose proof (Hn 0) as H0. rewrite Nat.add_0_r in H0. rewrite H0. cbn [nth].
    apply IH; [exact Hd| |cbn in Hl; lia].
    intros i. replace (S k + i) with (k + S i) by lia. rewrite Hn. reflexivity.
Qed.

Lemma chained_lengths : forall d ws ls e, chained d ws ls e -> length ls = length ws.
Proof. intros d ws ls e H. induction H; cbn; congruence. Qed.

(** evaluation of the network in terms of [run] *)
Lemma mlp_run : forall ps widths rate mask train acts layers last d e out x a r,
  rev acts = a :: r -> length widths = length acts -> Forall keeps_shape acts ->
  chained d widths layers e -> well_shaped last e out -> stores ps layers last -> rows_of d x ->
  mlp ps widths rate mask train acts out x
  = Ok (map (affine last) (a (run rate mask train (removelast acts) 0 layers x))).
Proof.
  intros ps widths rate mask train acts layers last d e out x a r Hr Hlen Ha Hc Hlast (Hs & Hp) Hx.
  unfold mlp, net_call. rewrite Hlen, Nat.eqb_refl, Hr. cbn [negb].
  unfold mlp_features.
  destruct (loop_ok ps rate mask train (removelast acts) layers widths [] d e x) as (E & R).
  - apply removelast_forall. exact Ha.
  - exact Hc.
  - exact Hx.
  - intros i l H. cbn [length Nat.add]. apply Hs. exact H.
  - cbn [app length] in E, R. rewrite E. unfold bind, output_subnet.
    apply (dense_ok ps Last last e out); [exact Hp|exact Hlast|].
    eapply rows_shape; [|exact R].
    assert (K : keeps_shape a).
    { rewrite Forall_forall in Ha. apply Ha. apply in_rev. rewrite Hr. left. reflexivity. }
    apply K.
Qed.

Lemma nonempty_rev : forall {A B} (l : list A) (m : list B), length l = length m -> l <> [] -> exists a r, rev m = a :: r.
Proof.
  intros A B l m H Hn. destruct (rev m) as [|a r] eqn:E; [|eauto].
  apply (f_equal (@length B)) in E. rewrite rev_length in E. destruct l; [congruence|cbn in *; lia].
Qed.

Lemma mlp_forward_gen : forall ps widths rate mask train acts layers last d e out x,
  (forall j y, dropout rate mask (negb train) j y = y) ->
  widths <> [] -> length widths = length acts -> Forall keeps_shape acts ->
  chained d widths layers e -> well_shaped last e out -> stores ps layers last -> rows_of d x ->
  mlp ps widths rate mask train acts out x = Ok (forward (combine layers acts) last x).
Proof.
  intros ps widths rate mask train acts layers last d e out x Hd Hne Hlen Ha Hc Hlast Hst Hx.
  destruct (nonempty_rev widths acts Hlen Hne) as (a & r & Hr).
  rewrite (mlp_run ps widths rate mask train acts layers last d e out x a r Hr Hlen Ha Hc Hlast Hst Hx).
  f_equal. pose proof (rev_removelast acts a r Hr) as Eacts.
  rewrite (run_forward rate mask train (fun _ y => y) (removelast acts) (removelast acts) layers 0 a last x).
  - apply (f_equal (fun q => forward (combine layers q) last x)). symmetry. exact Eacts.
  - exact Hd.
  - intros i. reflexivity.
  - rewrite (chained_lengths _ _ _ _ Hc), Hlen. rewrite Eacts at 1. rewrite app_length. cbn. lia.
Qed.

Lemma mlp_forward : forall ps widths rate mask acts layers last d e out x,
  widths <> [] -> length widths = length acts -> Forall keeps_shape acts ->
  chained d widths layers e -> well_shaped last e out -> stores ps layers last -> rows_of d x ->
  mlp ps widths rate mask false acts out x = Ok (forward (combine layers acts) last x).
Proof. intros. eapply mlp_forward_gen; eauto. Qed.

Lemma mlp_rate_zero : forall ps widths rate mask train acts out x, (rate == 0)%Q ->
  mlp ps widths rate mask train acts out x = mlp ps widths rate mask false acts out x.
Proof.
  intros ps widths rate mask train acts out x H. unfold mlp, net_call.
  destruct (negb (length widths =? length acts)); [reflexivity|]. destruct (rev acts) as [|a r]; [reflexivity|].
  unfold mlp_features.
  assert (G : forall is y, mlp_loop ps widths rate mask train (removelast acts) is y = mlp_loop ps widths rate mask false (removelast acts) is y).
  { induction is as [|i is IH]; intros y; [reflexivity|]. cbn [mlp_loop].
    assert (U : update ps widths rate mask train (removelast acts) i y = update ps widths rate mask false (removelast acts) i y).
    { unfold update. destruct (nth_error widths i); [|reflexivity]. destruct (dense ps (Hidden i) n y); [|reflexivity].
      unfold bind. rewrite !(dropout_zero rate mask) by exact H. reflexivity. }
    rewrite U. destruct (update ps widths rate mask false (removelast acts) i y); [|reflexivity]. unfold bind. apply IH. }
  rewrite G. reflexivity.
Qed.

Lemma mlp_shape : forall ps widths rate mask train acts layers last d e out x,
  widths <> [] -> length widths = length acts -> Forall keeps_shape acts ->
  chained d widths layers e -> well_shaped last e out -> stores ps layers last -> rows_of d x ->
  exists y, mlp ps widths rate mask train acts out x = Ok y /\ length y = length x /\ rows_of out y.
Proof.
  intros ps widths rate mask train acts layers last d e out x Hne Hlen Ha Hc Hlast Hst Hx.
  destruct (nonempty_rev widths acts Hlen Hne) as (a & r & Hr).
  eexists. split; [eapply mlp_run; eauto|]. split; [|eapply affine_rows; eauto].
  rewrite map_length.
  assert (K : keeps_shape a).
  { rewrite Forall_forall in Ha. apply Ha. apply in_rev. rewrite Hr. left. reflexivity. }
  assert (L : forall f, keeps_shape f -> forall y, length (f y) = length y).
  { intros f Hf y. rewrite <- (map_length (@length Q) (f y)), Hf, map_length. reflexivity. }
  rewrite (L a K).
  assert (G : forall ls k y, length (run rate mask train (removelast acts) k ls y) = length y).
  { induction ls as [|l ls IH]; intros k y; [reflexivity|]. cbn [run]. rewrite IH.
    rewrite (L (dropout rate mask (negb train) k)) by (intros z; apply dropout_shape).
    rewrite L by (apply keeps_nth, removelast_forall; exact Ha). apply map_length. }
  apply G.
Qed.

(** with row-wise activations every row of the output is a function of its own row *)
Lemma forward_rows : forall ls last, (forall l f, In (l, f) ls -> exists g, rowwise f g) ->
  exists F, forall x, forward ls last x = map F x.
Proof.
  induction ls as [|(l, f) ls IH]; intros last H.
  - exists (affine last). reflexivity.
  - destruct (IH last) as (F & HF); [intros; eapply H; right; eauto|].
    destruct (H l f) as (g & Hg); [left; reflexivity|].
    exists (fun r => F (g (affine l r))). intros x. cbn [forward]. rewrite HF, Hg, !map_map. reflexivity.
Qed.

Lemma mlp_rows : forall ps widths rate mask acts layers last d e out,
  widths <> [] -> length widths = length acts -> Forall keeps_shape acts -> Forall (fun f => exists g, rowwise f g) acts ->
  chained d widths layers e -> well_shaped last e out -> stores ps layers last ->
  exists F, forall x, rows_of d x -> mlp ps widths rate mask false acts out x = Ok (map F x).
Proof.
  intros ps widths rate mask acts layers last d e out Hne Hlen Ha Hg Hc Hlast Hst.
  destruct (forward_rows (combine layers acts) last) as (F & HF).
  - intros l f Hin. apply in_combine_r in Hin. rewrite Forall_forall in Hg. apply Hg. exact Hin.
  - exists F. intros x Hx. rewrite <- HF. eapply mlp_forward; eauto.
Qed.

Lemma mlp_bad_lengths : forall ps widths rate mask train acts out x,
  length widths <> length acts -> mlp ps widths rate mask train acts out x = Err ValueError.
Proof. intros. unfold mlp, net_call. apply Nat.eqb_neq in H. rewrite H. reflexivity. Qed.

Lemma mlp_no_layers : forall ps rate mask train out x, mlp ps [] rate mask train [] out x = Err IndexError.
Proof. reflexivity. Qed.

(** ---- dropout before or after the last activation ---- *)
Lemma batch_eq_refl : forall x, batch_eq x x.
Proof. intros x. induction x; constructor; [|assumption]. unfold row_eq. induction a; constructor; [reflexivity|assumption]. Qed.

Lemma dot_eq : forall x y k, row_eq x y -> (dot x k == dot y k)%Q.
Proof.
  intros x y k H. unfold dot. revert k. induction H as [|a b x y E H IH]; intros [|c k]; try reflexivity.
  unfold zip_with in *. cbn [combine map]. unfold qsum in *. cbn [fold_right fst snd]. rewrite IH, E. reflexivity.
Qed.

Lemma affine_eq : forall l x y, row_eq x y -> row_eq (affine l x) (affine l y).
Proof.
  intros l x y H. unfold affine, row_eq. induction (seq 0 (length (snd l))) as [|j js IH]; cbn [map]; constructor; [|exact IH].
  rewrite (dot_eq x y _ H). reflexivity.
Qed.

Lemma map_affine_eq : forall l x y, batch_eq x y -> batch_eq (map (affine l) x) (map (affine l) y).
Proof. intros l x y H. induction H; cbn [map]; constructor; [apply affine_eq; assumption|assumption]. Qed.


Lemma homogeneous_dropout : forall g rate mask det k x, homogeneous g -> (0 <= rate)%Q -> (rate <= 1)%Q ->
  batch_eq (map (map g) (dropout rate mask det k x)) (dropout rate mask det k (map (map g) x)).
Proof.
  intros g rate mask det k x (Hp & Hh) H0 H1. unfold dropout.
  assert (Z : (g 0 == 0)%Q).
  { rewrite (Hp 0%Q (0 * 0)%Q) by reflexivity. rewrite (Hh 0%Q 0%Q) by lra. ring. }
  destruct (det || Qeq_bool rate 0); [apply batch_eq_refl|].
  destruct (Qeq_bool rate 1) eqn:E1.
  - unfold batch_eq. induction x as [|r x IH]; cbn [map]; constructor; [|exact IH].
    unfold row_eq. induction r as [|v r IHr]; cbn [map]; constructor; [exact Z|exact IHr].
  - assert (Hpos : (0 < 1 - rate)%Q).
    { assert (~ (rate == 1)%Q) by (intros E; apply Qeq_bool_iff in E; congruence).
      destruct (Qlt_le_dec 0 (1 - rate)); [assumption|]. exfalso. apply H. lra. }
    assert (Hinv : (0 <= / (1 - rate))%Q) by (apply Qlt_le_weak, Qinv_lt_0_compat; exact Hpos).
    rewrite map_length.
    assert (G : forall n, batch_eq
      (map (map g) (map (fun p : nat * list Q => map (fun q : nat * Q => if mask k (fst p) (fst q) then (snd q / (1 - rate))%Q else 0%Q)
            (combine (seq 0 (length (snd p))) (snd p))) (combine (seq n (length x)) x)))
      (map (fun p : nat * list Q => map (fun q : nat * Q => if mask k (fst p) (fst q) then (snd q / (1 - rate))%Q else 0%Q)
            (combine (seq 0 (length (snd p))) (snd p))) (combine (seq n (length x)) (map (map g) x)))).
    { induction x as [|r x IH]; intros n; cbn [map length seq combine]; constructor; [|apply IH].
      cbn [fst snd]. rewrite map_length.
      assert (R : forall m, row_eq
        (map g (map (fun q : nat * Q => if mask k n (fst q) then (snd q / (1 - rate))%Q else 0%Q) (combine (seq m (length r)) r)))
        (map (fun q : nat * Q => if mask k n (fst q) then (snd q / (1 - rate))%Q else 0%Q) (combine (seq m (length r)) (map g r)))).
      { clear IH. induction r as [|v r IHr]; intros m; cbn [map length seq combine]; constructor; [|apply IHr].
        cbn [fst snd]. destruct (mask k n m); [|exact Z].
        unfold Qdiv. rewrite (Qmult_comm (g v)), <- Hh by exact Hinv. apply Hp. ring. }
      apply R. }
    apply G.
Qed.

Lemma run_dropout : forall rate mask train full as' ls k g a last x,
  homogeneous g -> (0 <= rate)%Q -> (rate <= 1)%Q -> (forall y, a y = map (map g) y) ->
  (forall i, nth (k + i) full ident = nth i as' ident) -> length ls = S (length as') ->
  batch_eq (map (affine last) (a (run rate mask train full k ls x)))
           (forward_dropout (dropout rate mask (negb train)) k (combine ls (as' ++ [a])) last x).
Proof.
  intros rate mask train full as'. induction as' as [|f as' IH]; intros ls k g a last x Hg H0 H1 Ha Hn Hl.
  - destruct ls as [|l [|? ?]]; try discriminate. cbn [run app combine forward_dropout].
    specialize (Hn 0). rewrite Nat.add_0_r in Hn. rewrite Hn. cbn [nth]. unfold ident.
    apply map_affine_eq. rewrite !Ha. apply homogeneous_dropout; assumption.
  - destruct ls as [|l ls]; [discriminate|]. cbn [run app combine forward_dropout].
    pose proof (Hn 0) as E0. rewrite Nat.add_0_r in E0. rewrite E0. cbn [nth].
    apply (IH ls (S k) g); try assumption; [|cbn in Hl; lia].
    intros i. replace (S k + i) with (k + S i) by lia. rewrite Hn. reflexivity.
Qed.

Lemma mlp_dropout : forall ps widths rate mask train acts g layers last d e out x,
  widths <> [] -> length widths = length acts -> Forall keeps_shape acts ->
  (forall y, List.last acts ident y = map (map g) y) -> homogeneous g -> (0 <= rate)%Q -> (rate <= 1)%Q ->
  chained d widths layers e -> well_shaped last e out -> stores ps layers last -> rows_of d x ->
  exists y, mlp ps widths rate mask train acts out x = Ok y
    /\ batch_eq y (forward_dropout (dropout rate mask (negb train)) 0 (combine layers acts) last x).
Proof.
  intros ps widths rate mask train acts g layers last d e out x Hne Hlen Ha Hg Hh H0 H1 Hc Hlast Hst Hx.
  destruct (nonempty_rev widths acts Hlen Hne) as (a & r & Hr).
  pose proof (rev_removelast acts a r Hr) as Eacts.
  eexists. split; [eapply mlp_run; eauto|].
  assert (Hag : forall y, a y = map (map g) y).
  { intros y. rewrite <- Hg. rewrite Eacts, last_last. reflexivity. }
  rewrite Eacts at 2.
  apply run_dropout with (g := g); try assumption.
  - intros i. reflexivity.
  - rewrite (chained_lengths _ _ _ _ Hc), Hlen. rewrite Eacts at 1. rewrite app_length. cbn. lia.
Qed.

(** a layer is the affine map with its kernel and bias: output [j] is [sum_i x_i W_ij + b_j] *)
Lemma qsum_zip_nth : forall (x y : list Q), length x = length y ->
  qsum (zip_with Qmult x y) = qsum (map (fun i => (nth i x 0 * nth i y 0)%Q) (seq 0 (length x))).
Proof.
  induction x as [|a x IH]; intros [|b y] E; cbn [length] in E; try discriminate; [reflexivity|].
  injection E as E. cbn [length seq map]. rewrite <- seq_shift, map_map.
  unfold zip_with in *. cbn [combine map fst snd nth]. unfold qsum in *. cbn [fold_right].
  rewrite (IH y E). reflexivity.
Qed.

Lemma affine_spec : forall l d w x j, well_shaped l d w -> length x = d -> j < w ->
  nth_error (affine l x) j
  = Some (qsum (map (fun i => nth i x 0 * nth j (nth i (fst l) []) 0) (seq 0 d)) + nth j (snd l) 0)%Q.
Proof.
  intros l d w x j (H1 & H2 & H3) Hx Hj. unfold affine.
  rewrite nth_error_map, (nth_error_nth' _ 0) by (rewrite seq_length; lia).
  rewrite seq_nth by lia. cbn [option_map Nat.add]. unfold dot.
  rewrite qsum_zip_nth by (rewrite map_length; lia). rewrite Hx.
  do 2 f_equal. f_equal. apply map_ext_in. intros i Hi. apply in_seq in Hi. f_equal.
  rewrite (nth_indep _ 0%Q (nth j [] 0%Q)) by (rewrite map_length; lia).
  rewrite (map_nth (fun r => nth j r 0%Q)). reflexivity.
Qed.

Lemma mlp_width_mismatch : forall ps w ws rate mask train acts l d out x, length (w :: ws) = length acts ->
  ps (Hidden 0) = Some l -> well_shaped l d w -> ~ rows_of d x ->
  mlp ps (w :: ws) rate mask train acts out x = Err RuntimeError.
Proof.
  intros ps w ws rate mask train acts l d out x E Hp (H1 & _) Hx. unfold mlp, net_call. rewrite E, Nat.eqb_refl. cbn [negb].
  assert (Hr : rev acts <> []) by (intro F; apply (f_equal (@length _)) in F; rewrite rev_length, <- E in F; discriminate).
  destruct (rev acts) as [|a q]; [congruence|].
  unfold mlp_features. cbn [length seq mlp_loop]. unfold update at 1. cbn [nth_error].
  unfold dense at 1. rewrite Hp. unfold shape_ok.
  replace (forallb (fun r => length r =? length (fst l)) x) with false; [rewrite andb_false_r; reflexivity|].
  symmetry. destruct (forallb _ x) eqn:F; [|reflexivity]. exfalso. apply Hx. rewrite forallb_forall in F.
  apply Forall_forall. intros r Hr'. rewrite <- H1. apply Nat.eqb_eq. apply F. exact Hr'.
Qed.
